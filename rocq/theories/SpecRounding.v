(** Specification vocabulary for time integration in binary64. *)
From Coq Require Import Reals Floats.
From Verif Require Import Base Num SpecIntegrate SpecOrder SpecFloat64.
Local Open Scope R_scope.

(** The binary64 vector [x] is finite and has the value [X]. *)
Definition stands (x : list PrimFloat.float) (X : list R) : Prop := Forall2 represents x X.

(** No coordinate is larger than [B]. *)
Definition sized (B : R) (X : list R) : Prop := forall i, Rabs (coord i X) <= B.

(** [f] evaluates the field [v] up to an error of [delta], at all points no larger than [B]. *)
Definition evaluates (d : nat) (B delta : R) (f : list PrimFloat.float -> list PrimFloat.float) (v : list R -> list R) : Prop :=
  forall x X, length X = d -> stands x X -> sized B X -> exists V, stands (f x) V /\ near delta V (v X).

(** The field is no faster than [M] at all points no larger than [B]. *)
Definition speed (d : nat) (B M : R) (v : list R -> list R) : Prop :=
  forall X, length X = d -> sized B X -> sized M (v X).

(** [n] steps of size [h]; step [k] is given the field [f k]. *)
Definition steps {T} (f : nat -> list T -> list T) (h : T) (n : nat) : list ((list T -> list T) * T) :=
  map (fun k => (f k, h)) (seq 0 n).
