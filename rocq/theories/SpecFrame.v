(** Observers in uniform motion (C127).  Independent of the code.

    A second observer uses axes parallel to those of the first.  At the first snapshot the origin of
    the first has the coordinates [b] for the second, and it moves at the constant velocity [c]: what
    is at [p] for the first is at [p + b + t c] for the second at time [t], and moves at a velocity
    larger by [c]. *)
From Coq Require Import Reals.
From Verif Require Import Base Num SpecFtle SpecSolver SpecIntegrate.
Open Scope R_scope.

Definition plus2 (p q : R * R) : R * R := (fst p + fst q, snd p + snd q).
Definition plus3 (p q : R * R * R) : R * R * R := (fst (fst p) + fst (fst q), snd (fst p) + snd (fst q), snd p + snd q).

(** Where the origin of the first observer is at time [t]. *)
Definition origin2 (b c : R * R) (t : R) : R * R := (fst b + t * fst c, snd b + t * snd c).
Definition origin3 (b c : R * R * R) (t : R) : R * R * R :=
  (fst (fst b) + t * fst (fst c), snd (fst b) + t * snd (fst c), snd b + t * snd c).

(** [v'] is the velocity field [v] seen by the second observer at time [t]. *)
Definition seen2 (b c : R * R) (t : R) (v v' : R * R -> R * R) : Prop :=
  forall p, v' (plus2 p (origin2 b c t)) = plus2 (v p) c.
Definition seen3 (b c : R * R * R) (t : R) (v v' : R * R * R -> R * R * R) : Prop :=
  forall p, v' (plus3 p (origin3 b c t)) = plus3 (v p) c.

(** Methods that look at a snapshot once per step, at the start of the step. *)
Definition single_stage (m : method) : Prop := m = MEuler \/ m = MAB2.

(** A field with a constant gradient. *)
Definition affine_field2 (v : R * R -> R * R) : Prop := exists A k, forall p, v p = aff2 A k p.
Definition affine_field3 (v : R * R * R -> R * R * R) : Prop := exists A k, forall p, v p = aff3 A k p.
