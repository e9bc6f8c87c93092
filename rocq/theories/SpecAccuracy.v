(** Specification vocabulary for the accuracy of the 2D FTLE in binary64. *)
From Coq Require Import Reals Floats.
From Flocq Require Import Core.
From Verif Require Import Base Num Jacobian SpecFtle SpecFloat64.
Local Open Scope R_scope.

(** The entries of the binary64 matrix [F] are finite and have the values of those of [G]. *)
Definition stands_for (F : m22 PrimFloat.float) (G : m22 R) : Prop :=
  represents (a00 F) (a00 G) /\ represents (a01 F) (a01 G) /\
  represents (a10 F) (a10 G) /\ represents (a11 F) (a11 G).

(** No entry is larger than 2^200 and some entry is at least 2^-200 (in absolute value). *)
Definition moderate (G : m22 R) : Prop :=
  Forall (fun x => Rabs x <= 2 ^ 200) [a00 G; a01 G; a10 G; a11 G] /\
  Exists (fun x => / 2 ^ 200 <= Rabs x) [a00 G; a01 G; a10 G; a11 G].

(** The library's logarithm is accurate to 2^-40 on positive numbers. *)
Definition accurate_log (lnF : PrimFloat.float -> PrimFloat.float) : Prop :=
  forall x r, represents x r -> 0 < r -> exists l, represents (lnF x) l /\ Rabs (l - ln r) <= / 2 ^ 40.
