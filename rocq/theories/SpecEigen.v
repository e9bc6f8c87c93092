(** Specification vocabulary for the accuracy of the 3D FTLE in binary64. *)
From Coq Require Import Reals Floats.
From Verif Require Import Base Num Jacobian Ftle SpecFtle SpecFloat64.
Local Open Scope R_scope.

(** The entries of the binary64 matrix [F] are finite and have the values of those of [G]. *)
Definition stands_for3 (F : m33 PrimFloat.float) (G : m33 R) : Prop :=
  (represents (b00 F) (b00 G) /\ represents (b01 F) (b01 G) /\ represents (b02 F) (b02 G)) /\
  (represents (b10 F) (b10 G) /\ represents (b11 F) (b11 G) /\ represents (b12 F) (b12 G)) /\
  (represents (b20 F) (b20 G) /\ represents (b21 F) (b21 G) /\ represents (b22 F) (b22 G)).

Definition entries3 (G : m33 R) : list R := [b00 G; b01 G; b02 G; b10 G; b11 G; b12 G; b20 G; b21 G; b22 G].

(** No entry is larger than 2^200 and some entry is at least 2^-200 (in absolute value). *)
Definition moderate3 (G : m33 R) : Prop :=
  Forall (fun x => Rabs x <= 2 ^ 200) (entries3 G) /\ Exists (fun x => / 2 ^ 200 <= Rabs x) (entries3 G).

(** The library's eigenvalue routine, on a finite symmetric matrix with entries of size at most [N],
    returns three finite numbers, each within 2^-40 N of the eigenvalue it stands for.  Nothing is asked
    of it outside the range 2^-420 <= N <= 2^420, or on matrices that are not symmetric. *)
Definition accurate_eigvals (eigvals : eigvals_t (T := PrimFloat.float)) : Prop :=
  forall C S N, stands_for3 C S -> symmetric_3 S -> Forall (fun x => Rabs x <= N) (entries3 S) -> / 2 ^ 420 <= N <= 2 ^ 420 ->
    exists x y z X Y Z A B D, eigvals C = Ok (x, y, z) /\ represents x X /\ represents y Y /\ represents z Z /\
      roots_of_charpoly S (A, B, D) /\
      Rabs (X - A) <= / 2 ^ 40 * N /\ Rabs (Y - B) <= / 2 ^ 40 * N /\ Rabs (Z - D) <= / 2 ^ 40 * N.
