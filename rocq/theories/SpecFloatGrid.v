(** Vocabulary for interpolation on a grid in binary64. *)
From Coq Require Import Reals Floats.
From Verif Require Import Base Num NdArray SpecFloat64.
Local Open Scope R_scope.

(** The array holds finite binary64 numbers whose values are [V], at most [M] in absolute value. *)
Definition stores2 (v : nd PrimFloat.float) (sx sy : nat) (V : nat -> nat -> R) (M : R) : Prop :=
  shape v = [sx; sy] /\ forall i j, (i < sx)%nat -> (j < sy)%nat ->
    exists f, nd_get v [i; j] = Ok f /\ represents f (V i j) /\ Rabs (V i j) <= M.
Definition stores3 (v : nd PrimFloat.float) (sx sy sz : nat) (V : nat -> nat -> nat -> R) (M : R) : Prop :=
  shape v = [sx; sy; sz] /\ forall i j k, (i < sx)%nat -> (j < sy)%nat -> (k < sz)%nat ->
    exists f, nd_get v [i; j; k] = Ok f /\ represents f (V i j k) /\ Rabs (V i j k) <= M.

(** Points and their real values. *)
Definition stand2 (p : PrimFloat.float * PrimFloat.float) (q : R * R) : Prop :=
  represents (fst p) (fst q) /\ represents (snd p) (snd q).
Definition stand3 (p : PrimFloat.float * PrimFloat.float * PrimFloat.float) (q : R * R * R) : Prop :=
  represents (fst (fst p)) (fst (fst q)) /\ represents (snd (fst p)) (snd (fst q)) /\ represents (snd p) (snd q).

(** [x] is [r] up to the rounding errors of an interpolation of data not larger than [M]. *)
Definition accurate (M : R) (x : PrimFloat.float) (r : R) : Prop :=
  exists y, represents x y /\ Rabs (y - r) <= / 2 ^ 48 * M + / 2 ^ 1071.

(** Finite coordinates between [lo] and [hi], both attained. *)
Definition spans (xs : list PrimFloat.float) (lo hi : R) : Prop :=
  (forall x, In x xs -> exists X, represents x X /\ lo <= X <= hi) /\
  (exists x, In x xs /\ represents x lo) /\ (exists x, In x xs /\ represents x hi).

(** An extent that neither overflows nor underflows when it is divided into cells. *)
Definition sane_extent (lo hi : R) : Prop := / 2 ^ 900 <= hi - lo <= 2 ^ 900.

(** Position of [x] in units of the spacing of [n] equidistant nodes from [lo] to [hi]. *)
Definition position (n : nat) (lo hi x : R) : R := (x - lo) * (INR n - 1) / (hi - lo).

(** On the grid, and not so close to its last line that rounding can reach it. *)
Definition well_inside (n : nat) (t : R) : Prop := 0 <= t <= INR n - 1 - INR n / 2 ^ 50.

(** Samples, in the order of numpy's meshgrid, that are finite and at most [M] in absolute value. *)
Definition finite_samples (us : list PrimFloat.float) (n : nat) (U : nat -> R) (M : R) : Prop :=
  length us = n /\ forall k, (k < n)%nat -> exists f, nth_error us k = Some f /\ represents f (U k) /\ Rabs (U k) <= M.
