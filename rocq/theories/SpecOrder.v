(** Specification vocabulary for the order of accuracy of the time integrators.  Points and velocities are lists of
    coordinates; a field may depend on time. *)
From Coq Require Import Reals.
From Verif Require Import Base Num SpecIntegrate.
Local Open Scope R_scope.

Definition coord (i : nat) (x : list R) : R := nth i x 0.

(** All coordinates of [x] and [y] differ by at most [e]. *)
Definition near (e : R) (x y : list R) : Prop :=
  length x = length y /\ forall i, Rabs (coord i x - coord i y) <= e.

(** A field in [d] dimensions, Lipschitz in space. *)
Definition lipschitz_field (d : nat) (L : R) (v : R -> list R -> list R) : Prop :=
  (forall t x, length x = d -> length (v t x) = d) /\
  (forall t x y e, length x = d -> length y = d -> near e x y -> near (L * e) (v t x) (v t y)).

(** [t] lies between [a] and [b], in either order. *)
Definition between (a b t : R) : Prop := Rmin a b <= t <= Rmax a b.

(** [g] is the time derivative of [f] between [a] and [b]. *)
Definition derivative (a b : R) (f g : R -> list R) : Prop :=
  forall t, between a b t -> forall i, derivable_pt_lim (fun s => coord i (f s)) t (coord i (g t)).

(** [y] is a trajectory of the field [v] between the times [a] and [b]. *)
Definition trajectory (d : nat) (v : R -> list R -> list R) (a b : R) (y : R -> list R) : Prop :=
  (forall t, length (y t) = d) /\ derivative a b y (fun t => v t (y t)).

(** [f] changes at a rate of at most [K] between [a] and [b]. *)
Definition rate (a b K : R) (f : R -> list R) : Prop :=
  forall s t, between a b s -> between a b t -> forall i, Rabs (coord i (f s) - coord i (f t)) <= K * Rabs (s - t).

(** [n] steps of size [h] from time [t0]; each step is given the field at its start. *)
Definition snapshots (v : R -> list R -> list R) (t0 h : R) (n : nat) : list ((list R -> list R) * R) :=
  map (fun k => (v (t0 + INR k * h), h)) (seq 0 n).

(** g 0 + ... + g (d - 1). *)
Fixpoint total (d : nat) (g : nat -> R) : R :=
  match d with O => 0 | S k => total k g + g k end.

(** The steady field [v] has a third order Taylor expansion at [x]: its partial derivatives up to order three (tensors
    [a], [b], [c]) are at most [K], and at distance [e <= r] the remainder is at most [K e^4]. *)
Definition taylor3 (d : nat) (K r : R) (v : list R -> list R) (x : list R) : Prop :=
  exists (a : nat -> nat -> R) (b : nat -> nat -> nat -> R) (c : nat -> nat -> nat -> nat -> R),
  (forall i j, Rabs (a i j) <= K) /\ (forall i j k, Rabs (b i j k) <= K) /\ (forall i j k l, Rabs (c i j k l) <= K) /\
  forall y e, length y = d -> e <= r -> near e y x -> forall i, (i < d)%nat ->
    let z j := coord j y - coord j x in
    Rabs (coord i (v y) - (coord i (v x) + total d (fun j => a i j * z j) +
      / 2 * total d (fun j => total d (fun k => b i j k * z j * z k)) +
      / 6 * total d (fun j => total d (fun k => total d (fun l => c i j k l * z j * z k * z l))))) <= K * e ^ 4.
