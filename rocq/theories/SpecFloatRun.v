(** Specification vocabulary for whole FTLE runs in binary64. *)
From Coq Require Import Reals Floats.
From Verif Require Import Base Num Jacobian Integrate SpecFtle SpecSeeds SpecIntegrate SpecOrder SpecFloat64 SpecFloatGrid SpecConverge SpecFloatJac SpecRounding.
Local Open Scope R_scope.

(** The accumulated rounding error of [n] steps of size [h] (C108): [delta] bounds the error of the velocities, [B] the
    region, [L] the velocity gradient. *)
Definition rounding_bound (n : nat) (h delta B L : R) : R :=
  INR n * (2 * Rabs h * delta + B / 2 ^ 50) * exp (2 * (INR n * Rabs h * L)).

(** The distance between opposite neighbours of a seed. *)
Definition side2 (G : group2 R) : R :=
  Rmin (Rabs (fst (g_right G) - fst (g_left G))) (Rabs (snd (g_top G) - snd (g_bottom G))).

(** The map [phi] carries the neighbours [G] of a seed to points that are not astronomically far away, with a gradient of
    norm [s].  Its singular values are apart by a gap [g] (which is 0 when they agree and 1 when one of them vanishes), and
    position errors of [E] are small against it. *)
Definition resolved2 (E : R) (phi : R * R -> R * R) (G : group2 R) (s : R) : Prop :=
  let Q := gradient2 G (image2 phi G) in
  spectral_norm_2 Q s /\ / 2 ^ 190 <= s <= 2 ^ 190 /\
  (exists g, / 2 ^ 20 <= g <= 1 /\ det22 Q * det22 Q <= (1 - g) * (s * s * (s * s)) /\ 2 ^ 8 * E <= g * (s * side2 G)) /\
  Forall (fun p => Rabs (fst (phi p)) <= 2 ^ 199 /\ Rabs (snd (phi p)) <= 2 ^ 199) (corners2 G).

(** [x] is the FTLE [ln s / T] of a gradient of norm [s] up to the effect of position errors of [E] on neighbours a
    distance [a] apart, and the rounding of the FTLE formula itself. *)
Definition ftle_within (E a s T : R) (x : PrimFloat.float) : Prop :=
  exists r, represents x r /\ Rabs (r - ln s / T) <= (/ 2 ^ 21 + 12 * E / (s * a)) / T.

(** The sizes in a run of [n] steps of size [h]: particles that start within [B0] and move no faster than [M + delta] stay
    within [B]; the integration time and the other magnitudes are not astronomically large or small; RK4 steps resolve the
    velocity gradient [L]. *)
Definition tame (m : method) (B B0 M delta L : R) (n : nat) (h : R) : Prop :=
  / 2 ^ 100 <= B <= 2 ^ 800 /\ / 2 ^ 500 <= M /\ 0 <= delta /\ 0 <= L /\ M + delta <= 2 ^ 800 /\ Rabs h <= 2 ^ 800 /\
  (2 <= n)%nat /\ INR n <= 2 ^ 47 /\ / 2 ^ 199 <= (INR n - 1) * Rabs h <= 2 ^ 199 /\
  2 * (B0 + 3 * (INR n * Rabs h * (M + delta))) <= B /\ (m = MRK4 -> Rabs h * L <= 1).

(** All neighbours of the seed lie within [B0]. *)
Definition within2 (B0 : R) (G : group2 R) : Prop := Forall (fun x => sized B0 (row2 x)) (corners2 G).

(** The flow of [v] takes the particle at [x] at time [a] to [phi x] at time [b] along a path that satisfies [C]. *)
Definition flow_along (C : (R -> list R) -> Prop) (v : R -> list R -> list R) (a b : R) (phi : R * R -> R * R) (x : R * R) : Prop :=
  exists y, y a = row2 x /\ trajectory 2 v a b y /\ y b = row2 (phi x) /\ C y.

(** What each method assumes about the velocity along a trajectory (C100, C101, C102): it changes no faster than [K];
    for AB2 its rate of change changes no faster than [J]; for RK4 it is bounded by [V]. *)
Definition regular (m : method) (v : R -> list R -> list R) (a b K J V : R) (y : R -> list R) : Prop :=
  rate a b K (fun t => v t (y t)) /\
  match m with
  | MEuler => True
  | MAB2 => exists acc, derivative a b (fun t => v t (y t)) acc /\ rate a b J acc
  | MRK4 => forall t i, between a b t -> Rabs (coord i (v t (y t))) <= V
  end.

(** The error of the method in exact arithmetic (C100, C101, C102). *)
Definition truncation (m : method) (n : nat) (h L K J V : R) : R :=
  match m with
  | MEuler => Rabs h * (INR n * Rabs h * K * exp (INR n * Rabs h * L))
  | MAB2 => h * h * ((K + 3 / 2 * J * (INR n * Rabs h)) * exp (2 * (INR n * Rabs h * L)))
  | MRK4 => Rabs h * (INR n * Rabs h * (K + L * V) * exp (INR n * Rabs h * L))
  end.
