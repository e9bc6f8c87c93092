(** Property C108: rounding of the time integration (src/pyftle/integrate.py) in binary64. *)
From Coq Require Import Reals Floats.
From Verif Require Import Base Num Particles Integrate SpecIntegrate SpecOrder SpecFloat64 SpecRounding FloatRuns.
Local Open Scope R_scope.

(** C108.  A run in binary64 with velocities accurate to [delta] beside the same run in exact arithmetic with the exact
    velocities: after [n] steps of size [h] the positions differ by at most
    [n (2 |h| delta + 2^-50 B) exp (2 n |h| L)], for each of the three integrators.  [B] bounds the region, [M] the
    speed, [L] the velocity gradient. *)
Theorem C108_rounding : forall lnF {SF} (intF : SF -> mat PrimFloat.float -> SF * res (mat PrimFloat.float)) IF, samples_field intF IF ->
  forall {SR} (intR : SR -> mat R -> SR * res (mat R)) IR, samples_field intR IR ->
  forall m d B B0 M delta L n h hF f v,
  / 2 ^ 100 <= B <= 2 ^ 800 -> / 2 ^ 500 <= M -> 0 <= delta -> 0 <= L -> M + delta <= 2 ^ 800 -> Rabs h <= 2 ^ 800 ->
  INR n <= 2 ^ 47 -> 2 * (B0 + 3 * (INR n * Rabs h * (M + delta))) <= B -> (m = MRK4 -> Rabs h * L <= 1) -> represents hF h ->
  (forall k, (k < n)%nat -> evaluates d B delta (f k) (v k) /\ speed d B M (v k) /\ lipschitz_field d L (fun _ => v k)) ->
  forall memF kF histF wF sF pF memR kR histR wR sR pR,
  presents IF histF (steps f hF n) -> presents IR histR (steps v h n) -> IF wF sF -> IR wR sR ->
  Forall2 stands (mrows (positions pF)) (mrows (positions pR)) ->
  Forall (fun X => length X = d /\ sized B0 X) (mrows (positions pR)) ->
  exists iF' sF' pF' iR' sR' pR',
    integrate_seq (Fops lnF) intF memF kF (fresh m) sF histF pF = (iF', sF', pF', Ok tt) /\
    integrate_seq Rops intR memR kR (fresh m) sR histR pR = (iR', sR', pR', Ok tt) /\
    Forall2 (fun x X => exists Y, stands x Y /\
        near (INR n * (2 * Rabs h * delta + B / 2 ^ 50) * exp (2 * (INR n * Rabs h * L))) Y X)
      (mrows (positions pF')) (mrows (positions pR')).
Proof. exact @runs_round. Qed.
Print Assumptions C108_rounding.

(** The saddle flow in a box of half-width 8, a particle at (1, 1), eight steps of 1/64. *)
Example C108_case : / 2 ^ 100 <= 8 <= 2 ^ 800 /\ / 2 ^ 500 <= 8 /\ 8 + 0 <= 2 ^ 800 /\ Rabs (1 / 64) <= 2 ^ 800 /\ INR 8 <= 2 ^ 47 /\
  2 * (1 + 3 * (INR 8 * Rabs (1 / 64) * (8 + 0))) <= 8 /\ Rabs (1 / 64) * 1 <= 1 /\ represents 0.015625%float (1 / 64) /\
  evaluates 2 8 0 saddle saddle /\ speed 2 8 8 saddle /\ lipschitz_field 2 1 (fun _ => saddle) /\
  stands [1; 1]%float [1; 1] /\ sized 1 [1; 1].
Proof. exact rounding_case. Qed.

(** The distance of the computed positions to the trajectory of the flow: rounding plus the error of the method.  Euler. *)
Theorem C108_euler_trajectory : forall lnF {SF} (intF : SF -> mat PrimFloat.float -> SF * res (mat PrimFloat.float)) IF, samples_field intF IF ->
  forall d B B0 M delta L K n h hF f v t0,
  / 2 ^ 100 <= B <= 2 ^ 800 -> / 2 ^ 500 <= M -> 0 <= delta -> 0 <= L -> M + delta <= 2 ^ 800 -> Rabs h <= 2 ^ 800 ->
  INR n <= 2 ^ 47 -> 2 * (B0 + 3 * (INR n * Rabs h * (M + delta))) <= B -> represents hF h -> 0 <= K ->
  lipschitz_field d L v ->
  (forall k, (k < n)%nat -> evaluates d B delta (f k) (v (t0 + INR k * h)) /\ speed d B M (v (t0 + INR k * h))) ->
  forall mems k hist w s p Xs,
  presents IF hist (steps f hF n) -> IF w s ->
  Forall2 stands (mrows (positions p)) Xs -> Forall (fun X => length X = d /\ sized B0 X) Xs ->
  exists i' s' p', integrate_seq (Fops lnF) intF mems k (fresh MEuler) s hist p = (i', s', p', Ok tt) /\
    Forall2 (fun x X => exists Y, stands x Y /\ forall y, y t0 = X -> trajectory d v t0 (t0 + INR n * h) y ->
        rate t0 (t0 + INR n * h) K (fun t => v t (y t)) ->
        near (INR n * (2 * Rabs h * delta + B / 2 ^ 50) * exp (2 * (INR n * Rabs h * L)) +
          Rabs h * (INR n * Rabs h * K * exp (INR n * Rabs h * L))) Y (y (t0 + INR n * h)))
      (mrows (positions p')) Xs.
Proof. exact @euler_true. Qed.
Print Assumptions C108_euler_trajectory.

(** AB2. *)
Theorem C108_ab2_trajectory : forall lnF {SF} (intF : SF -> mat PrimFloat.float -> SF * res (mat PrimFloat.float)) IF, samples_field intF IF ->
  forall d B B0 M delta L K J n h hF f v t0,
  / 2 ^ 100 <= B <= 2 ^ 800 -> / 2 ^ 500 <= M -> 0 <= delta -> 0 <= L -> M + delta <= 2 ^ 800 -> Rabs h <= 2 ^ 800 ->
  INR n <= 2 ^ 47 -> 2 * (B0 + 3 * (INR n * Rabs h * (M + delta))) <= B -> represents hF h -> 0 <= K -> 0 <= J ->
  lipschitz_field d L v ->
  (forall k, (k < n)%nat -> evaluates d B delta (f k) (v (t0 + INR k * h)) /\ speed d B M (v (t0 + INR k * h))) ->
  forall mems k hist w s p Xs,
  presents IF hist (steps f hF n) -> IF w s ->
  Forall2 stands (mrows (positions p)) Xs -> Forall (fun X => length X = d /\ sized B0 X) Xs ->
  exists i' s' p', integrate_seq (Fops lnF) intF mems k (fresh MAB2) s hist p = (i', s', p', Ok tt) /\
    Forall2 (fun x X => exists Y, stands x Y /\ forall y acc, y t0 = X -> trajectory d v t0 (t0 + INR n * h) y ->
        rate t0 (t0 + INR n * h) K (fun t => v t (y t)) ->
        derivative t0 (t0 + INR n * h) (fun t => v t (y t)) acc -> rate t0 (t0 + INR n * h) J acc ->
        near (INR n * (2 * Rabs h * delta + B / 2 ^ 50) * exp (2 * (INR n * Rabs h * L)) +
          h * h * ((K + 3 / 2 * J * (INR n * Rabs h)) * exp (2 * (INR n * Rabs h * L)))) Y (y (t0 + INR n * h)))
      (mrows (positions p')) Xs.
Proof. exact @ab2_true. Qed.
Print Assumptions C108_ab2_trajectory.

(** RK4. *)
Theorem C108_rk4_trajectory : forall lnF {SF} (intF : SF -> mat PrimFloat.float -> SF * res (mat PrimFloat.float)) IF, samples_field intF IF ->
  forall d B B0 M delta L K V n h hF f v t0,
  / 2 ^ 100 <= B <= 2 ^ 800 -> / 2 ^ 500 <= M -> 0 <= delta -> 0 <= L -> M + delta <= 2 ^ 800 -> Rabs h <= 2 ^ 800 ->
  INR n <= 2 ^ 47 -> 2 * (B0 + 3 * (INR n * Rabs h * (M + delta))) <= B -> Rabs h * L <= 1 -> represents hF h -> 0 <= K ->
  lipschitz_field d L v ->
  (forall k, (k < n)%nat -> evaluates d B delta (f k) (v (t0 + INR k * h)) /\ speed d B M (v (t0 + INR k * h))) ->
  forall mems k hist w s p Xs,
  presents IF hist (steps f hF n) -> IF w s ->
  Forall2 stands (mrows (positions p)) Xs -> Forall (fun X => length X = d /\ sized B0 X) Xs ->
  exists i' s' p', integrate_seq (Fops lnF) intF mems k (fresh MRK4) s hist p = (i', s', p', Ok tt) /\
    Forall2 (fun x X => exists Y, stands x Y /\ forall y, y t0 = X -> trajectory d v t0 (t0 + INR n * h) y ->
        rate t0 (t0 + INR n * h) K (fun t => v t (y t)) ->
        (forall t i, between t0 (t0 + INR n * h) t -> Rabs (coord i (v t (y t))) <= V) ->
        near (INR n * (2 * Rabs h * delta + B / 2 ^ 50) * exp (2 * (INR n * Rabs h * L)) +
          Rabs h * (INR n * Rabs h * (K + L * V) * exp (INR n * Rabs h * L))) Y (y (t0 + INR n * h)))
      (mrows (positions p')) Xs.
Proof. exact @rk4_true. Qed.
Print Assumptions C108_rk4_trajectory.
