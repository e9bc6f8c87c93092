(** Properties C100-C102: the order of accuracy of the integrators (src/pyftle/integrate.py) in exact arithmetic. *)
From Coq Require Import Reals Lra Lia.
From Verif Require Import Base Num Particles Integrate SpecIntegrate SpecOrder IntegrateMisc OrderMain.
Local Open Scope R_scope.

(** C100.  The Euler integrator is first order: the error after time [n h] is at most [h] times a constant. *)
Theorem C100_euler_first_order : forall {S} (interpolate : S -> mat R -> S * res (mat R)) I, samples_field interpolate I ->
  forall d v L M n h t0, lipschitz_field d L v -> 0 <= L -> 0 <= M ->
  forall mems k hist w s p, presents I hist (snapshots v t0 h n) -> I w s ->
  exists i' s' p', integrate_seq Rops interpolate mems k (fresh MEuler) s hist p = (i', s', p', Ok tt) /\
    Forall2 (fun x0 x1 => forall y, y t0 = x0 -> trajectory d v t0 (t0 + INR n * h) y ->
        rate t0 (t0 + INR n * h) M (fun t => v t (y t)) ->
        near (Rabs h * (INR n * Rabs h * M * exp (INR n * Rabs h * L))) x1 (y (t0 + INR n * h)))
      (mrows (positions p)) (mrows (positions p')).
Proof. exact @euler_global. Qed.
Print Assumptions C100_euler_first_order.

(** A particle on the unit circle, both time directions. *)
Example C100_case : forall n h, lipschitz_field 2 1 (fun _ => rot_field) /\
  trajectory 2 (fun _ => rot_field) 0 (0 + INR n * h) (fun t => [cos t; sin t]) /\
  rate 0 (0 + INR n * h) 1 (fun t => rot_field [cos t; sin t]).
Proof. intros. exact (conj rot_lipschitz (conj (circle_trajectory _ _) (circle_rate1 _ _))). Qed.

(** C101.  The AB2 integrator, started with one Euler step, is second order, also when the flow is unsteady. *)
Theorem C101_ab2_second_order : forall {S} (interpolate : S -> mat R -> S * res (mat R)) I, samples_field interpolate I ->
  forall d v L M K n h t0, lipschitz_field d L v -> 0 <= L -> 0 <= M -> 0 <= K ->
  forall mems k hist w s p, presents I hist (snapshots v t0 h n) -> I w s ->
  exists i' s' p', integrate_seq Rops interpolate mems k (fresh MAB2) s hist p = (i', s', p', Ok tt) /\
    Forall2 (fun x0 x1 => forall y acc, y t0 = x0 -> trajectory d v t0 (t0 + INR n * h) y ->
        rate t0 (t0 + INR n * h) M (fun t => v t (y t)) ->
        derivative t0 (t0 + INR n * h) (fun t => v t (y t)) acc -> rate t0 (t0 + INR n * h) K acc ->
        near (h * h * ((M + 3 / 2 * K * (INR n * Rabs h)) * exp (2 * (INR n * Rabs h * L)))) x1 (y (t0 + INR n * h)))
      (mrows (positions p)) (mrows (positions p')).
Proof. exact @ab2_global. Qed.
Print Assumptions C101_ab2_second_order.

Example C101_case : forall n h, derivative 0 (0 + INR n * h) (fun t => rot_field [cos t; sin t])
    (fun t => rot_field (rot_field [cos t; sin t])) /\
  rate 0 (0 + INR n * h) 1 (fun t => rot_field (rot_field [cos t; sin t])).
Proof. intros. exact (conj (circle_rotates _ _) (circle_rate2 _ _)). Qed.

(** C102.  The RK4 integrator evaluates all four slopes in the field of one snapshot.  Already in the smooth unsteady
    flow v = t, whose particle at rest at time 0 is at 1/2 at time 1, no constant bounds the error by [C h^2]. *)
Theorem C102_rk4_unsteady_refuted : forall {S} (interpolate : S -> mat R -> S * res (mat R)) I,
  samples_field interpolate I ->
  forall C N, exists n h, (N <= n)%nat /\ 0 < h /\ INR n * h = 1 /\
  forall mems k hist w s p, positions p = Mat 1 [[0]] -> presents I hist (snapshots (fun t _ => [t]) 0 h n) -> I w s ->
  exists i' s' p' x1, integrate_seq Rops interpolate mems k (fresh MRK4) s hist p = (i', s', p', Ok tt) /\
    mrows (positions p') = [x1] /\ ~ near (C * h ^ 2) x1 [1 / 2].
Proof. exact @rk4_unsteady. Qed.
Print Assumptions C102_rk4_unsteady_refuted.

Example C102_refuted_case : lipschitz_field 1 0 (fun t _ => [t]) /\
  trajectory 1 (fun t _ => [t]) 0 1 (fun t => [t * t / 2]).
Proof. exact (conj accel_lipschitz (fall_trajectory 0 1)). Qed.

(** What holds in every flow: first order. *)
Theorem C102_rk4_first_order : forall {S} (interpolate : S -> mat R -> S * res (mat R)) I, samples_field interpolate I ->
  forall d v L M B n h t0, lipschitz_field d L v -> 0 <= L -> 0 <= M -> Rabs h * L <= 1 ->
  forall mems k hist w s p, presents I hist (snapshots v t0 h n) -> I w s ->
  exists i' s' p', integrate_seq Rops interpolate mems k (fresh MRK4) s hist p = (i', s', p', Ok tt) /\
    Forall2 (fun x0 x1 => forall y, y t0 = x0 -> trajectory d v t0 (t0 + INR n * h) y ->
        rate t0 (t0 + INR n * h) M (fun t => v t (y t)) ->
        (forall t i, between t0 (t0 + INR n * h) t -> Rabs (coord i (v t (y t))) <= B) ->
        near (Rabs h * (INR n * Rabs h * (M + L * B) * exp (INR n * Rabs h * L))) x1 (y (t0 + INR n * h)))
      (mrows (positions p)) (mrows (positions p')).
Proof. exact @rk4_global. Qed.
Print Assumptions C102_rk4_first_order.

(** Fourth order in steady flows that are smooth along the trajectory; the constant depends on the bounds only. *)
Theorem C102_rk4_fourth_order : forall d L M K r T, 0 <= L -> 0 <= M -> exists C, forall S (interpolate : S -> mat R -> S * res (mat R)) I,
  samples_field interpolate I ->
  forall v n h t0, lipschitz_field d L (fun _ => v) -> INR n * Rabs h <= T -> Rabs h * L <= 1 -> 2 * Rabs h * M <= r ->
  forall mems k hist w s p, presents I hist (snapshots (fun _ => v) t0 h n) -> I w s ->
  exists i' s' p', integrate_seq Rops interpolate mems k (fresh MRK4) s hist p = (i', s', p', Ok tt) /\
    Forall2 (fun x0 x1 => forall y, y t0 = x0 -> trajectory d (fun _ => v) t0 (t0 + INR n * h) y ->
        (forall t, between t0 (t0 + INR n * h) t -> (forall i, Rabs (coord i (v (y t))) <= M) /\ taylor3 d K r v (y t)) ->
        near (C * h ^ 4) x1 (y (t0 + INR n * h)))
      (mrows (positions p)) (mrows (positions p')).
Proof. exact rk4_smooth_global. Qed.
Print Assumptions C102_rk4_fourth_order.

(** The shear flow (1, cos x), which is not linear. *)
Example C102_smooth_case : forall n h, lipschitz_field 2 1 (fun _ => shear) /\ trajectory 2 (fun _ => shear) 0 (0 + INR n * h) wave /\
  forall t, between 0 (0 + INR n * h) t -> (forall i, Rabs (coord i (shear (wave t))) <= 1) /\ taylor3 2 1 1 shear (wave t).
Proof. exact shear_case. Qed.

(** In steady linear flows, with an explicit constant and no bound on the step size. *)
Theorem C102_rk4_linear : forall {S} (interpolate : S -> mat R -> S * res (mat R)) I,
  samples_field interpolate I ->
  forall d A b L K n h t0, linear_on d A -> length b = d ->
  lipschitz_field d L (fun _ x => A x +v b) -> 0 <= L -> 0 <= K ->
  forall mems k hist w s p, presents I hist (snapshots (fun _ x => A x +v b) t0 h n) -> I w s ->
  exists i' s' p', integrate_seq Rops interpolate mems k (fresh MRK4) s hist p = (i', s', p', Ok tt) /\
    Forall2 (fun x0 x1 => forall y, y t0 = x0 -> trajectory d (fun _ x => A x +v b) t0 (t0 + INR n * h) y ->
        (forall t i, between t0 (t0 + INR n * h) t -> Rabs (coord i (A (A (A (A (A (y t) +v b)))))) <= K) ->
        near (h ^ 4 * (INR n * Rabs h * K * exp (INR n * Rabs h * L))) x1 (y (t0 + INR n * h)))
      (mrows (positions p)) (mrows (positions p')).
Proof. exact @rk4_linear_global. Qed.
Print Assumptions C102_rk4_linear.

Example C102_case : forall n h, linear_on 2 rot_field /\ lipschitz_field 2 1 (fun _ x => rot_field x +v [0; 0]) /\
  trajectory 2 (fun _ x => rot_field x +v [0; 0]) 0 (0 + INR n * h) (fun t => [cos t; sin t]) /\
  forall t i, between 0 (0 + INR n * h) t ->
    Rabs (coord i (rot_field (rot_field (rot_field (rot_field (rot_field [cos t; sin t] +v [0; 0])))))) <= 1.
Proof.
  intros. split; [exact rot_linear|]. split; [exact rot_shift_lipschitz|].
  split; [exact (circle_shift_trajectory _ _)|]. intros t i _. exact (circle_fifth t i).
Qed.
