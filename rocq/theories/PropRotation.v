(** Properties C139 and C140: solid-body rotation and incompressible flow, in exact arithmetic.

    [spin w] and [spin3 p q r] are the velocity gradients of rotations with angular velocity w and (p, q, r); [aff2 A b] is the flow x -> A x + b. *)
From Coq Require Import Reals Lra Lia.
From Verif Require Import Base Num Particles Jacobian Ftle Integrate DataSource Solver SpecFtle SpecSeeds SpecIntegrate
  SpecSolver SpecRotation IntegrateMisc ConvergeCases FrameMain StrainCases RotationFacts RotationCases SaddleFacts SpiralFacts SpiralBound VolumeFacts SpinFacts3 SpinEuler3 SpinAB2.
Local Open Scope R_scope.

(** C139: a body that rotates without deforming has FTLE zero.  The program reports another value: two Euler steps. *)
Theorem C139_refuted : exists w h n gs, Forall axis_aligned2 gs /\ (2 <= n)%nat /\ h <> 0 /\
  forall eigvals mems, exists x, x <> 0 /\
    snd (run Rops (@field_interp R) eigvals mems still (lone (on_rows2 (aff2 (spin w) (0, 0))) h n (mk_particles Rops (layout2 gs))) (start MEuler tt)) = Ok (Some [XVal x]).
Proof. exact spun_refutes. Qed.
Print Assumptions C139_refuted.

(** Missing: the value zero.  With Euler steps every seed has the same positive value, and it is at most n/(n-1) w^2 |h| / 2. *)
Theorem C139_euler_partial : forall (S P W : Type) interpolate eigvals mems
  (write : W -> string -> list (xval R) -> mat R -> W * res unit) I, samples_field interpolate I ->
  forall (sv : solver R S P) (wd : world R S P W) w0 w b gs id,
  presents_fields I (s_source sv) (fun _ => on_rows2 (aff2 (spin w) b)) -> I w0 (w_interp wd) ->
  w_integrator wd = fresh MEuler -> s_writer sv = false -> src_id (s_source sv) = Ok id ->
  src_particles (s_source sv) (w_source wd) = mk_particles Rops (layout2 gs) -> Forall axis_aligned2 gs ->
  (2 <= src_steps (s_source sv))%nat -> src_timestep (s_source sv) <> 0 -> w <> 0 ->
  let n := src_steps (s_source sv) in let h := src_timestep (s_source sv) in
  exists x, snd (run Rops interpolate eigvals mems write sv wd) = Ok (Some (map (fun _ => XVal x) gs)) /\
    x = INR n / (INR n - 1) * (ln (1 + (w * h) ^ 2) / (2 * Rabs h)) /\ 0 < x <= INR n / (INR n - 1) * (w ^ 2 * Rabs h / 2).
Proof. exact @rotation_euler. Qed.
Print Assumptions C139_euler_partial.

(** Missing: the value zero.  With RK4 steps that turn by at most one radian every seed has the same negative value, and it is
    above zero minus n/(n-1) (w h)^6 / (142 |h|). *)
Theorem C139_rk4_partial : forall (S P W : Type) interpolate eigvals mems
  (write : W -> string -> list (xval R) -> mat R -> W * res unit) I, samples_field interpolate I ->
  forall (sv : solver R S P) (wd : world R S P W) w0 w b gs id,
  presents_fields I (s_source sv) (fun _ => on_rows2 (aff2 (spin w) b)) -> I w0 (w_interp wd) ->
  w_integrator wd = fresh MRK4 -> s_writer sv = false -> src_id (s_source sv) = Ok id ->
  src_particles (s_source sv) (w_source wd) = mk_particles Rops (layout2 gs) -> Forall axis_aligned2 gs ->
  (2 <= src_steps (s_source sv))%nat -> src_timestep (s_source sv) <> 0 -> w <> 0 -> Rabs (w * src_timestep (s_source sv)) <= 1 ->
  let n := src_steps (s_source sv) in let h := src_timestep (s_source sv) in
  exists x, snd (run Rops interpolate eigvals mems write sv wd) = Ok (Some (map (fun _ => XVal x) gs)) /\
    x = INR n / (INR n - 1) * (ln (1 - (w * h) ^ 6 / 72 + (w * h) ^ 8 / 576) / (2 * Rabs h)) /\
    - (INR n / (INR n - 1) * ((w * h) ^ 6 / (142 * Rabs h))) <= x < 0.
Proof. exact @rotation_rk4. Qed.
Print Assumptions C139_rk4_partial.

(** Missing: the value zero.  With AB2 steps every seed has the same positive value, and it is at least ln (1 + (w h)^2) / (2 (n-1) |h|). *)
Theorem C139_ab2_partial : forall (S P W : Type) interpolate eigvals mems
  (write : W -> string -> list (xval R) -> mat R -> W * res unit) I, samples_field interpolate I ->
  forall (sv : solver R S P) (wd : world R S P W) w0 w b gs id,
  presents_fields I (s_source sv) (fun _ => on_rows2 (aff2 (spin w) b)) -> I w0 (w_interp wd) ->
  w_integrator wd = fresh MAB2 -> s_writer sv = false -> src_id (s_source sv) = Ok id ->
  src_particles (s_source sv) (w_source wd) = mk_particles Rops (layout2 gs) -> Forall axis_aligned2 gs ->
  (2 <= src_steps (s_source sv))%nat -> src_timestep (s_source sv) <> 0 -> w <> 0 ->
  let n := src_steps (s_source sv) in let h := src_timestep (s_source sv) in
  exists x, snd (run Rops interpolate eigvals mems write sv wd) = Ok (Some (map (fun _ => XVal x) gs)) /\
    0 < ln (1 + (w * h) ^ 2) / (2 * ((INR n - 1) * Rabs h)) <= x.
Proof. exact @rotation_ab2. Qed.
Print Assumptions C139_ab2_partial.

(** Four AB2 steps of -2 at three radians per unit of time. *)
Example C139_ab2_case : forall eigvals mems, exists x, 0 < x /\
  snd (run Rops (@field_interp R) eigvals mems still (lone (on_rows2 (aff2 (spin 3) (0, 0))) (-2) 4 (mk_particles Rops (layout2 [cross2]))) (start MAB2 tt)) = Ok (Some [XVal x]).
Proof.
  intros eigvals mems. destruct (C139_ab2_partial _ _ _ (@field_interp R) eigvals mems still (fun v s => s = v) field_interp_ok
    (lone (on_rows2 (aff2 (spin 3) (0, 0))) (-2) 4 (mk_particles Rops (layout2 [cross2]))) (start MAB2 tt) (fun x => x) 3 (0, 0) [cross2] "a"%string)
    as (x & E & L); try reflexivity; [apply steady_ok|constructor; [exact cross_aligned2|constructor]|cbn; lia|cbn; lra|lra|].
  exists x. split; [lra|exact E].
Qed.

(** AB2 steps that turn by at most half a radian: the value is at most w^2 |h| / (2 (n-1)), which comes from the first step, plus 2 w^4 |h|^3. *)
Theorem C139_ab2_small_partial : forall (S P W : Type) interpolate eigvals mems
  (write : W -> string -> list (xval R) -> mat R -> W * res unit) I, samples_field interpolate I ->
  forall (sv : solver R S P) (wd : world R S P W) w0 w b gs id,
  presents_fields I (s_source sv) (fun _ => on_rows2 (aff2 (spin w) b)) -> I w0 (w_interp wd) ->
  w_integrator wd = fresh MAB2 -> s_writer sv = false -> src_id (s_source sv) = Ok id ->
  src_particles (s_source sv) (w_source wd) = mk_particles Rops (layout2 gs) -> Forall axis_aligned2 gs ->
  (2 <= src_steps (s_source sv))%nat -> src_timestep (s_source sv) <> 0 -> Rabs (w * src_timestep (s_source sv)) <= 1 / 2 ->
  let n := src_steps (s_source sv) in let h := src_timestep (s_source sv) in
  exists x, snd (run Rops interpolate eigvals mems write sv wd) = Ok (Some (map (fun _ => XVal x) gs)) /\
    0 <= x <= w ^ 2 * Rabs h / (2 * (INR n - 1)) + 2 * w ^ 4 * Rabs h ^ 3.
Proof. exact @rotation_ab2_small. Qed.
Print Assumptions C139_ab2_small_partial.

(** Eleven AB2 steps of 1/10 at two radians per unit of time. *)
Example C139_ab2_small_case : forall eigvals mems, exists x, 0 <= x <= 1 / 10 /\
  snd (run Rops (@field_interp R) eigvals mems still (lone (on_rows2 (aff2 (spin 2) (0, 0))) (1 / 10) 11 (mk_particles Rops (layout2 [cross2]))) (start MAB2 tt)) = Ok (Some [XVal x]).
Proof.
  intros eigvals mems. destruct (C139_ab2_small_partial _ _ _ (@field_interp R) eigvals mems still (fun v s => s = v) field_interp_ok
    (lone (on_rows2 (aff2 (spin 2) (0, 0))) (1 / 10) 11 (mk_particles Rops (layout2 [cross2]))) (start MAB2 tt) (fun x => x) 2 (0, 0) [cross2] "a"%string)
    as (x & E & L); try reflexivity; [apply steady_ok|constructor; [exact cross_aligned2|constructor]|cbn; lia|cbn; lra|cbn; rewrite Rabs_pos_eq; lra|].
  exists x. split; [|exact E]. change (0 <= x <= 2 ^ 2 * Rabs (1 / 10) / (2 * (INR 11 - 1)) + 2 * 2 ^ 4 * Rabs (1 / 10) ^ 3) in L.
  rewrite (Rabs_pos_eq (1 / 10)) in L by lra. replace (INR 11) with 11 in L by (cbn; lra). lra.
Qed.

(** In three dimensions, with RK4 steps that turn by at most the square root of eight, every value is zero: the axis keeps its length and nothing grows.
    Missing: larger steps, and the other methods. *)
Theorem C139_rk4_3d_partial : forall (S P W : Type) interpolate eigvals mems
  (write : W -> string -> list (xval R) -> mat R -> W * res unit) I, samples_field interpolate I -> eigvals_ok eigvals ->
  forall (sv : solver R S P) (wd : world R S P W) w0 p q r b gs id,
  presents_fields I (s_source sv) (fun _ => on_rows3 (aff3 (spin3 p q r) b)) -> I w0 (w_interp wd) ->
  w_integrator wd = fresh MRK4 -> s_writer sv = false -> src_id (s_source sv) = Ok id ->
  src_particles (s_source sv) (w_source wd) = mk_particles Rops (layout3 gs) -> Forall axis_aligned3 gs ->
  (2 <= src_steps (s_source sv))%nat -> src_timestep (s_source sv) <> 0 ->
  (p ^ 2 + q ^ 2 + r ^ 2) * src_timestep (s_source sv) ^ 2 <= 8 ->
  snd (run Rops interpolate eigvals mems write sv wd) = Ok (Some (map (fun _ => XVal 0) gs)).
Proof. exact @rotation3_rk4. Qed.
Print Assumptions C139_rk4_3d_partial.

(** Missing: the value zero.  With Euler steps every seed has the value of the plane of rotation. *)
Theorem C139_euler_3d_partial : forall (S P W : Type) interpolate eigvals mems
  (write : W -> string -> list (xval R) -> mat R -> W * res unit) I, samples_field interpolate I -> eigvals_ok eigvals ->
  forall (sv : solver R S P) (wd : world R S P W) w0 p q r b gs id,
  presents_fields I (s_source sv) (fun _ => on_rows3 (aff3 (spin3 p q r) b)) -> I w0 (w_interp wd) ->
  w_integrator wd = fresh MEuler -> s_writer sv = false -> src_id (s_source sv) = Ok id ->
  src_particles (s_source sv) (w_source wd) = mk_particles Rops (layout3 gs) -> Forall axis_aligned3 gs ->
  (2 <= src_steps (s_source sv))%nat -> src_timestep (s_source sv) <> 0 ->
  let n := src_steps (s_source sv) in let h := src_timestep (s_source sv) in let V := p ^ 2 + q ^ 2 + r ^ 2 in
  exists x, snd (run Rops interpolate eigvals mems write sv wd) = Ok (Some (map (fun _ => XVal x) gs)) /\
    x = INR n / (INR n - 1) * (ln (1 + h ^ 2 * V) / (2 * Rabs h)) /\ 0 <= x <= INR n / (INR n - 1) * (V * Rabs h / 2).
Proof. exact @rotation3_euler. Qed.
Print Assumptions C139_euler_3d_partial.

(** With AB2 steps the bounds of two dimensions hold: the value is at least ln (1 + h^2 V) / (2 (n-1) |h|), and with steps of at most half a radian at most
    V |h| / (2 (n-1)) + 2 V^2 |h|^3. *)
Theorem C139_ab2_3d_partial : forall (S P W : Type) interpolate eigvals mems
  (write : W -> string -> list (xval R) -> mat R -> W * res unit) I, samples_field interpolate I -> eigvals_ok eigvals ->
  forall (sv : solver R S P) (wd : world R S P W) w0 p q r b gs id,
  presents_fields I (s_source sv) (fun _ => on_rows3 (aff3 (spin3 p q r) b)) -> I w0 (w_interp wd) ->
  w_integrator wd = fresh MAB2 -> s_writer sv = false -> src_id (s_source sv) = Ok id ->
  src_particles (s_source sv) (w_source wd) = mk_particles Rops (layout3 gs) -> Forall axis_aligned3 gs ->
  (2 <= src_steps (s_source sv))%nat -> src_timestep (s_source sv) <> 0 ->
  let n := src_steps (s_source sv) in let h := src_timestep (s_source sv) in let V := p ^ 2 + q ^ 2 + r ^ 2 in
  exists x, snd (run Rops interpolate eigvals mems write sv wd) = Ok (Some (map (fun _ => XVal x) gs)) /\
    ln (1 + h ^ 2 * V) / (2 * ((INR n - 1) * Rabs h)) <= x /\
    (h ^ 2 * V <= 1 / 4 -> x <= V * Rabs h / (2 * (INR n - 1)) + 2 * V ^ 2 * Rabs h ^ 3).
Proof. exact @rotation3_ab2. Qed.
Print Assumptions C139_ab2_3d_partial.

(** Eleven AB2 steps of 1/10 about the axis (1, 2, -1). *)
Example C139_ab2_case_3d : forall eigvals mems, eigvals_ok eigvals -> exists x,
  snd (run Rops (@field_interp R) eigvals mems still (lone (on_rows3 (aff3 (spin3 1 2 (-1)) (0, 0, 0))) (1 / 10) 11 (mk_particles Rops (layout3 [cross3]))) (start MAB2 tt)) = Ok (Some [XVal x]) /\
  ln (1 + 6 / 100) / 2 <= x <= 1 / 8.
Proof.
  intros eigvals mems He. destruct (C139_ab2_3d_partial _ _ _ (@field_interp R) eigvals mems still (fun v s => s = v) field_interp_ok He
    (lone (on_rows3 (aff3 (spin3 1 2 (-1)) (0, 0, 0))) (1 / 10) 11 (mk_particles Rops (layout3 [cross3]))) (start MAB2 tt) (fun x => x) 1 2 (-1) (0, 0, 0) [cross3] "a"%string)
    as (x & E & V); try reflexivity; [apply steady_ok|constructor; [exact cross_aligned3|constructor]|cbn; lia|change (1 / 10 <> 0); lra|].
  exists x. split; [exact E|].
  change (ln (1 + (1 / 10) ^ 2 * (1 ^ 2 + 2 ^ 2 + (-1) ^ 2)) / (2 * ((INR 11 - 1) * Rabs (1 / 10))) <= x /\
    ((1 / 10) ^ 2 * (1 ^ 2 + 2 ^ 2 + (-1) ^ 2) <= 1 / 4 -> x <= (1 ^ 2 + 2 ^ 2 + (-1) ^ 2) * Rabs (1 / 10) / (2 * (INR 11 - 1)) + 2 * (1 ^ 2 + 2 ^ 2 + (-1) ^ 2) ^ 2 * Rabs (1 / 10) ^ 3)) in V.
  rewrite (Rabs_pos_eq (1 / 10)) in V by lra. replace (INR 11) with 11 in V by (cbn; lra). destruct V as [L U]. specialize (U ltac:(lra)).
  replace (1 + (1 / 10) ^ 2 * (1 ^ 2 + 2 ^ 2 + (-1) ^ 2)) with (1 + 6 / 100) in L by field. split; lra.
Qed.

(** Five Euler steps of -1 about the axis (1, 2, -1). *)
Example C139_euler_case_3d : forall eigvals mems, eigvals_ok eigvals -> exists x,
  snd (run Rops (@field_interp R) eigvals mems still (lone (on_rows3 (aff3 (spin3 1 2 (-1)) (0, 0, 0))) (-1) 5 (mk_particles Rops (layout3 [cross3]))) (start MEuler tt)) = Ok (Some [XVal x]) /\
  x = 5 / 4 * (ln 7 / 2).
Proof.
  intros eigvals mems He. destruct (C139_euler_3d_partial _ _ _ (@field_interp R) eigvals mems still (fun v s => s = v) field_interp_ok He
    (lone (on_rows3 (aff3 (spin3 1 2 (-1)) (0, 0, 0))) (-1) 5 (mk_particles Rops (layout3 [cross3]))) (start MEuler tt) (fun x => x) 1 2 (-1) (0, 0, 0) [cross3] "a"%string)
    as (x & E & V & _); try reflexivity; [apply steady_ok|constructor; [exact cross_aligned3|constructor]|cbn; lia|cbn; lra|].
  exists x. split; [exact E|]. change (x = INR 5 / (INR 5 - 1) * (ln (1 + (-1) ^ 2 * (1 ^ 2 + 2 ^ 2 + (-1) ^ 2)) / (2 * Rabs (-1)))) in V.
  replace (1 + (-1) ^ 2 * (1 ^ 2 + 2 ^ 2 + (-1) ^ 2)) with 7 in V by ring. replace (Rabs (-1)) with 1 in V by (rewrite Rabs_left; lra).
  replace (INR 5) with 5 in V by (cbn; lra). rewrite V. field.
Qed.

(** Five RK4 steps of -1 about the axis (1, 2, -1). *)
Example C139_case_3d : forall eigvals mems, eigvals_ok eigvals ->
  snd (run Rops (@field_interp R) eigvals mems still (lone (on_rows3 (aff3 (spin3 1 2 (-1)) (0, 0, 0))) (-1) 5 (mk_particles Rops (layout3 [cross3]))) (start MRK4 tt)) = Ok (Some [XVal 0]).
Proof.
  intros eigvals mems He. apply (C139_rk4_3d_partial _ _ _ (@field_interp R) eigvals mems still (fun v s => s = v) field_interp_ok He
    (lone (on_rows3 (aff3 (spin3 1 2 (-1)) (0, 0, 0))) (-1) 5 (mk_particles Rops (layout3 [cross3]))) (start MRK4 tt) (fun x => x) 1 2 (-1) (0, 0, 0) [cross3] "a"%string);
    try reflexivity; [apply steady_ok|constructor; [exact cross_aligned3|constructor]|cbn; lia|cbn; lra|cbn; lra].
Qed.

(** Two steps of 1 at one radian per unit of time. *)
Example C139_case : forall eigvals mems,
  snd (run Rops (@field_interp R) eigvals mems still spun (start MEuler tt)) = Ok (Some [XVal (ln 2)]) /\
  snd (run Rops (@field_interp R) eigvals mems still spun (start MRK4 tt)) = Ok (Some [XVal (ln (569 / 576))]).
Proof. intros eigvals mems. split; [apply spun_euler|apply spun_rk4]. Qed.

(** C140: an incompressible flow stretches somewhere at least as much as it contracts, so no FTLE is negative.  The program
    reports a negative value: two RK4 steps in a rotation. *)
Theorem C140_refuted : exists A h n gs, a00 A + a11 A = 0 /\ Forall axis_aligned2 gs /\ (2 <= n)%nat /\ h <> 0 /\
  forall eigvals mems, exists x, x < 0 /\
    snd (run Rops (@field_interp R) eigvals mems still (lone (on_rows2 (aff2 A (0, 0))) h n (mk_particles Rops (layout2 gs))) (start MRK4 tt)) = Ok (Some [XVal x]).
Proof. exact spun_negative. Qed.
Print Assumptions C140_refuted.

(** Missing: RK4 in rotating flows, RK4 and AB2 in three dimensions, and flows that are not linear.  With Euler steps of any size no value is
    negative. *)
Theorem C140_euler_partial : forall (S P W : Type) interpolate eigvals mems
  (write : W -> string -> list (xval R) -> mat R -> W * res unit) I, samples_field interpolate I ->
  forall (sv : solver R S P) (wd : world R S P W) w0 A b gs id, a00 A + a11 A = 0 ->
  presents_fields I (s_source sv) (fun _ => on_rows2 (aff2 A b)) -> I w0 (w_interp wd) ->
  w_integrator wd = fresh MEuler -> s_writer sv = false -> src_id (s_source sv) = Ok id ->
  src_particles (s_source sv) (w_source wd) = mk_particles Rops (layout2 gs) -> Forall axis_aligned2 gs ->
  (2 <= src_steps (s_source sv))%nat -> src_timestep (s_source sv) <> 0 ->
  exists x, 0 <= x /\ snd (run Rops interpolate eigvals mems write sv wd) = Ok (Some (map (fun _ => XVal x) gs)).
Proof. exact @incompressible. Qed.
Print Assumptions C140_euler_partial.

(** The same in three dimensions. *)
Theorem C140_euler_3d_partial : forall (S P W : Type) interpolate eigvals mems
  (write : W -> string -> list (xval R) -> mat R -> W * res unit) I, samples_field interpolate I -> eigvals_ok eigvals ->
  forall (sv : solver R S P) (wd : world R S P W) w0 A b gs id, b00 A + b11 A + b22 A = 0 ->
  presents_fields I (s_source sv) (fun _ => on_rows3 (aff3 A b)) -> I w0 (w_interp wd) ->
  w_integrator wd = fresh MEuler -> s_writer sv = false -> src_id (s_source sv) = Ok id ->
  src_particles (s_source sv) (w_source wd) = mk_particles Rops (layout3 gs) -> Forall axis_aligned3 gs ->
  (2 <= src_steps (s_source sv))%nat -> src_timestep (s_source sv) <> 0 ->
  exists x, 0 <= x /\ snd (run Rops interpolate eigvals mems write sv wd) = Ok (Some (map (fun _ => XVal x) gs)).
Proof. exact @incompressible3. Qed.
Print Assumptions C140_euler_3d_partial.

(** The flow (x + 2 y, z - 3 x, y - z), in four Euler steps of -1/2. *)
Example C140_case_3d : forall eigvals mems, eigvals_ok eigvals -> exists x, 0 <= x /\
  snd (run Rops (@field_interp R) eigvals mems still (lone (on_rows3 (aff3 (M33 1 2 0 (-3) 0 1 0 1 (-1)) (0, 0, 0))) (- (1 / 2)) 4 (mk_particles Rops (layout3 [cross3]))) (start MEuler tt)) = Ok (Some [XVal x]).
Proof.
  intros eigvals mems He. apply (C140_euler_3d_partial _ _ _ (@field_interp R) eigvals mems still (fun v s => s = v) field_interp_ok He
    (lone (on_rows3 (aff3 (M33 1 2 0 (-3) 0 1 0 1 (-1)) (0, 0, 0))) (- (1 / 2)) 4 (mk_particles Rops (layout3 [cross3]))) (start MEuler tt) (fun x => x) (M33 1 2 0 (-3) 0 1 0 1 (-1)) (0, 0, 0) [cross3] "a"%string);
    try reflexivity; [cbn; lra|apply steady_ok|constructor; [exact cross_aligned3|constructor]|cbn; lia|cbn; lra].
Qed.

(** In two dimensions, with AB2 steps of any size: *)
Theorem C140_ab2_partial : forall (S P W : Type) interpolate eigvals mems
  (write : W -> string -> list (xval R) -> mat R -> W * res unit) I, samples_field interpolate I ->
  forall (sv : solver R S P) (wd : world R S P W) w0 A b gs id, a00 A + a11 A = 0 ->
  presents_fields I (s_source sv) (fun _ => on_rows2 (aff2 A b)) -> I w0 (w_interp wd) ->
  w_integrator wd = fresh MAB2 -> s_writer sv = false -> src_id (s_source sv) = Ok id ->
  src_particles (s_source sv) (w_source wd) = mk_particles Rops (layout2 gs) -> Forall axis_aligned2 gs ->
  (2 <= src_steps (s_source sv))%nat -> src_timestep (s_source sv) <> 0 ->
  exists x, 0 <= x /\ snd (run Rops interpolate eigvals mems write sv wd) = Ok (Some (map (fun _ => XVal x) gs)).
Proof. exact @incompressible_ab2. Qed.
Print Assumptions C140_ab2_partial.

(** The flow (x - 5 y, x - y), in five AB2 steps of 1/2. *)
Example C140_ab2_case : forall eigvals mems, exists x, 0 <= x /\
  snd (run Rops (@field_interp R) eigvals mems still (lone (on_rows2 (aff2 (M22 1 (-5) 1 (-1)) (0, 0))) (1 / 2) 5 (mk_particles Rops (layout2 [cross2]))) (start MAB2 tt)) = Ok (Some [XVal x]).
Proof.
  intros eigvals mems. apply (C140_ab2_partial _ _ _ (@field_interp R) eigvals mems still (fun v s => s = v) field_interp_ok
    (lone (on_rows2 (aff2 (M22 1 (-5) 1 (-1)) (0, 0))) (1 / 2) 5 (mk_particles Rops (layout2 [cross2]))) (start MAB2 tt) (fun x => x) (M22 1 (-5) 1 (-1)) (0, 0) [cross2] "a"%string);
    try reflexivity; [cbn; lra|apply steady_ok|constructor; [exact cross_aligned2|constructor]|cbn; lia|cbn; lra].
Qed.

(** In two dimensions, with each method and steps of any size, no value is negative if the determinant of the gradient is not positive, that is, if strain prevails over
    rotation. *)
Theorem C140_saddle_partial : forall (S P W : Type) interpolate eigvals mems
  (write : W -> string -> list (xval R) -> mat R -> W * res unit) I, samples_field interpolate I ->
  forall (sv : solver R S P) (wd : world R S P W) w0 m A b gs id, a00 A + a11 A = 0 -> a00 A * a11 A - a01 A * a10 A <= 0 ->
  presents_fields I (s_source sv) (fun _ => on_rows2 (aff2 A b)) -> I w0 (w_interp wd) ->
  w_integrator wd = fresh m -> s_writer sv = false -> src_id (s_source sv) = Ok id ->
  src_particles (s_source sv) (w_source wd) = mk_particles Rops (layout2 gs) -> Forall axis_aligned2 gs ->
  (2 <= src_steps (s_source sv))%nat -> src_timestep (s_source sv) <> 0 ->
  exists x, 0 <= x /\ snd (run Rops interpolate eigvals mems write sv wd) = Ok (Some (map (fun _ => XVal x) gs)).
Proof. exact @saddle. Qed.
Print Assumptions C140_saddle_partial.

(** The flow (x + 2 y, x - y), in three steps of -2 with each method. *)
Example C140_saddle_case : forall eigvals mems m, exists x, 0 <= x /\
  snd (run Rops (@field_interp R) eigvals mems still (lone (on_rows2 (aff2 (M22 1 2 1 (-1)) (0, 0))) (-2) 3 (mk_particles Rops (layout2 [cross2]))) (start m tt)) = Ok (Some [XVal x]).
Proof.
  intros eigvals mems m. apply (C140_saddle_partial _ _ _ (@field_interp R) eigvals mems still (fun v s => s = v) field_interp_ok
    (lone (on_rows2 (aff2 (M22 1 2 1 (-1)) (0, 0))) (-2) 3 (mk_particles Rops (layout2 [cross2]))) (start m tt) (fun x => x) m (M22 1 2 1 (-1)) (0, 0) [cross2] "a"%string);
    try reflexivity; [cbn; lra|cbn; lra|apply steady_ok|constructor; [exact cross_aligned2|constructor]|cbn; lia|cbn; lra].
Qed.

(** A strain flow v = (x, -y): the hypotheses hold for two steps of one half. *)
Example C140_case : forall eigvals mems, exists x, 0 <= x /\
  snd (run Rops (@field_interp R) eigvals mems still (lone (on_rows2 (aff2 (M22 1 0 0 (-1)) (0, 0))) (1 / 2) 2 (mk_particles Rops (layout2 [cross2]))) (start MEuler tt)) = Ok (Some [XVal x]).
Proof.
  intros eigvals mems.
  refine (incompressible (@field_interp R) eigvals mems still _ field_interp_ok
    (lone (on_rows2 (aff2 (M22 1 0 0 (-1)) (0, 0))) (1 / 2) 2 (mk_particles Rops (layout2 [cross2]))) (start MEuler tt)
    (fun x => x) (M22 1 0 0 (-1)) (0, 0) [cross2] "a"%string
    _ (steady_ok _ _ _ _) eq_refl eq_refl eq_refl eq_refl eq_refl _ _ _).
  - cbn. lra.
  - constructor; [exact cross_aligned2|constructor].
  - cbn. lia.
  - cbn. lra.
Qed.
