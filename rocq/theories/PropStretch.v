(** Property C147: the flows (k x, - k y) + b and (k0 x, k1 y, k2 z) + b, in exact arithmetic.  [aff2 A b] is the flow x -> A x + b. *)
From Coq Require Import Reals Lra Lia.
From Verif Require Import Base Num Particles Jacobian Ftle Integrate DataSource Solver SpecFtle SpecSeeds SpecIntegrate
  SpecSolver IntegrateMisc ConvergeCases FrameMain StrainCases StretchFacts StretchAB2 StretchFacts3 StretchAB23.
Local Open Scope R_scope.

(** C147: the FTLE of the flow (k x, - k y) is |k|.  The program reports another value: two RK4 steps. *)
Theorem C147_refuted : exists k h n gs, Forall axis_aligned2 gs /\ (2 <= n)%nat /\ h <> 0 /\
  forall eigvals mems, exists x, x <> Rabs k /\
    snd (run Rops (@field_interp R) eigvals mems still (lone (on_rows2 (aff2 (M22 k 0 0 (- k)) (0, 0))) h n (mk_particles Rops (layout2 gs))) (start MRK4 tt)) = Ok (Some [XVal x]).
Proof. exact stretched_refutes. Qed.
Print Assumptions C147_refuted.

(** Missing: the factor n/(n-1) of C51, and the error of the method.  With Euler steps of any size: *)
Theorem C147_euler_partial : forall (S P W : Type) interpolate eigvals mems
  (write : W -> string -> list (xval R) -> mat R -> W * res unit) I, samples_field interpolate I ->
  forall (sv : solver R S P) (wd : world R S P W) w0 k b gs id,
  presents_fields I (s_source sv) (fun _ => on_rows2 (aff2 (M22 k 0 0 (- k)) b)) -> I w0 (w_interp wd) ->
  w_integrator wd = fresh MEuler -> s_writer sv = false -> src_id (s_source sv) = Ok id ->
  src_particles (s_source sv) (w_source wd) = mk_particles Rops (layout2 gs) -> Forall axis_aligned2 gs ->
  (2 <= src_steps (s_source sv))%nat -> src_timestep (s_source sv) <> 0 ->
  let n := src_steps (s_source sv) in let h := src_timestep (s_source sv) in
  exists x, snd (run Rops interpolate eigvals mems write sv wd) = Ok (Some (map (fun _ => XVal x) gs)) /\
    x = INR n / (INR n - 1) * (ln (1 + Rabs (k * h)) / Rabs h) /\
    INR n / (INR n - 1) * (Rabs k - k ^ 2 * Rabs h / 2) <= x <= INR n / (INR n - 1) * Rabs k.
Proof. exact @strain_euler. Qed.
Print Assumptions C147_euler_partial.

(** With RK4 steps of any size: *)
Theorem C147_rk4_partial : forall (S P W : Type) interpolate eigvals mems
  (write : W -> string -> list (xval R) -> mat R -> W * res unit) I, samples_field interpolate I ->
  forall (sv : solver R S P) (wd : world R S P W) w0 k b gs id,
  presents_fields I (s_source sv) (fun _ => on_rows2 (aff2 (M22 k 0 0 (- k)) b)) -> I w0 (w_interp wd) ->
  w_integrator wd = fresh MRK4 -> s_writer sv = false -> src_id (s_source sv) = Ok id ->
  src_particles (s_source sv) (w_source wd) = mk_particles Rops (layout2 gs) -> Forall axis_aligned2 gs ->
  (2 <= src_steps (s_source sv))%nat -> src_timestep (s_source sv) <> 0 ->
  let n := src_steps (s_source sv) in let h := src_timestep (s_source sv) in
  exists x, snd (run Rops interpolate eigvals mems write sv wd) = Ok (Some (map (fun _ => XVal x) gs)) /\
    INR n / (INR n - 1) * (Rabs k - Rabs k ^ 5 * h ^ 4 / 120) <= x <= INR n / (INR n - 1) * Rabs k.
Proof. exact @strain_rk4. Qed.
Print Assumptions C147_rk4_partial.

(** With AB2 steps of any size, the bounds of Euler: *)
Theorem C147_ab2_partial : forall (S P W : Type) interpolate eigvals mems
  (write : W -> string -> list (xval R) -> mat R -> W * res unit) I, samples_field interpolate I ->
  forall (sv : solver R S P) (wd : world R S P W) w0 k b gs id,
  presents_fields I (s_source sv) (fun _ => on_rows2 (aff2 (M22 k 0 0 (- k)) b)) -> I w0 (w_interp wd) ->
  w_integrator wd = fresh MAB2 -> s_writer sv = false -> src_id (s_source sv) = Ok id ->
  src_particles (s_source sv) (w_source wd) = mk_particles Rops (layout2 gs) -> Forall axis_aligned2 gs ->
  (2 <= src_steps (s_source sv))%nat -> src_timestep (s_source sv) <> 0 ->
  let n := src_steps (s_source sv) in let h := src_timestep (s_source sv) in
  exists x, snd (run Rops interpolate eigvals mems write sv wd) = Ok (Some (map (fun _ => XVal x) gs)) /\
    INR n / (INR n - 1) * (Rabs k - k ^ 2 * Rabs h / 2) <= x <= INR n / (INR n - 1) * Rabs k.
Proof. exact @strain_ab2. Qed.
Print Assumptions C147_ab2_partial.

(** Two steps of size 1 in the flow (x, -y). *)
Example C147_case : presents_fields (fun v s => s = v) (s_source stretched) (fun _ => on_rows2 (aff2 (M22 1 0 0 (- 1)) (0, 0))) /\
  src_steps (s_source stretched) = 2%nat /\ src_timestep (s_source stretched) = 1 /\
  src_particles (s_source stretched) tt = mk_particles Rops (layout2 [cross2]) /\ Forall axis_aligned2 [cross2].
Proof. repeat split; try apply steady_ok; constructor; [exact cross_aligned2|constructor]. Qed.

(** In 3-D, in the flow (k0 x, k1 y, k2 z) + b.  The rate k is the largest one at which a direction is stretched in the direction of time, and is not
    negative.  Also missing: steps that exceed two decay times of a contracting direction. *)
Theorem C147_euler_3d_partial : forall (S P W : Type) interpolate eigvals mems
  (write : W -> string -> list (xval R) -> mat R -> W * res unit) I, samples_field interpolate I -> eigvals_ok eigvals ->
  forall (sv : solver R S P) (wd : world R S P W) w0 k0 k1 k2 k b gs id,
  presents_fields I (s_source sv) (fun _ => on_rows3 (aff3 (M33 k0 0 0 0 k1 0 0 0 k2) b)) -> I w0 (w_interp wd) ->
  w_integrator wd = fresh MEuler -> s_writer sv = false -> src_id (s_source sv) = Ok id ->
  src_particles (s_source sv) (w_source wd) = mk_particles Rops (layout3 gs) -> Forall axis_aligned3 gs ->
  (2 <= src_steps (s_source sv))%nat -> src_timestep (s_source sv) <> 0 ->
  let n := src_steps (s_source sv) in let h := src_timestep (s_source sv) in
  0 <= k -> (forall r, In r [k0; k1; k2] -> -2 <= r * h <= k * Rabs h) -> (exists r, In r [k0; k1; k2] /\ r * h = k * Rabs h) ->
  exists x, snd (run Rops interpolate eigvals mems write sv wd) = Ok (Some (map (fun _ => XVal x) gs)) /\
    INR n / (INR n - 1) * (k - k ^ 2 * Rabs h / 2) <= x <= INR n / (INR n - 1) * k.
Proof. exact @strain3_euler. Qed.
Print Assumptions C147_euler_3d_partial.

Theorem C147_rk4_3d_partial : forall (S P W : Type) interpolate eigvals mems
  (write : W -> string -> list (xval R) -> mat R -> W * res unit) I, samples_field interpolate I -> eigvals_ok eigvals ->
  forall (sv : solver R S P) (wd : world R S P W) w0 k0 k1 k2 k b gs id,
  presents_fields I (s_source sv) (fun _ => on_rows3 (aff3 (M33 k0 0 0 0 k1 0 0 0 k2) b)) -> I w0 (w_interp wd) ->
  w_integrator wd = fresh MRK4 -> s_writer sv = false -> src_id (s_source sv) = Ok id ->
  src_particles (s_source sv) (w_source wd) = mk_particles Rops (layout3 gs) -> Forall axis_aligned3 gs ->
  (2 <= src_steps (s_source sv))%nat -> src_timestep (s_source sv) <> 0 ->
  let n := src_steps (s_source sv) in let h := src_timestep (s_source sv) in
  0 <= k -> (forall r, In r [k0; k1; k2] -> -2 <= r * h <= k * Rabs h) -> (exists r, In r [k0; k1; k2] /\ r * h = k * Rabs h) ->
  exists x, snd (run Rops interpolate eigvals mems write sv wd) = Ok (Some (map (fun _ => XVal x) gs)) /\
    INR n / (INR n - 1) * (k - k ^ 5 * h ^ 4 / 120) <= x <= INR n / (INR n - 1) * k.
Proof. exact @strain3_rk4. Qed.
Print Assumptions C147_rk4_3d_partial.

(** Ten steps of size 1 in the flow (x, y, -2 z): the rate is 1, and 2 backwards. *)
Example C147_case_3d : forall eigvals mems h k, eigvals_ok eigvals -> h = 1 /\ k = 1 \/ h = -1 /\ k = 2 ->
  exists x, snd (run Rops (@field_interp R) eigvals mems still
      (lone (on_rows3 (aff3 (M33 1 0 0 0 1 0 0 0 (-2)) (0, 0, 0))) h 10 (mk_particles Rops (layout3 [cross3]))) (start MRK4 tt)) = Ok (Some [XVal x]) /\
    INR 10 / (INR 10 - 1) * (k - k ^ 5 * h ^ 4 / 120) <= x <= INR 10 / (INR 10 - 1) * k.
Proof.
  intros eigvals mems h k He Hk. destruct (sheet_rates h k Hk) as (K & B & E).
  apply (C147_rk4_3d_partial _ _ _ (@field_interp R) eigvals mems still (fun v s => s = v) field_interp_ok He
    (lone (on_rows3 (aff3 (M33 1 0 0 0 1 0 0 0 (-2)) (0, 0, 0))) h 10 (mk_particles Rops (layout3 [cross3]))) (start MRK4 tt) (fun x => x) 1 1 (-2) k (0, 0, 0) [cross3] "a"%string);
    try reflexivity; try assumption; [apply steady_ok|constructor; [exact cross_aligned3|constructor]|cbn; lia|cbn; lra].
Qed.

(** AB2, with steps of at most one decay time of a contracting direction: *)
Theorem C147_ab2_3d_partial : forall (S P W : Type) interpolate eigvals mems
  (write : W -> string -> list (xval R) -> mat R -> W * res unit) I, samples_field interpolate I -> eigvals_ok eigvals ->
  forall (sv : solver R S P) (wd : world R S P W) w0 k0 k1 k2 k b gs id,
  presents_fields I (s_source sv) (fun _ => on_rows3 (aff3 (M33 k0 0 0 0 k1 0 0 0 k2) b)) -> I w0 (w_interp wd) ->
  w_integrator wd = fresh MAB2 -> s_writer sv = false -> src_id (s_source sv) = Ok id ->
  src_particles (s_source sv) (w_source wd) = mk_particles Rops (layout3 gs) -> Forall axis_aligned3 gs ->
  (2 <= src_steps (s_source sv))%nat -> src_timestep (s_source sv) <> 0 ->
  let n := src_steps (s_source sv) in let h := src_timestep (s_source sv) in
  0 <= k -> (forall r, In r [k0; k1; k2] -> -1 <= r * h <= k * Rabs h) -> (exists r, In r [k0; k1; k2] /\ r * h = k * Rabs h) ->
  exists x, snd (run Rops interpolate eigvals mems write sv wd) = Ok (Some (map (fun _ => XVal x) gs)) /\
    INR n / (INR n - 1) * (k - k ^ 2 * Rabs h / 2) <= x <= INR n / (INR n - 1) * k.
Proof. exact @strain3_ab2. Qed.
Print Assumptions C147_ab2_3d_partial.

(** Ten steps of -1/2 in the flow (x, y, -2 z). *)
Example C147_case_ab2_3d : forall eigvals mems, eigvals_ok eigvals ->
  exists x, snd (run Rops (@field_interp R) eigvals mems still
      (lone (on_rows3 (aff3 (M33 1 0 0 0 1 0 0 0 (-2)) (0, 0, 0))) (- (1 / 2)) 10 (mk_particles Rops (layout3 [cross3]))) (start MAB2 tt)) = Ok (Some [XVal x]) /\
    INR 10 / (INR 10 - 1) * (2 - 2 ^ 2 * Rabs (- (1 / 2)) / 2) <= x <= INR 10 / (INR 10 - 1) * 2.
Proof.
  intros eigvals mems He. assert (A : Rabs (- (1 / 2)) = 1 / 2) by (rewrite Rabs_left; lra).
  apply (C147_ab2_3d_partial _ _ _ (@field_interp R) eigvals mems still (fun v s => s = v) field_interp_ok He
    (lone (on_rows3 (aff3 (M33 1 0 0 0 1 0 0 0 (-2)) (0, 0, 0))) (- (1 / 2)) 10 (mk_particles Rops (layout3 [cross3]))) (start MAB2 tt) (fun x => x) 1 1 (-2) 2 (0, 0, 0) [cross3] "a"%string);
    try reflexivity; [apply steady_ok|constructor; [exact cross_aligned3|constructor]|cbn; lia|cbn; lra|lra|..]; change (src_timestep _) with (- (1 / 2)); rewrite A.
  - intros r [<-|[<-|[<-|[]]]]; lra.
  - exists (-2). split; [cbn; auto|lra].
Qed.
