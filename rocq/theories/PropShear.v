(** Property C146: shear flow, in exact arithmetic.  [aff2 A b] is the flow x -> A x + b; it is a shear if A A = 0, and then a time t takes x to
    x + t (A x + b), so that I + t A is the gradient of the exact flow map. *)
From Coq Require Import Reals Lra Lia.
From Verif Require Import Base Num Particles Jacobian Ftle Integrate DataSource Solver SpecFtle SpecSeeds SpecIntegrate
  SpecSolver IntegrateMisc ConvergeCases FrameMain StrainCases ShearFacts.
Local Open Scope R_scope.

(** With each of the three methods and any step the stretching is that of the exact flow map after n steps (the value divides its logarithm by the
    time (n-1)|h|: see C51). *)
Theorem C146_2d : forall (S P W : Type) interpolate eigvals mems
  (write : W -> string -> list (xval R) -> mat R -> W * res unit) I, samples_field interpolate I ->
  forall (sv : solver R S P) (wd : world R S P W) w0 m A b gs id, mul22 A A = M22 0 0 0 0 ->
  presents_fields I (s_source sv) (fun _ => on_rows2 (aff2 A b)) -> I w0 (w_interp wd) ->
  w_integrator wd = fresh m -> s_writer sv = false -> src_id (s_source sv) = Ok id ->
  src_particles (s_source sv) (w_source wd) = mk_particles Rops (layout2 gs) -> Forall axis_aligned2 gs ->
  (2 <= src_steps (s_source sv))%nat -> src_timestep (s_source sv) <> 0 ->
  let n := src_steps (s_source sv) in let h := src_timestep (s_source sv) in
  exists s, spectral_norm_2 (add22 id22 (scal22 (INR n * h) A)) s /\
    snd (run Rops interpolate eigvals mems write sv wd) = Ok (Some (map (fun _ => ftle_value s ((INR n - 1) * Rabs h)) gs)).
Proof. exact @shear2. Qed.
Print Assumptions C146_2d.

Theorem C146_3d : forall (S P W : Type) interpolate eigvals mems
  (write : W -> string -> list (xval R) -> mat R -> W * res unit) I, samples_field interpolate I ->
  forall (sv : solver R S P) (wd : world R S P W) w0 m A b gs id, eigvals_ok eigvals -> mul33 A A = M33 0 0 0 0 0 0 0 0 0 ->
  presents_fields I (s_source sv) (fun _ => on_rows3 (aff3 A b)) -> I w0 (w_interp wd) ->
  w_integrator wd = fresh m -> s_writer sv = false -> src_id (s_source sv) = Ok id ->
  src_particles (s_source sv) (w_source wd) = mk_particles Rops (layout3 gs) -> Forall axis_aligned3 gs ->
  (2 <= src_steps (s_source sv))%nat -> src_timestep (s_source sv) <> 0 ->
  let n := src_steps (s_source sv) in let h := src_timestep (s_source sv) in
  exists s, spectral_norm_3 (add33 id33 (scal33 (INR n * h) A)) s /\
    snd (run Rops interpolate eigvals mems write sv wd) = Ok (Some (map (fun _ => ftle_value s ((INR n - 1) * Rabs h)) gs)).
Proof. exact @shear3. Qed.
Print Assumptions C146_3d.

(** The value itself in the flow (k y, 0) + b. *)
Theorem C146_value : forall (S P W : Type) interpolate eigvals mems
  (write : W -> string -> list (xval R) -> mat R -> W * res unit) I, samples_field interpolate I ->
  forall (sv : solver R S P) (wd : world R S P W) w0 m k b gs id,
  presents_fields I (s_source sv) (fun _ => on_rows2 (aff2 (M22 0 k 0 0) b)) -> I w0 (w_interp wd) ->
  w_integrator wd = fresh m -> s_writer sv = false -> src_id (s_source sv) = Ok id ->
  src_particles (s_source sv) (w_source wd) = mk_particles Rops (layout2 gs) -> Forall axis_aligned2 gs ->
  (2 <= src_steps (s_source sv))%nat -> src_timestep (s_source sv) <> 0 ->
  let n := src_steps (s_source sv) in let h := src_timestep (s_source sv) in let g := k * (INR n * h) in
  snd (run Rops interpolate eigvals mems write sv wd) =
    Ok (Some (map (fun _ => XVal (ln ((Rabs g + sqrt (g ^ 2 + 4)) / 2) / ((INR n - 1) * Rabs h))) gs)).
Proof. exact @shear_value. Qed.
Print Assumptions C146_value.

(** Two steps of size 1 in the flow (y, 0), with each method. *)
Example C146_case : presents_fields (fun v s => s = v) (s_source sheared) (fun _ => on_rows2 (aff2 (M22 0 1 0 0) (0, 0))) /\
  forall eigvals mems m, snd (run Rops (@field_interp R) eigvals mems still sheared (start m tt)) = Ok (Some [XVal (ln (1 + sqrt 2))]).
Proof. split; [apply steady_ok|exact sheared_case]. Qed.
Example C146_case_3d : mul33 (M33 0 1 2 0 0 0 0 0 0) (M33 0 1 2 0 0 0 0 0 0) = M33 0 0 0 0 0 0 0 0 0.
Proof. apply FtleFacts3.m33_ext; cbn; ring. Qed.
