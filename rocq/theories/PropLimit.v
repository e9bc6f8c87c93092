(** Property C105: the FTLE field converges to that of the flow, in exact arithmetic. *)
From Coq Require Import Reals Lra.
From Verif Require Import Base Num Particles Jacobian Ftle Integrate DataSource Solver SpecFtle SpecSeeds SpecIntegrate
  SpecSolver SpecOrder SpecConverge SpecLimit ConvergeCases LimitMain.
Local Open Scope R_scope.

(** [carries2 v t0 (t0+T) phi x]: [phi t x] is the true position at time t of the particle seeded at x.
    [F c]: the gradient of the true flow map at the point c.  The FTLE of c is ln |F c| / |T|.
    Any of the three methods; T of either sign; crosses with different arms for different points. *)
Theorem C105_ftle_of_the_flow_2d : forall (v : R -> list R -> list R) L t0 T (phi : R -> R * R -> R * R),
  lipschitz_field 2 L v -> 0 <= L -> T <> 0 ->
  forall (S P W : Type) interpolate eigvals mems (write : W -> string -> list (xval R) -> mat R -> W * res unit) I,
  samples_field interpolate I ->
  forall cs (F : R * R -> m22 R),
  (forall c, In c cs -> exists r, 0 < r /\ forall x, within2 r c x -> carries2 v t0 (t0 + T) phi x) ->
  (forall c, In c cs -> jacobian2 (phi (t0 + T)) c (F c) /\ F c <> M22 0 0 0 0) ->
  forall e, 0 < e -> exists delta, 0 < delta /\
  forall gs, Forall2 (stencil2 delta) cs gs -> exists N,
  forall n m (sv : solver R S P) (w : world R S P W) w0 id, (N <= n)%nat ->
    presents_fields I (s_source sv) (fun j => v (t0 + INR j * (T / INR n))) -> I w0 (w_interp w) ->
    w_integrator w = fresh m -> s_writer sv = false -> src_id (s_source sv) = Ok id ->
    src_particles (s_source sv) (w_source w) = mk_particles Rops (layout2 gs) ->
    src_steps (s_source sv) = n -> src_timestep (s_source sv) = T / INR n ->
    exists xs, snd (run Rops interpolate eigvals mems write sv w) = Ok (Some (map XVal xs)) /\
      Forall2 (fun c x => exists s, spectral_norm_2 (F c) s /\ Rabs (x - ln s / Rabs T) <= e) cs xs.
Proof. exact @limit2. Qed.
Print Assumptions C105_ftle_of_the_flow_2d.

Theorem C105_ftle_of_the_flow_3d : forall (v : R -> list R -> list R) L t0 T (phi : R -> vec3 -> vec3),
  lipschitz_field 3 L v -> 0 <= L -> T <> 0 ->
  forall (S P W : Type) interpolate eigvals mems (write : W -> string -> list (xval R) -> mat R -> W * res unit) I,
  samples_field interpolate I -> eigvals_ok eigvals ->
  forall cs (F : vec3 -> m33 R),
  (forall c, In c cs -> exists r, 0 < r /\ forall x, within3 r c x -> carries3 v t0 (t0 + T) phi x) ->
  (forall c, In c cs -> jacobian3 (phi (t0 + T)) c (F c) /\ F c <> M33 0 0 0 0 0 0 0 0 0) ->
  forall e, 0 < e -> exists delta, 0 < delta /\
  forall gs, Forall2 (stencil3 delta) cs gs -> exists N,
  forall n m (sv : solver R S P) (w : world R S P W) w0 id, (N <= n)%nat ->
    presents_fields I (s_source sv) (fun j => v (t0 + INR j * (T / INR n))) -> I w0 (w_interp w) ->
    w_integrator w = fresh m -> s_writer sv = false -> src_id (s_source sv) = Ok id ->
    src_particles (s_source sv) (w_source w) = mk_particles Rops (layout3 gs) ->
    src_steps (s_source sv) = n -> src_timestep (s_source sv) = T / INR n ->
    exists xs, snd (run Rops interpolate eigvals mems write sv w) = Ok (Some (map XVal xs)) /\
      Forall2 (fun c x => exists s, spectral_norm_3 (F c) s /\ Rabs (x - ln s / Rabs T) <= e) cs xs.
Proof. exact @limit3. Qed.
Print Assumptions C105_ftle_of_the_flow_3d.

(** The expanding flow v = x: every point meets the hypotheses. *)
Example C105_case_2d : forall T c, lipschitz_field 2 1 (fun _ x => x) /\
  (exists r, 0 < r /\ forall x, within2 r c x -> carries2 (fun _ x => x) 0 (0 + T) expand2 x) /\
  jacobian2 (expand2 (0 + T)) c (grow2 (0 + T)) /\ grow2 (0 + T) <> M22 0 0 0 0.
Proof.
  intros T c. split; [apply id_lipschitz|]. split; [|apply expand_jacobian2].
  exists 1. split; [exact Rlt_0_1|]. intros x _. apply expand_carries2.
Qed.
Example C105_case_3d : forall T c, lipschitz_field 3 1 (fun _ x => x) /\
  (exists r, 0 < r /\ forall x, within3 r c x -> carries3 (fun _ x => x) 0 (0 + T) expand3 x) /\
  jacobian3 (expand3 (0 + T)) c (grow3 (0 + T)) /\ grow3 (0 + T) <> M33 0 0 0 0 0 0 0 0 0.
Proof.
  intros T c. split; [apply id_lipschitz|]. split; [|apply expand_jacobian3].
  exists 1. split; [exact Rlt_0_1|]. intros x _. apply expand_carries3.
Qed.
