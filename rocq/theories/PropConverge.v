(** Property C103: the FTLE field converges as the time step is refined, in exact arithmetic. *)
From Coq Require Import Reals Lra Lia.
From Verif Require Import Base Num Particles Jacobian Ftle Integrate DataSource Solver SpecFtle SpecSeeds SpecIntegrate
  SpecSolver SpecOrder SpecConverge ConvergeMain ConvergeCases.
Local Open Scope R_scope.

(** [carries2 v t0 (t0+T) phi x]: [phi t x] is the true position at time t of the particle seeded at x.
    [gradient2 g g']: central differences.  n snapshots at t0, t0 + T/n, ...; any of the three methods; T of either sign. *)
Theorem C103_converges_2d : forall (v : R -> list R -> list R) L t0 T (phi : R -> R * R -> R * R),
  lipschitz_field 2 L v -> 0 <= L -> T <> 0 ->
  forall (S P W : Type) interpolate eigvals mems (write : W -> string -> list (xval R) -> mat R -> W * res unit) I,
  samples_field interpolate I ->
  forall gs, Forall axis_aligned2 gs ->
  (forall g x, In g gs -> In x (corners2 g) -> carries2 v t0 (t0 + T) phi x) ->
  (forall g, In g gs -> gradient2 g (image2 (phi (t0 + T)) g) <> M22 0 0 0 0) ->
  exists C N, forall n m (sv : solver R S P) (w : world R S P W) w0 id, (N <= n)%nat ->
    presents_fields I (s_source sv) (fun j => v (t0 + INR j * (T / INR n))) -> I w0 (w_interp w) ->
    w_integrator w = fresh m -> s_writer sv = false -> src_id (s_source sv) = Ok id ->
    src_particles (s_source sv) (w_source w) = mk_particles Rops (layout2 gs) ->
    src_steps (s_source sv) = n -> src_timestep (s_source sv) = T / INR n ->
    exists xs, snd (run Rops interpolate eigvals mems write sv w) = Ok (Some (map XVal xs)) /\
      Forall2 (fun g x => exists s, spectral_norm_2 (gradient2 g (image2 (phi (t0 + T)) g)) s /\
        Rabs (x - ln s / Rabs T) <= C / INR n) gs xs.
Proof. exact @converges2. Qed.
Print Assumptions C103_converges_2d.

Theorem C103_converges_3d : forall (v : R -> list R -> list R) L t0 T (phi : R -> vec3 -> vec3),
  lipschitz_field 3 L v -> 0 <= L -> T <> 0 ->
  forall (S P W : Type) interpolate eigvals mems (write : W -> string -> list (xval R) -> mat R -> W * res unit) I,
  samples_field interpolate I -> eigvals_ok eigvals ->
  forall gs, Forall axis_aligned3 gs ->
  (forall g x, In g gs -> In x (corners3 g) -> carries3 v t0 (t0 + T) phi x) ->
  (forall g, In g gs -> gradient3 g (image3 (phi (t0 + T)) g) <> M33 0 0 0 0 0 0 0 0 0) ->
  exists C N, forall n m (sv : solver R S P) (w : world R S P W) w0 id, (N <= n)%nat ->
    presents_fields I (s_source sv) (fun j => v (t0 + INR j * (T / INR n))) -> I w0 (w_interp w) ->
    w_integrator w = fresh m -> s_writer sv = false -> src_id (s_source sv) = Ok id ->
    src_particles (s_source sv) (w_source w) = mk_particles Rops (layout3 gs) ->
    src_steps (s_source sv) = n -> src_timestep (s_source sv) = T / INR n ->
    exists xs, snd (run Rops interpolate eigvals mems write sv w) = Ok (Some (map XVal xs)) /\
      Forall2 (fun g x => exists s, spectral_norm_3 (gradient3 g (image3 (phi (t0 + T)) g)) s /\
        Rabs (x - ln s / Rabs T) <= C / INR n) gs xs.
Proof. exact @converges3. Qed.
Print Assumptions C103_converges_3d.

(** The expanding flow v = x, forwards and backwards. *)
Example C103_case_2d : forall T, lipschitz_field 2 1 (fun _ x => x) /\ Forall axis_aligned2 [cross2] /\
  (forall g x, In g [cross2] -> In x (corners2 g) -> carries2 (fun _ x => x) 0 (0 + T) expand2 x) /\
  (forall g, In g [cross2] -> gradient2 g (image2 (expand2 (0 + T)) g) <> M22 0 0 0 0).
Proof.
  intro T. split; [apply id_lipschitz|]. split; [constructor; [exact cross_aligned2|constructor]|].
  split; [intros; apply expand_carries2|]. intros g [<-|[]]. apply expand_gradient2.
Qed.
Example C103_case_3d : forall T, lipschitz_field 3 1 (fun _ x => x) /\ Forall axis_aligned3 [cross3] /\
  (forall g x, In g [cross3] -> In x (corners3 g) -> carries3 (fun _ x => x) 0 (0 + T) expand3 x) /\
  (forall g, In g [cross3] -> gradient3 g (image3 (expand3 (0 + T)) g) <> M33 0 0 0 0 0 0 0 0 0).
Proof.
  intro T. split; [apply id_lipschitz|]. split; [constructor; [exact cross_aligned3|constructor]|].
  split; [intros; apply expand_carries3|]. intros g [<-|[]]. apply expand_gradient3.
Qed.
