(** Property C121: the FTLE field and the choice of units and origin. *)
From Coq Require Import String Reals List.
From Verif Require Import Base Num NdArray Particles Ftle Integrate DataSource Solver SpecSeeds SpecIntegrate SpecSolver
  SpecUnits IntegrateMisc SolverCases UnitsFacts.
Import ListNotations.
Open Scope R_scope.

(** C121.  Two programs describe the same flow: the second measures lengths and times in other units
    and from another origin (SpecUnits).  Its seeds are the same seeds, its snapshots the same
    snapshots and its time step the same time step, all in its own units; the integration method is
    the same.  The two may use different interpolators, data sources and memory contents.  Then the
    second field is the first one with every rate in the new unit of time, and an error is the same
    error. *)
Theorem C121_units_2d : forall (S P W S' P' W' : Type) interpolate interpolate' eigvals mems mems'
  (write : W -> string -> list (xval R) -> mat R -> W * res unit)
  (write' : W' -> string -> list (xval R) -> mat R -> W' * res unit) I I',
  samples_field interpolate I -> samples_field interpolate' I' ->
  forall (sv : solver R S P) (sv' : solver R S' P') (w : world R S P W) (w' : world R S' P' W')
    s c b v v' m gs w0 w0' id id', s <> 0 -> c <> 0 ->
  (forall j, same_flow2 s c b (v j) (v' j)) ->
  presents_fields I (s_source sv) (fun j => on_rows2 (v j)) ->
  presents_fields I' (s_source sv') (fun j => on_rows2 (v' j)) ->
  src_steps (s_source sv') = src_steps (s_source sv) ->
  src_timestep (s_source sv') = c * src_timestep (s_source sv) ->
  src_particles (s_source sv) (w_source w) = mk_particles Rops (layout2 gs) ->
  src_particles (s_source sv') (w_source w') = mk_particles Rops (layout2 (map (image2 (coords2 s b)) gs)) ->
  I w0 (w_interp w) -> I' w0' (w_interp w') -> w_integrator w = fresh m -> w_integrator w' = fresh m ->
  s_writer sv = false -> s_writer sv' = false ->
  src_id (s_source sv) = Ok id -> src_id (s_source sv') = Ok id' ->
  snd (run Rops interpolate' eigvals mems' write' sv' w') =
  rates c (snd (run Rops interpolate eigvals mems write sv w)).
Proof. exact @units2. Qed.
Print Assumptions C121_units_2d.

(** In 3D the result needs nothing from np.linalg.eigvals: both runs hand it the same matrices. *)
Theorem C121_units_3d : forall (S P W S' P' W' : Type) interpolate interpolate' eigvals mems mems'
  (write : W -> string -> list (xval R) -> mat R -> W * res unit)
  (write' : W' -> string -> list (xval R) -> mat R -> W' * res unit) I I',
  samples_field interpolate I -> samples_field interpolate' I' ->
  forall (sv : solver R S P) (sv' : solver R S' P') (w : world R S P W) (w' : world R S' P' W')
    s c b v v' m gs w0 w0' id id', s <> 0 -> c <> 0 ->
  (forall j, same_flow3 s c b (v j) (v' j)) ->
  presents_fields I (s_source sv) (fun j => on_rows3 (v j)) ->
  presents_fields I' (s_source sv') (fun j => on_rows3 (v' j)) ->
  src_steps (s_source sv') = src_steps (s_source sv) ->
  src_timestep (s_source sv') = c * src_timestep (s_source sv) ->
  src_particles (s_source sv) (w_source w) = mk_particles Rops (layout3 gs) ->
  src_particles (s_source sv') (w_source w') = mk_particles Rops (layout3 (map (image3 (coords3 s b)) gs)) ->
  I w0 (w_interp w) -> I' w0' (w_interp w') -> w_integrator w = fresh m -> w_integrator w' = fresh m ->
  s_writer sv = false -> s_writer sv' = false ->
  src_id (s_source sv) = Ok id -> src_id (s_source sv') = Ok id' ->
  snd (run Rops interpolate' eigvals mems' write' sv' w') =
  rates c (snd (run Rops interpolate eigvals mems write sv w)).
Proof. exact @units3. Qed.
Print Assumptions C121_units_3d.

(** The pendulum in metres and seconds, and in millimetres and minutes with the origin moved. *)
Example C121_case : same_flow2 1000 (/ 60) (5, 7) pendulum pendulum_mm /\
  samples_field (@field_interp R) (fun v s => s = v) /\
  forall h, let a := unit_source pendulum h [seed1] in
  let b := unit_source pendulum_mm (/ 60 * h) (map (image2 (coords2 1000 (5, 7))) [seed1]) in
  presents_fields (fun v s => s = v) a (fun _ => on_rows2 pendulum) /\
  presents_fields (fun v s => s = v) b (fun _ => on_rows2 pendulum_mm) /\
  src_steps a = 3%nat /\ src_steps b = 3%nat /\ src_timestep b = / 60 * src_timestep a.
Proof.
  split; [exact pendulum_same|]. split; [exact field_interp_ok|]. intros h a b.
  split; [apply unit_source_ok|]. split; [apply unit_source_ok|]. repeat split.
Qed.
