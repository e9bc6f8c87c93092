(** Property C127: the FTLE field for observers in uniform motion. *)
From Coq Require Import String Reals List.
From Verif Require Import Base Num NdArray Particles Ftle Integrate DataSource Solver SpecSeeds SpecIntegrate SpecSolver
  SpecFrame IntegrateMisc SolverCases FrameFacts FrameMain.
Import ListNotations.
Open Scope R_scope.

(** C127 says: two observers, one in uniform motion relative to the other (SpecFrame), describe the
    same flow by their own snapshots, each with the same seeds, time step and method.  Then both get
    the same field.

    It fails for RK4, whose later stages look at the snapshot of the start of the step: for a moving
    observer the flow has moved on by then.  The parabolic jet (x, y) -> (y^2, 0), one seed on its
    axis, two RK4 steps of 1: an observer at rest gets 0, one who moves across the jet at speed 1
    gets ln (1 + sqrt 2). *)
Theorem C127_refuted : exists v v' b c gs,
  (forall j, seen2 b c (INR j * 1) (v j) (v' j)) /\ map (image2 (fun p => plus2 p b)) gs = gs /\
  src_timestep (two_steps v gs) = 1 /\ src_timestep (two_steps v' gs) = 1 /\
  presents_fields (fun v s => s = v) (two_steps v gs) (fun j => on_rows2 (v j)) /\
  presents_fields (fun v s => s = v) (two_steps v' gs) (fun j => on_rows2 (v' j)) /\
  ln (1 + sqrt 2) > 0 /\
  forall eigvals mems,
    snd (run Rops (@field_interp R) eigvals mems still (alone v gs) (start MRK4 tt)) = Ok (Some [XVal 0]) /\
    snd (run Rops (@field_interp R) eigvals mems still (alone v' gs) (start MRK4 tt)) = Ok (Some [XVal (ln (1 + sqrt 2))]).
Proof. exact jet_refutes. Qed.
Print Assumptions C127_refuted.

(** Missing from the following four: RK4 in fields whose gradient varies in space.

    Euler and AB2 look at each snapshot once, at its own time.  With them the two observers get the
    same field, value by value, and an error is the same error. *)
Theorem C127_partial : forall (S P W S' P' W' : Type) interpolate interpolate' eigvals mems mems'
  (write : W -> string -> list (xval R) -> mat R -> W * res unit)
  (write' : W' -> string -> list (xval R) -> mat R -> W' * res unit) I I',
  samples_field interpolate I -> samples_field interpolate' I' ->
  forall (sv : solver R S P) (sv' : solver R S' P') (w : world R S P W) (w' : world R S' P' W')
    b c v v' m gs w0 w0' id id', single_stage m ->
  (forall j, seen2 b c (INR j * src_timestep (s_source sv)) (v j) (v' j)) ->
  presents_fields I (s_source sv) (fun j => on_rows2 (v j)) ->
  presents_fields I' (s_source sv') (fun j => on_rows2 (v' j)) ->
  src_steps (s_source sv') = src_steps (s_source sv) ->
  src_timestep (s_source sv') = src_timestep (s_source sv) ->
  src_particles (s_source sv) (w_source w) = mk_particles Rops (layout2 gs) ->
  src_particles (s_source sv') (w_source w') = mk_particles Rops (layout2 (map (image2 (fun p => plus2 p b)) gs)) ->
  I w0 (w_interp w) -> I' w0' (w_interp w') -> w_integrator w = fresh m -> w_integrator w' = fresh m ->
  s_writer sv = false -> s_writer sv' = false ->
  src_id (s_source sv) = Ok id -> src_id (s_source sv') = Ok id' ->
  snd (run Rops interpolate' eigvals mems' write' sv' w') = snd (run Rops interpolate eigvals mems write sv w).
Proof. exact @single2. Qed.
Print Assumptions C127_partial.

(** The same in 3D; np.linalg.eigvals is asked about the same matrices. *)
Theorem C127_3d_partial : forall (S P W S' P' W' : Type) interpolate interpolate' eigvals mems mems'
  (write : W -> string -> list (xval R) -> mat R -> W * res unit)
  (write' : W' -> string -> list (xval R) -> mat R -> W' * res unit) I I',
  samples_field interpolate I -> samples_field interpolate' I' ->
  forall (sv : solver R S P) (sv' : solver R S' P') (w : world R S P W) (w' : world R S' P' W')
    b c v v' m gs w0 w0' id id', single_stage m ->
  (forall j, seen3 b c (INR j * src_timestep (s_source sv)) (v j) (v' j)) ->
  presents_fields I (s_source sv) (fun j => on_rows3 (v j)) ->
  presents_fields I' (s_source sv') (fun j => on_rows3 (v' j)) ->
  src_steps (s_source sv') = src_steps (s_source sv) ->
  src_timestep (s_source sv') = src_timestep (s_source sv) ->
  src_particles (s_source sv) (w_source w) = mk_particles Rops (layout3 gs) ->
  src_particles (s_source sv') (w_source w') = mk_particles Rops (layout3 (map (image3 (fun p => plus3 p b)) gs)) ->
  I w0 (w_interp w) -> I' w0' (w_interp w') -> w_integrator w = fresh m -> w_integrator w' = fresh m ->
  s_writer sv = false -> s_writer sv' = false ->
  src_id (s_source sv) = Ok id -> src_id (s_source sv') = Ok id' ->
  snd (run Rops interpolate' eigvals mems' write' sv' w') = snd (run Rops interpolate eigvals mems write sv w).
Proof. exact @single3. Qed.
Print Assumptions C127_3d_partial.

(** With all three methods when every snapshot has a constant gradient. *)
Theorem C127_affine_partial : forall (S P W S' P' W' : Type) interpolate interpolate' eigvals mems mems'
  (write : W -> string -> list (xval R) -> mat R -> W * res unit)
  (write' : W' -> string -> list (xval R) -> mat R -> W' * res unit) I I',
  samples_field interpolate I -> samples_field interpolate' I' ->
  forall (sv : solver R S P) (sv' : solver R S' P') (w : world R S P W) (w' : world R S' P' W')
    b c v v' m gs w0 w0' id id', (forall j, affine_field2 (v j)) ->
  (forall j, seen2 b c (INR j * src_timestep (s_source sv)) (v j) (v' j)) ->
  presents_fields I (s_source sv) (fun j => on_rows2 (v j)) ->
  presents_fields I' (s_source sv') (fun j => on_rows2 (v' j)) ->
  src_steps (s_source sv') = src_steps (s_source sv) ->
  src_timestep (s_source sv') = src_timestep (s_source sv) ->
  src_particles (s_source sv) (w_source w) = mk_particles Rops (layout2 gs) ->
  src_particles (s_source sv') (w_source w') = mk_particles Rops (layout2 (map (image2 (fun p => plus2 p b)) gs)) ->
  I w0 (w_interp w) -> I' w0' (w_interp w') -> w_integrator w = fresh m -> w_integrator w' = fresh m ->
  s_writer sv = false -> s_writer sv' = false ->
  src_id (s_source sv) = Ok id -> src_id (s_source sv') = Ok id' ->
  snd (run Rops interpolate' eigvals mems' write' sv' w') = snd (run Rops interpolate eigvals mems write sv w).
Proof. exact @affine2. Qed.
Print Assumptions C127_affine_partial.

Theorem C127_affine_3d_partial : forall (S P W S' P' W' : Type) interpolate interpolate' eigvals mems mems'
  (write : W -> string -> list (xval R) -> mat R -> W * res unit)
  (write' : W' -> string -> list (xval R) -> mat R -> W' * res unit) I I',
  samples_field interpolate I -> samples_field interpolate' I' ->
  forall (sv : solver R S P) (sv' : solver R S' P') (w : world R S P W) (w' : world R S' P' W')
    b c v v' m gs w0 w0' id id', (forall j, affine_field3 (v j)) ->
  (forall j, seen3 b c (INR j * src_timestep (s_source sv)) (v j) (v' j)) ->
  presents_fields I (s_source sv) (fun j => on_rows3 (v j)) ->
  presents_fields I' (s_source sv') (fun j => on_rows3 (v' j)) ->
  src_steps (s_source sv') = src_steps (s_source sv) ->
  src_timestep (s_source sv') = src_timestep (s_source sv) ->
  src_particles (s_source sv) (w_source w) = mk_particles Rops (layout3 gs) ->
  src_particles (s_source sv') (w_source w') = mk_particles Rops (layout3 (map (image3 (fun p => plus3 p b)) gs)) ->
  I w0 (w_interp w) -> I' w0' (w_interp w') -> w_integrator w = fresh m -> w_integrator w' = fresh m ->
  s_writer sv = false -> s_writer sv' = false ->
  src_id (s_source sv) = Ok id -> src_id (s_source sv') = Ok id' ->
  snd (run Rops interpolate' eigvals mems' write' sv' w') = snd (run Rops interpolate eigvals mems write sv w).
Proof. exact @affine3. Qed.
Print Assumptions C127_affine_3d_partial.

(** The jet meets the hypotheses of [C127_partial]; with Euler both observers get the same field. *)
Example C127_case : single_stage MEuler /\ (forall j, seen2 (0, 0) (0, 1) (INR j * 1) jet (jet_seen (INR j))) /\
  forall eigvals mems,
    snd (run Rops (@field_interp R) eigvals mems still (alone (fun j => jet_seen (INR j)) [seed1]) (start MEuler tt)) =
    snd (run Rops (@field_interp R) eigvals mems still (alone (fun _ => jet) [seed1]) (start MEuler tt)).
Proof. exact jet_euler. Qed.

(** A shear flow, in time with a growing rate, meets those of [C127_affine_partial]. *)
Example C127_case_affine : forall j, affine_field2 (growing_shear j) /\
  seen2 (1, 2) (3, 4) (INR j * 1) (growing_shear j) (growing_shear_seen j).
Proof. exact growing_shear_ok. Qed.
