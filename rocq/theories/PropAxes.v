(** Property C126: the FTLE field and the choice of coordinate axes. *)
From Coq Require Import String Reals List Floats.
From Verif Require Import Base Num NdArray Particles Ftle Integrate DataSource Solver SpecSeeds SpecIntegrate SpecSolver SpecFtle
  SpecAxes IntegrateMisc SolverCases UnitsFacts AxesFacts AxesCases FtleFacts3.
Import ListNotations.
Open Scope R_scope.

(** C126.  Two programs describe the same flow along other axes: the second has x and y exchanged, or
    one of them reversed, or both (SpecAxes).  Its seeds are the same seeds, with the neighbours named
    after the new axes.  The two may use different interpolators, data sources and memory contents.
    Then the fields are equal, value by value, and an error is the same error. *)
Theorem C126_axes_2d : forall (S P W S' P' W' : Type) interpolate interpolate' eigvals mems mems'
  (write : W -> string -> list (xval R) -> mat R -> W * res unit)
  (write' : W' -> string -> list (xval R) -> mat R -> W' * res unit) I I',
  samples_field interpolate I -> samples_field interpolate' I' ->
  forall (sv : solver R S P) (sv' : solver R S' P') (w : world R S P W) (w' : world R S' P' W')
    a v v' m gs w0 w0' id id', (forall j, turned2 a (v j) (v' j)) ->
  presents_fields I (s_source sv) (fun j => on_rows2 (v j)) ->
  presents_fields I' (s_source sv') (fun j => on_rows2 (v' j)) ->
  src_steps (s_source sv') = src_steps (s_source sv) ->
  src_timestep (s_source sv') = src_timestep (s_source sv) ->
  src_particles (s_source sv) (w_source w) = mk_particles Rops (layout2 gs) ->
  src_particles (s_source sv') (w_source w') = mk_particles Rops (layout2 (map (turn_group2 a) gs)) ->
  I w0 (w_interp w) -> I' w0' (w_interp w') -> w_integrator w = fresh m -> w_integrator w' = fresh m ->
  s_writer sv = false -> s_writer sv' = false ->
  src_id (s_source sv) = Ok id -> src_id (s_source sv') = Ok id' ->
  snd (run Rops interpolate' eigvals mems' write' sv' w') = snd (run Rops interpolate eigvals mems write sv w).
Proof. exact @axes_2. Qed.
Print Assumptions C126_axes_2d.

(** The same in 3D for the 48 ways of ordering and reversing the three axes.  The two runs hand
    np.linalg.eigvals different matrices, so it must return the eigenvalues of a symmetric matrix; in
    what order is its own affair. *)
Theorem C126_axes_3d : forall (S P W S' P' W' : Type) interpolate interpolate' eigvals mems mems'
  (write : W -> string -> list (xval R) -> mat R -> W * res unit)
  (write' : W' -> string -> list (xval R) -> mat R -> W' * res unit) I I',
  samples_field interpolate I -> samples_field interpolate' I' ->
  forall (sv : solver R S P) (sv' : solver R S' P') (w : world R S P W) (w' : world R S' P' W')
    a v v' m gs w0 w0' id id', eigvals_ok eigvals -> (forall j, turned3 a (v j) (v' j)) ->
  presents_fields I (s_source sv) (fun j => on_rows3 (v j)) ->
  presents_fields I' (s_source sv') (fun j => on_rows3 (v' j)) ->
  src_steps (s_source sv') = src_steps (s_source sv) ->
  src_timestep (s_source sv') = src_timestep (s_source sv) ->
  src_particles (s_source sv) (w_source w) = mk_particles Rops (layout3 gs) ->
  src_particles (s_source sv') (w_source w') = mk_particles Rops (layout3 (map (turn_group3 a) gs)) ->
  I w0 (w_interp w) -> I' w0' (w_interp w') -> w_integrator w = fresh m -> w_integrator w' = fresh m ->
  s_writer sv = false -> s_writer sv' = false ->
  src_id (s_source sv) = Ok id -> src_id (s_source sv') = Ok id' ->
  snd (run Rops interpolate' eigvals mems' write' sv' w') = snd (run Rops interpolate eigvals mems write sv w).
Proof. exact @axes_3. Qed.
Print Assumptions C126_axes_3d.

(** Exchanging the axes of the plane changes no bit: it holds in every arithmetic whose sums and
    products do not depend on the order of their operands. *)
Theorem C126_exchange_2d : forall (T : Type) (O : ops T), commutative O ->
  forall (S P W S' P' W' : Type) interpolate interpolate' eigvals mems mems'
  (write : W -> string -> list (xval T) -> mat T -> W * res unit)
  (write' : W' -> string -> list (xval T) -> mat T -> W' * res unit) I I',
  samples_field interpolate I -> samples_field interpolate' I' ->
  forall (sv : solver T S P) (sv' : solver T S' P') (w : world T S P W) (w' : world T S' P' W')
    v v' m gs w0 w0' id id', (forall j, exchanged2 (v j) (v' j)) ->
  presents_fields I (s_source sv) (fun j => on_rows2 (v j)) ->
  presents_fields I' (s_source sv') (fun j => on_rows2 (v' j)) ->
  src_steps (s_source sv') = src_steps (s_source sv) ->
  src_timestep (s_source sv') = src_timestep (s_source sv) ->
  src_particles (s_source sv) (w_source w) = mk_particles O (layout2 gs) ->
  src_particles (s_source sv') (w_source w') = mk_particles O (layout2 (map exchange_group2 gs)) ->
  I w0 (w_interp w) -> I' w0' (w_interp w') -> w_integrator w = fresh m -> w_integrator w' = fresh m ->
  s_writer sv = false -> s_writer sv' = false ->
  src_id (s_source sv) = Ok id -> src_id (s_source sv') = Ok id' ->
  snd (run O interpolate' eigvals mems' write' sv' w') = snd (run O interpolate eigvals mems write sv w).
Proof. exact @exchanged_2. Qed.
Print Assumptions C126_exchange_2d.

(** Exact arithmetic is one of these, and so is binary64, infinities and NaN included. *)
Theorem C126_commutative : commutative Rops /\ forall lnF, commutative (Fops lnF).
Proof. exact (conj Rops_commutative Fops_commutative). Qed.
Print Assumptions C126_commutative.

(** The pendulum with the velocity on the x axis and the angle, reversed, on the y axis. *)
Example C126_case_2d : turned2 quarter_turn pendulum pendulum_turned /\ turn_group2 quarter_turn seed1 = seed1 /\
  samples_field (@field_interp R) (fun v s => s = v) /\
  forall h, let a := unit_source pendulum h [seed1] in
  let b := unit_source pendulum_turned h (map (turn_group2 quarter_turn) [seed1]) in
  presents_fields (fun v s => s = v) a (fun _ => on_rows2 pendulum) /\
  presents_fields (fun v s => s = v) b (fun _ => on_rows2 pendulum_turned) /\
  src_steps a = 3%nat /\ src_steps b = 3%nat /\ src_timestep b = src_timestep a.
Proof.
  split; [exact pendulum_is_turned|]. split; [exact seed1_turned|]. split; [exact field_interp_ok|]. intros h a b.
  split; [apply unit_source_ok|]. split; [apply unit_source_ok|]. repeat split.
Qed.

(** The ABC flow: a cyclic exchange of the axes exchanges its three coefficients. *)
Example C126_case_3d : (forall a b c, turned3 cycle (abc a b c) (abc b c a)) /\ eigvals_ok eigvals_R.
Proof. exact (conj abc_cycle eigvals_R_ok). Qed.

(** Neighbours named after the old axes would not do: then the run divides by the wrong distances. *)
Example C126_case_names :
  turn_group2 quarter_turn (Group2 (-1, 0) (1, 0) (0, 2) (0, -2)) = Group2 (-2, 0) (2, 0) (0, 1) (0, -1).
Proof. unfold turn_group2, image2, turn2. cbn. repeat f_equal; ring. Qed.
