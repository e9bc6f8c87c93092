(** Theorems about runs of data sets with another scale or direction of time. *)
From Coq Require Import Reals.
From Verif Require Import Base Num NdArray Particles Ftle Integrate Interpolate Readers DataSource Solver FileRun Writers FileUtils Manager Executor Jobs Program
  SpecUnits SpecTimescale SpecGridProgram ReverseFacts ReverseCases.

(** C131.  Two command lines with the same options: one steps backward through the files of the lists, the other forward through the
    files of the reversed lists, in which all velocities have the opposite sign.  The second reads the lists in the order in which
    the first one uses them.  The programs can end in the same ways and leave the same files, for any contents of fresh memory.  This is
    in exact arithmetic; SciPy's answers must change sign with the samples. *)
Theorem C131_reversed_program : forall scp, homogeneous (-1) scp -> forall parse_float eigvals texts texts' inputs c c' a a' vs cs ps fs out fs',
  parse_args parse_float c = Ok a -> parse_args parse_float c' = Ok a' ->
  experiment_name a' = experiment_name a -> flow_map_period a' = flow_map_period a ->
  Manager.integrator_name a' = Manager.integrator_name a -> interpolator_name a' = interpolator_name a -> num_processes a' = num_processes a ->
  output_format a' = output_format a -> flow_grid_shape a' = flow_grid_shape a -> particles_grid_shape a' = particles_grid_shape a ->
  Manager.snapshot_timestep a' = (- Manager.snapshot_timestep a)%R -> (Manager.snapshot_timestep a < 0)%R ->
  listed texts (list_velocity_files a) vs -> listed texts (list_coordinate_files a) cs -> listed texts (list_particle_files a) ps ->
  listed texts' (list_velocity_files a') (rev vs) -> listed texts' (list_coordinate_files a') (rev cs) -> listed texts' (list_particle_files a') (rev ps) ->
  (exists imems mems, main_ends Rops scp parse_float imems mems eigvals texts inputs c fs out fs') <->
  (exists imems mems, main_ends Rops scp parse_float imems mems eigvals texts' (retimed (-1) inputs) c' fs out fs').
Proof. exact reversed_program. Qed.
Print Assumptions C131_reversed_program.

Example C131_case : parse_args steps_of (command_at "v.txt" "-1") = Ok (args_at "v.txt" (-1)%R) /\
  parse_args steps_of (command_at "r.txt" "1") = Ok (args_at "r.txt" (1)%R) /\
  Manager.snapshot_timestep (args_at "r.txt" (1)%R) = (- Manager.snapshot_timestep (args_at "v.txt" ((-1)))%R)%R /\
  (Manager.snapshot_timestep (args_at "v.txt" (-1)%R) < 0)%R /\
  listed both_lists "v.txt" ["a.mat"; "b.mat"; "c.mat"]%string /\ listed both_lists "r.txt" (rev ["a.mat"; "b.mat"; "c.mat"]%string) /\
  listed both_lists "c.txt" ["grid.mat"]%string /\ listed both_lists "p.txt" ["seeds.mat"]%string /\
  homogeneous (-1) nearest_scipy.
Proof. exact reverse_case. Qed.

(** C121 for a task of the file workflow, whatever is in its files: with the velocities and the time step in another unit of time, its
    result and its output file are those of the first task with every rate in the new unit, or its error is the same error. *)
Theorem C121_file_task : forall c scp name gs i method m wr eigvals imems mems inputs f queue writer, c <> 0%R -> homogeneous c scp ->
  create_interpolator Rops scp name gs None = Ok i -> create_integrator method = Ok m ->
  exists imems' mems', let w := World m (i, 0) tt [] (WState None no_files) 0 in
    let before := file_worker Rops scp imems eigvals mems (write Rops wr) inputs f queue writer w in
    let after := file_worker Rops scp imems' eigvals mems' (write Rops wr) (retimed c inputs) (retimed_task c f) queue writer w in
    snd after = rates c (snd before) /\ w_queue (fst after) = w_queue (fst before) /\
    forall p, w_files (w_writer (fst after)) p = option_map (retimed_output c) (w_files (w_writer (fst before)) p).
Proof. exact task_retimed. Qed.
Print Assumptions C121_file_task.

Example C121_file_case : (forall c, homogeneous c nearest_scipy) /\
  (exists i, create_interpolator Rops nearest_scipy "linear" None None = Ok i) /\ (exists i, create_interpolator Rops nearest_scipy "grid" (Some [3; 2]) None = Ok i) /\
  exists m, create_integrator (T := R) "rk4" = Ok m.
Proof. split; [exact nearest_homogeneous|]. repeat split; eexists; reflexivity. Qed.
