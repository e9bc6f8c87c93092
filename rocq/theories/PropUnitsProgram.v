(** Theorems about the whole program with another unit of time. *)
From Coq Require Import Reals.
From Verif Require Import Base Num NdArray Interpolate Readers DataSource Writers FileUtils Manager Executor Jobs Program SpecUnits SpecTimescale SpecGridProgram
  ReverseCases UnitsProgram UnitsCases.

(** C121 for the command line program: the files hold the velocities in another unit of time, and the time step and the period are given
    in this unit.  The program can end in the same ways, and it then leaves the same files with every rate in the new unit, whatever
    order its processes run in and whether or not one of them is killed. *)
Theorem C121_program : forall scp c, (0 < c)%R -> homogeneous c scp -> forall parse_float eigvals texts inputs cl cl' a a' fs out fs',
  parse_args parse_float cl = Ok a -> parse_args parse_float cl' = Ok a' ->
  experiment_name a' = experiment_name a ->
  list_velocity_files a' = list_velocity_files a -> list_coordinate_files a' = list_coordinate_files a -> list_particle_files a' = list_particle_files a ->
  Manager.integrator_name a' = Manager.integrator_name a -> interpolator_name a' = interpolator_name a -> num_processes a' = num_processes a ->
  output_format a' = output_format a -> flow_grid_shape a' = flow_grid_shape a -> particles_grid_shape a' = particles_grid_shape a ->
  Manager.snapshot_timestep a' = (c * Manager.snapshot_timestep a)%R -> flow_map_period a' = (c * flow_map_period a)%R ->
  (exists imems mems, main_ends Rops scp parse_float imems mems eigvals texts inputs cl fs out fs') <->
  (exists imems mems, main_ends Rops scp parse_float imems mems eigvals texts (retimed c inputs) cl' (retimed_results c fs) out (retimed_results c fs')).
Proof. exact units_program. Qed.
Print Assumptions C121_program.

Example C121_program_case : parse_args clock_of (timed_command "1" "2") = Ok (timed_args 1 2) /\ parse_args clock_of (timed_command "60" "120") = Ok (timed_args 60 120) /\
  Manager.snapshot_timestep (timed_args 60 120) = (60 * Manager.snapshot_timestep (timed_args 1 2))%R /\
  Manager.flow_map_period (timed_args 60 120) = (60 * Manager.flow_map_period (timed_args 1 2))%R /\ homogeneous 60 nearest_scipy.
Proof. exact units_case. Qed.
