(** Specification vocabulary for C119: which command lines the program accepts.  [parse_float] is Python's float(). *)
From Verif Require Import Base SpecConfig Manager.
Open Scope string_scope.

(** The option is one of the words, or not given. *)
Definition one_of (words : list string) (o : option string) : Prop := forall s, o = Some s -> In s words.

(** The number of processes is an integer, or not given. *)
Definition whole_number (o : option string) : Prop := forall s, o = Some s -> exists z, integer s z.

(** The shape is a list of two or three positive integers, separated by commas, or not given. *)
Definition shape_option (o : option string) : Prop :=
  forall s, o = Some s -> exists zs, integers s zs /\ (length zs = 2 \/ length zs = 3) /\ forall z, In z zs -> (0 < z)%Z.

Definition acceptable {T} (parse_float : string -> res T) (c : command_line) : Prop :=
  c_experiment_name c <> None /\ c_list_velocity_files c <> None /\ c_list_coordinate_files c <> None /\ c_list_particle_files c <> None /\
  (exists s h, c_snapshot_timestep c = Some s /\ parse_float s = Ok h) /\ (exists s p, c_flow_map_period c = Some s /\ parse_float s = Ok p) /\
  one_of ["rk4"; "euler"; "ab2"] (c_integrator c) /\ one_of ["cubic"; "linear"; "nearest"; "grid"] (c_interpolator c) /\
  one_of ["mat"; "vtk"] (c_output_format c) /\ whole_number (c_num_processes c) /\
  shape_option (c_flow_grid_shape c) /\ shape_option (c_particles_grid_shape c).

(** The shape used for the one given: a last 1 is dropped. *)
Definition shape_used (o : option string) (used : option (list Z)) : Prop :=
  match o, used with
  | None, None => True
  | Some s, Some t => exists zs, integers s zs /\ t = if (last zs 0 =? 1)%Z then removelast zs else zs
  | _, _ => False
  end.

(** The options that the program works with are those given. *)
Definition as_given {T} (parse_float : string -> res T) (c : command_line) (a : program_args T) : Prop :=
  c_experiment_name c = Some (experiment_name a) /\ c_list_velocity_files c = Some (list_velocity_files a) /\
  c_list_coordinate_files c = Some (list_coordinate_files a) /\ c_list_particle_files c = Some (list_particle_files a) /\
  (exists s, c_snapshot_timestep c = Some s /\ parse_float s = Ok (snapshot_timestep a)) /\
  (exists s, c_flow_map_period c = Some s /\ parse_float s = Ok (flow_map_period a)) /\
  integrator_name a = c_integrator c /\ interpolator_name a = c_interpolator c /\ output_format a = c_output_format c /\
  match c_num_processes c with None => num_processes a = 1%Z | Some s => integer s (num_processes a) end /\
  shape_used (c_flow_grid_shape c) (flow_grid_shape a) /\ shape_used (c_particles_grid_shape c) (particles_grid_shape a).
