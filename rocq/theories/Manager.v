(** Model of the command line program: the options of hyperparameters.py:149-258, and
    MultipleFTLEProcessManager.__init__ and main of __main__.py.  No proofs here. *)
From Verif Require Import Base Num NdArray Particles Integrate Interpolate DataSource Solver Writers Batches FileUtils Hyper.

(** The options given on the command line or in the configuration file; [None]: not given (hyperparameters.py:149-247). *)
Record command_line : Type := CommandLine {
  c_experiment_name : option string;
  c_list_velocity_files : option string;
  c_list_coordinate_files : option string;
  c_list_particle_files : option string;
  c_snapshot_timestep : option string;
  c_flow_map_period : option string;
  c_integrator : option string;
  c_interpolator : option string;
  c_num_processes : option string;
  c_output_format : option string;
  c_flow_grid_shape : option string;
  c_particles_grid_shape : option string
}.

(** hyperparameters.py:74-91, MyProgramArgs; [None] is Python's None, the default of an option without
    default. *)
Record program_args (T : Type) : Type := ProgramArgs {
  experiment_name : string;
  list_velocity_files : string;
  list_coordinate_files : string;
  list_particle_files : string;
  snapshot_timestep : T;
  flow_map_period : T;
  integrator_name : option string;
  interpolator_name : option string;
  num_processes : Z;
  output_format : option string;
  flow_grid_shape : option (list Z);
  particles_grid_shape : option (list Z)
}.
Arguments ProgramArgs {T}.
Arguments experiment_name {T} p. Arguments list_velocity_files {T} p. Arguments list_coordinate_files {T} p.
Arguments list_particle_files {T} p. Arguments snapshot_timestep {T} p. Arguments flow_map_period {T} p.
Arguments integrator_name {T} p. Arguments interpolator_name {T} p. Arguments num_processes {T} p.
Arguments output_format {T} p. Arguments flow_grid_shape {T} p. Arguments particles_grid_shape {T} p.

(** argparse: a missing required option, a value its type refuses and a value that is not among
    the choices end the program (hyperparameters.py:156-247). *)
Definition required (o : option string) : res string :=
  match o with Some s => Ok s | None => Err SystemExit end.
(** A value converted by the type of its option (hyperparameters.py:156-247). *)
Definition typed {A} (convert : string -> res A) (s : string) : res A :=
  match convert s with Ok a => Ok a | Err _ => Err SystemExit end.
(** An option that may be missing (hyperparameters.py:156-247). *)
Definition optional {A} (convert : string -> res A) (o : option string) : res (option A) :=
  match o with Some s => let* a := typed convert s in Ok (Some a) | None => Ok None end.
(** The option choices of hyperparameters.py:156-247. *)
Definition choice (choices : list string) (s : string) : res string :=
  if existsb (String.eqb s) choices then Ok s else Err SystemExit.

Section Manager.
  Context {T : Type} (O : ops T) (scp : scipy T).
  (** float(s) *)
  Variable parse_float : string -> res T.

  (** hyperparameters.py:149-258, the options and parse_args. *)
  Definition parse_args (c : command_line) : res (program_args T) :=
    let* experiment_name := required (c_experiment_name c) in
    let* velocity := required (c_list_velocity_files c) in
    let* coordinate := required (c_list_coordinate_files c) in
    let* particle := required (c_list_particle_files c) in
    let* timestep := required (c_snapshot_timestep c) in
    let* timestep := typed parse_float timestep in
    let* period := required (c_flow_map_period c) in
    let* period := typed parse_float period in
    let* integrator := optional (choice ["rk4"; "euler"; "ab2"]%string) (c_integrator c) in
    let* interpolator := optional (choice ["cubic"; "linear"; "nearest"; "grid"]%string) (c_interpolator c) in
    let* processes := optional py_int (c_num_processes c) in
    let* format := optional (choice ["mat"; "vtk"]%string) (c_output_format c) in
    let* flow_shape := optional parse_tuple (c_flow_grid_shape c) in
    let* particles_shape := optional parse_tuple (c_particles_grid_shape c) in
    Ok (ProgramArgs experiment_name velocity coordinate particle timestep period integrator interpolator
          (match processes with Some n => n | None => 1%Z end) format flow_shape particles_shape).

  (** None.lower() (integrate.py:373, interpolate.py:872). *)
  Definition named {A} (f : string -> res A) (name : option string) : res A :=
    match name with Some s => f s | None => Err AttributeError end.

  (** The shape as a list of sizes; parse_tuple (hyperparameters.py:138-139) lets only positive numbers pass. *)
  Definition shape_of (s : option (list Z)) : option (list nat) := option_map (map Z.to_nat) s.

  (** Entries of a list of paths that are missing values are floats: every later use as a path raises
      TypeError.  Simplification: raised here (file_utils.py:97-98). *)
  Definition paths (l : list (option string)) : res (list string) :=
    mapr (fun p => match p with Some s => Ok s | None => Err TypeError end) l.

  (** The attributes of MultipleFTLEProcessManager (__main__.py:60-89). *)
  Record manager : Type := Manager {
    m_snapshots : list string;
    m_coordinates : list string;
    m_particles : list string;
    m_timestep : T;
    m_period : T;
    m_processes : Z;
    m_integrator : integrator T;
    m_interpolator : interp scp;
    m_writer : writer
  }.

  (** __main__.py:60-109, __init__ and _handle_time_direction; [texts]: the text files on disk. *)
  Definition manager_init (texts : string -> option string) (a : program_args T) : res manager :=
    let* snapshots := get_files_list (texts (list_velocity_files a)) in
    let* coordinates := get_files_list (texts (list_coordinate_files a)) in
    let* particle_files := get_files_list (texts (list_particle_files a)) in
    let* interpolator := named (fun n => create_interpolator O scp n (shape_of (flow_grid_shape a)) None) (interpolator_name a) in
    let* integrator := named create_integrator (integrator_name a) in
    let directory := path_join "outputs" (experiment_name a) in
    let* w := match output_format a with
              | Some f => create_writer f directory (shape_of (particles_grid_shape a))
              | None => Err ValueError                     (* None is neither mat nor vtk *)
              end in
    let* snapshots := paths snapshots in
    let* coordinates := paths coordinates in
    let* particle_files := paths particle_files in
    let reversed {A} (l : list A) := handle_direction O (snapshot_timestep a) l in
    Ok (Manager (reversed snapshots) (reversed coordinates) (reversed particle_files) (snapshot_timestep a)
          (flow_map_period a) (num_processes a) integrator interpolator w).

  (** __main__.py:111-166. *)
  Definition manager_batches (m : manager) : res (list (file_source T)) :=
    create_batches O (m_snapshots m) (m_coordinates m) (m_particles m) (m_period m) (m_timestep m).
End Manager.
Arguments Manager {T scp}.
Arguments m_snapshots {T scp} m. Arguments m_coordinates {T scp} m. Arguments m_particles {T scp} m.
Arguments m_timestep {T scp} m. Arguments m_period {T scp} m. Arguments m_processes {T scp} m.
Arguments m_integrator {T scp} m. Arguments m_interpolator {T scp} m. Arguments m_writer {T scp} m.
Arguments manager {T} scp.

(** __main__.py:216-234, main without its decorator: [outcome] is the outcome of creating the manager and running it.
    Returns whether a message about a failure is printed, and the outcome. *)
Definition guarded (outcome : res unit) : bool * res unit :=
  match outcome with
  | Ok tt => (false, Ok tt)
  | Err e => if is_runtime_error e then (true, Ok tt) else (false, Err e)
  end.
