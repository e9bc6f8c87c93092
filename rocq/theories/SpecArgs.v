(** Specification vocabulary for C141-C144: what a list of command line arguments says. *)
From Verif Require Import Base Text Hyper SpecText SpecConfig SpecCommand Manager SpecConfigFile.
Open Scope string_scope.

(** The options that take a value: the configuration file and the others. *)
Definition all_names : list string := "config" :: option_names.

Definition undashed (v : string) : Prop := forall t, v <> String "-" t.

Definition digits (s : string) : Prop := s <> "" /\ forall c, occurs c s -> is_digit c = true.
(** -12, -1.5 and -.5; neither -5. nor -1e-3. *)
Inductive negative_decimal : string -> Prop :=
| negative_integer a : digits a -> negative_decimal ("-" ++ a)
| negative_fraction a b : a = "" \/ digits a -> digits b -> negative_decimal ("-" ++ a ++ "." ++ b).

(** The ways to write an option and its value: in two arguments or in one; the configuration file also after -c. *)
Inductive spells (name v : string) : list string -> Prop :=
| in_two : undashed v \/ negative_decimal v -> spells name v ["--" ++ name; v]
| in_one : spells name v ["--" ++ name ++ "=" ++ v]
| by_letter : name = "config" -> undashed v -> spells name v ["-c"; v].

(** The value of an option in a list of options and values: the last one given. *)
Fixpoint last_given (name : string) (items : list (string * string)) : option string :=
  match items with
  | [] => None
  | (n, v) :: items' => match last_given name items' with Some w => Some w | None => if String.eqb n name then Some v else None end
  end.
Definition options_of (items : list (string * string)) : command_line :=
  let g name := last_given name items in
  CommandLine (g "experiment_name") (g "list_velocity_files") (g "list_coordinate_files") (g "list_particle_files")
    (g "snapshot_timestep") (g "flow_map_period") (g "integrator") (g "interpolator") (g "num_processes") (g "output_format")
    (g "flow_grid_shape") (g "particles_grid_shape").

(** A value that the option can have. *)
Definition suits {T} (parse_float : string -> res T) (name v : string) : Prop :=
  (name = "snapshot_timestep" \/ name = "flow_map_period" -> exists x, parse_float v = Ok x) /\
  (name = "integrator" -> In v ["rk4"; "euler"; "ab2"]) /\
  (name = "interpolator" -> In v ["cubic"; "linear"; "nearest"; "grid"]) /\
  (name = "output_format" -> In v ["mat"; "vtk"]) /\
  (name = "num_processes" -> whole_number (Some v)) /\
  (name = "flow_grid_shape" \/ name = "particles_grid_shape" -> shape_option (Some v)).

(** [p] is the option, or "--" and the beginning of its name, which no other option has in common; --help is an option, too. *)
Definition stands_for (p name : string) : Prop :=
  p = "-c" /\ name = "config" \/
  exists q, p = "--" ++ q /\ prefix q name = true /\ forall n, In n ("help" :: all_names) -> prefix q n = true -> n = name.

(** All that can be an option and its value. *)
Inductive gives (name v : string) : list string -> Prop :=
| gives_apart p : stands_for p name -> undashed v \/ v = "-" \/ (exists d t, v = "-" ++ String d t /\ (is_digit d = true \/ d = "."%char)) \/ occurs " " v -> gives name v [p; v]
| gives_joined p : stands_for p name -> gives name v [p ++ "=" ++ v]
| gives_attached : name = "config" -> gives name v ["-c" ++ v].

(** The arguments of the command in the README.  In a shell the backslash before the comment in the last but one line stands for
    a blank as an argument, and the command ends there. *)
Definition readme_items : list (string * string) :=
  [("experiment_name", "my_experiment"); ("list_velocity_files", "velocity_files.txt"); ("list_coordinate_files", "coordinate_files.txt");
   ("list_particle_files", "particle_files.txt"); ("snapshot_timestep", "0.1"); ("flow_map_period", "5.0"); ("integrator", "rk4");
   ("interpolator", "cubic"); ("num_processes", "4"); ("output_format", "vtk"); ("flow_grid_shape", "100,100,100")].
Definition readme_arguments : list string := concat (map (fun i => ["--" ++ fst i; snd i]) readme_items) ++ [" "].

(** What the lines of a configuration file say ([says]), as options and values and as arguments. *)
Fixpoint items_said (said : list (option (string * string))) : list (string * string) :=
  match said with [] => [] | Some i :: said' => i :: items_said said' | None :: said' => items_said said' end.
Definition as_arguments (said : list (option (string * string))) : list string := map (fun i => "--" ++ fst i ++ "=" ++ snd i) (items_said said).
