(** Specification vocabulary for C134-C136: what a line of a configuration file says. *)
From Verif Require Import Base Text FileUtils Hyper SpecText Manager.
Open Scope string_scope.

(** The names of the options. *)
Definition option_names : list string :=
  ["experiment_name"; "list_velocity_files"; "list_coordinate_files"; "list_particle_files"; "snapshot_timestep"; "flow_map_period";
   "integrator"; "interpolator"; "num_processes"; "output_format"; "flow_grid_shape"; "particles_grid_shape"].

Definition blanks (s : string) : Prop := forall c, occurs c s -> c = " "%char \/ c = tab.
Definition one_line (s : string) : Prop := ~ occurs newline s /\ ~ occurs carriage s.

(** What may follow the value: blanks, and then a comment that is separated from the value. *)
Inductive remark : string -> Prop :=
| no_remark b : blanks b -> remark b
| a_remark b c t : blanks b -> c = " "%char \/ c = tab -> one_line t -> remark (b ++ String c ("#" ++ t)).

(** Written between brackets. *)
Definition in_brackets (v : string) : Prop := exists t, v = "[" ++ t ++ "]".

(** A value that can be written as it is: on one line, neither beginning nor ending with a blank, not beginning with a quotation mark
    or a comment sign, without a comment sign after a blank, and not in brackets. *)
Definition bare_value (v : string) : Prop :=
  one_line v /\ (exists c t, v = String c t /\ is_space c = false /\ ~ In c ["'"; """"; "#"; ";"]%char) /\
  (exists t c, v = t ++ String c "" /\ is_space c = false) /\
  (forall a b c d, v = a ++ String b (String c d) -> is_space b = true -> ~ In c ["#"; ";"]%char) /\ ~ in_brackets v.

(** [says line None]: nothing; [says line (Some (name, v))]: the option has the value v. *)
Inductive says : string -> option (string * string) -> Prop :=
| says_nothing b : blanks b -> says b None
| says_comment b t : blanks b -> one_line t -> says (b ++ "#" ++ t) None
| says_bare b0 name b1 eq b2 v r :
    blanks b0 -> In name option_names -> blanks b1 -> In eq [":"; "="] -> blanks b2 -> bare_value v -> remark r ->
    says (b0 ++ name ++ b1 ++ eq ++ b2 ++ v ++ r) (Some (name, v))
| says_quoted b0 name b1 eq b2 q v r :
    blanks b0 -> In name option_names -> blanks b1 -> In eq [":"; "="] -> blanks b2 -> In q ["'"; """"]%char ->
    one_line v -> v <> "" -> ~ occurs q v -> ~ in_brackets v -> remark r ->
    says (b0 ++ name ++ b1 ++ eq ++ b2 ++ String q (v ++ String q r)) (Some (name, v)).

(** The text has the given lines, each but the last followed by a line end of one of the three kinds. *)
Inductive written : list string -> string -> Prop :=
| written_empty : written [] ""
| written_last l : written [l] l
| written_line l e lines t :
    In e [String newline ""; String carriage (String newline ""); String carriage ""] -> written lines t -> written (l :: lines) (l ++ e ++ t).

(** What the last of the lines about the option says. *)
Fixpoint last_said (name : string) (said : list (option (string * string))) : option string :=
  match said with
  | [] => None
  | s :: said' =>
      match last_said name said', s with
      | Some v, _ => Some v
      | None, Some (n, v) => if String.eqb n name then Some v else None
      | None, None => None
      end
  end.

(** The options on the command line, and for those not given there what the file says. *)
Definition merged (c : command_line) (said : list (option (string * string))) : command_line :=
  let or given name := match given with Some v => Some v | None => last_said name said end in
  CommandLine (or (c_experiment_name c) "experiment_name") (or (c_list_velocity_files c) "list_velocity_files")
    (or (c_list_coordinate_files c) "list_coordinate_files") (or (c_list_particle_files c) "list_particle_files")
    (or (c_snapshot_timestep c) "snapshot_timestep") (or (c_flow_map_period c) "flow_map_period")
    (or (c_integrator c) "integrator") (or (c_interpolator c) "interpolator") (or (c_num_processes c) "num_processes")
    (or (c_output_format c) "output_format") (or (c_flow_grid_shape c) "flow_grid_shape")
    (or (c_particles_grid_shape c) "particles_grid_shape").

(** A line that gives a value to something that is no option and no abbreviation of one; lines that begin with [ or --- are
    section titles and separators. *)
Definition misspelt (line : string) : Prop :=
  exists b key rest, line = b ++ key ++ ":" ++ rest /\ blanks b /\ one_line rest /\ key <> "" /\
    (forall c, occurs c key -> is_space c = false /\ ~ In c ["#"; ";"; ":"; "="; "["; "-"]%char) /\
    forall name, In name ("config" :: "help" :: option_names) -> prefix key name = false.

(** YAML: a line of a block mapping whose value is a plain scalar; comments begin with # at the start or after a blank, and ";" means nothing.
    Only such scalars that begin with a letter and have no colon are described. *)
Definition letter (c : ascii) : Prop := let n := nat_of_ascii c in 97 <= n <= 122 \/ 65 <= n <= 90.
Definition yaml_scalar (line name v : string) : Prop :=
  line = name ++ ": " ++ v /\ one_line v /\ (exists c t, v = String c t /\ letter c) /\ (exists t c, v = t ++ String c "" /\ is_space c = false) /\
  ~ occurs "#" v /\ ~ occurs ":" v.

(** YAML: the value is a flow sequence of plain integers. *)
Definition yaml_sequence (line name : string) (items : list string) : Prop :=
  line = name ++ ": [" ++ String.concat ", " items ++ "]" /\ items <> [] /\
  forall s, In s items -> s <> "" /\ forall c, occurs c s -> is_digit c = true.
