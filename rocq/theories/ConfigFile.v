(** Model of the configuration file option of hyperparameters.py:93 and 149-154: configargparse.ArgumentParser with
    is_config_file=True, whose default parser of configuration files (configargparse 1.7.1, DefaultConfigFileParser) reads lines.
    No proofs here.  Simplifications: strings are bytes and only ASCII blanks have a meaning; "~" in the path is not expanded;
    keys that only abbreviate an option, which argparse accepts if they are unique, are refused here. *)
From Verif Require Import Base Num NdArray Text Hyper FileUtils Interpolate Readers DataSource Manager Jobs Program.

(** str.strip() (hyperparameters.py:149-155). *)
Fixpoint drop_end (s : string) : string :=
  match s with
  | EmptyString => EmptyString
  | String c s' => if all_spaces s then EmptyString else String c (drop_end s')
  end.
(** str.strip() of a line of the file that hyperparameters.py:149-155 names. *)
Definition strip (s : string) : string := drop_end (skip_spaces s).

(** Iteration over an open text file: the lines end at newlines, carriage returns or both.  An empty line more or less does not
    matter below (hyperparameters.py:149-155). *)
Fixpoint newlines (s : string) : string :=
  match s with
  | EmptyString => EmptyString
  | String c s' => String (if is_carriage c then newline else c) (newlines s')
  end.
(** The lines of the text of that file (hyperparameters.py:149-155). *)
Definition file_lines (s : string) : list string := split_on newline (newlines s).

(** One line is matched against
      ^(?P<key>[^:=;#\s]+)\s*(?:(?P<equal>[:=\s])\s*([Q]?)(?P<value>.+?)?\3)?\s*(?:\s[;#]\s*(?P<comment>.*?)\s* )?$
    where [Q] are the two quotation marks.  The functions below give the match that the backtracking of the module re finds first (hyperparameters.py:149-155). *)
Definition is_mark (c : ascii) : bool := (Ascii.eqb c ";" || Ascii.eqb c "#")%bool.
(** The characters : and = of that expression (hyperparameters.py:149-155). *)
Definition is_equal (c : ascii) : bool := (Ascii.eqb c ":" || Ascii.eqb c "=")%bool.
(** The characters of the group key (hyperparameters.py:149-155). *)
Definition is_key (c : ascii) : bool := negb (is_space c || is_mark c || is_equal c).
(** The class [Q] of that expression (hyperparameters.py:149-155). *)
Definition is_quotation (c : ascii) : bool := (Ascii.eqb c "'" || Ascii.eqb c quote)%bool.

(** [^:=;#\s]+ takes as much as possible: the key and what follows it (hyperparameters.py:149-155). *)
Fixpoint split_key (s : string) : string * string :=
  match s with
  | EmptyString => (EmptyString, EmptyString)
  | String c s' => if is_key c then (String c (fst (split_key s')), snd (split_key s')) else (EmptyString, s)
  end.

(** \s*(?:\s[;#]\s*(?P<comment>.*?)\s* )?$ (hyperparameters.py:149-155). *)
Definition ends_well (s : string) : bool :=
  match skip_spaces s with
  | EmptyString => true
  | String m _ => (is_mark m && match s with String c _ => is_space c | EmptyString => false end)%bool
  end.

(** .+? followed by what [after] accepts: the shortest nonempty beginning of [s] (hyperparameters.py:149-155). *)
Fixpoint shortest (after : string -> bool) (s : string) : option string :=
  match s with
  | EmptyString => None
  | String c s' => if after s' then Some (String c EmptyString) else option_map (String c) (shortest after s')
  end.

(** The closing quotation mark \3 and the end of the line (hyperparameters.py:149-155). *)
Definition closed (q : ascii) (s : string) : bool :=
  match s with String c s' => (Ascii.eqb c q && ends_well s')%bool | EmptyString => false end.

(** ([Q]?)(?P<value>.+?)?\3 and the end of the line, on the text after the equality sign and blanks; [None]: the group
    "value" takes part in no match.  There is always a match (hyperparameters.py:149-155). *)
Definition value_text (s : string) : option string :=
  match s with
  | EmptyString => None
  | String c s' =>
      if is_quotation c then
        match shortest (closed c) s' with
        | Some v => Some v
        | None => if closed c s' then None else shortest ends_well s
        end
      else shortest ends_well s
  end.

(** A value as configargparse hands it to the options of hyperparameters.py:156-247. *)
Inductive setting : Type := Word (s : string) | Items.   (* a list in brackets; its elements do not matter *)

(** The last character of a value is a closing bracket (configargparse, behind hyperparameters.py:149-155). *)
Fixpoint ends_in_bracket (s : string) : bool :=
  match s with
  | EmptyString => false
  | String c EmptyString => Ascii.eqb c "]"
  | String _ s' => ends_in_bracket s'
  end.
(** The test whether a value is a list in brackets (configargparse, DefaultConfigFileParser, behind hyperparameters.py:149-155). *)
Definition bracketed (s : string) : bool :=
  match s with String c _ => (Ascii.eqb c "[" && ends_in_bracket s)%bool | EmptyString => false end.
(** The value of a line: a text or a list (configargparse, DefaultConfigFileParser, behind hyperparameters.py:149-155). *)
Definition as_setting (v : string) : setting := if bracketed v then Items else Word v.

(** Lines that are skipped: empty ones, and those that begin with #, ;, [ or --- (hyperparameters.py:149-155). *)
Definition skipped (line : string) : bool :=
  match line with
  | EmptyString => true
  | String c _ => (is_mark c || Ascii.eqb c "[" || prefix "---" line)%bool
  end.

(** The key and its value in one line, stripped and not skipped; [None]: no match.  Without a value the result is "" after
    ":" or "=" and "true" otherwise.  Simplification: it would also be "" after a blank that is not a space (hyperparameters.py:149-155). *)
Definition match_line (line : string) : option (string * setting) :=
  match split_key line with
  | (EmptyString, _) => None
  | (key, rest) =>
      match rest with
      | EmptyString => Some (key, Word "true")
      | String b _ =>
          match skip_spaces rest with
          | EmptyString => Some (key, Word "true")          (* not reached: the line is stripped *)
          | String e after =>
              if is_equal e then
                Some (key, as_setting match value_text (skip_spaces after) with Some v => v | None => EmptyString end)
              else if is_space b then
                Some (key, as_setting match value_text (skip_spaces rest) with Some v => v | None => "true" end)
              else None
          end
      end
  end.

(** items[key] = value on an ordered dictionary (hyperparameters.py:149-155). *)
Fixpoint set_item (key : string) (v : setting) (items : list (string * setting)) : list (string * setting) :=
  match items with
  | [] => [(key, v)]
  | (k, w) :: items' => if String.eqb k key then (k, v) :: items' else (k, w) :: set_item key v items'
  end.

(** DefaultConfigFileParser.parse; its exception ends the program (ArgumentParser.error) (hyperparameters.py:149-155). *)
Fixpoint parse_lines (lines : list string) (items : list (string * setting)) : res (list (string * setting)) :=
  match lines with
  | [] => Ok items
  | line :: lines' =>
      let line := strip line in
      if skipped line then parse_lines lines' items
      else match match_line line with
           | Some (key, v) => parse_lines lines' (set_item key v items)
           | None => Err SystemExit
           end
  end.
(** The whole file of hyperparameters.py:149-155. *)
Definition parse_config (text : string) : res (list (string * setting)) := parse_lines (file_lines text) [].

(** The options of hyperparameters.py:156-247 by name: the value given, if any, and the effect of giving one. *)
Definition get_option (name : string) (c : command_line) : option (option string) :=
  let is n := String.eqb name n in
  if is "experiment_name" then Some (c_experiment_name c)
  else if is "list_velocity_files" then Some (c_list_velocity_files c)
  else if is "list_coordinate_files" then Some (c_list_coordinate_files c)
  else if is "list_particle_files" then Some (c_list_particle_files c)
  else if is "snapshot_timestep" then Some (c_snapshot_timestep c)
  else if is "flow_map_period" then Some (c_flow_map_period c)
  else if is "integrator" then Some (c_integrator c)
  else if is "interpolator" then Some (c_interpolator c)
  else if is "num_processes" then Some (c_num_processes c)
  else if is "output_format" then Some (c_output_format c)
  else if is "flow_grid_shape" then Some (c_flow_grid_shape c)
  else if is "particles_grid_shape" then Some (c_particles_grid_shape c)
  else None.

(** Giving the option of that name the value [v] (hyperparameters.py:156-247). *)
Definition set_option (name v : string) (c : command_line) : command_line :=
  let pick n old := if String.eqb name n then Some v else old in
  CommandLine (pick "experiment_name" (c_experiment_name c)) (pick "list_velocity_files" (c_list_velocity_files c))
    (pick "list_coordinate_files" (c_list_coordinate_files c)) (pick "list_particle_files" (c_list_particle_files c))
    (pick "snapshot_timestep" (c_snapshot_timestep c)) (pick "flow_map_period" (c_flow_map_period c))
    (pick "integrator" (c_integrator c)) (pick "interpolator" (c_interpolator c))
    (pick "num_processes" (c_num_processes c)) (pick "output_format" (c_output_format c))
    (pick "flow_grid_shape" (c_flow_grid_shape c)) (pick "particles_grid_shape" (c_particles_grid_shape c)).

(** get_possible_config_keys: an option --x can be given under the keys x and --x (hyperparameters.py:149-155). *)
Definition option_name (key : string) : string := if prefix "--" key then substring 2 (String.length key) key else key.

(** parse_known_args: every item is added as an argument --key=value unless its option [given] is on the command line; a list is
    refused for these options, and so is an unknown key.  The key config is on the command line, if there is a file at all (hyperparameters.py:149-155). *)
Fixpoint add_items (items : list (string * setting)) (given : command_line) (c : command_line) : res command_line :=
  match items with
  | [] => Ok c
  | (key, v) :: items' =>
      let name := option_name key in
      if String.eqb name "config" then add_items items' given c
      else match get_option name given, v with
           | None, _ => Err SystemExit
           | Some (Some _), _ => add_items items' given c
           | Some None, Items => Err SystemExit
           | Some None, Word w => add_items items' given (set_option name w c)
           end
  end.

(** hyperparameters.py:256, the arguments after the configuration file [config] has been taken into account; a file that cannot
    be opened ends the program. *)
Definition with_config (texts : string -> option string) (config : option string) (c : command_line) : res command_line :=
  match config with
  | None | Some EmptyString => Ok c
  | Some path =>
      match texts path with
      | None => Err SystemExit
      | Some text => let* items := parse_config text in add_items items c c
      end
  end.

(** __main__.py:216-234 with the option -c; [c]: the other options on the command line. *)
Definition configured_ends {T} (O : ops T) scp parse_float imems mems eigvals texts inputs
    (config : option string) (c : command_line) (fs : files T) (out : bool * res unit) (fs' : files T) : Prop :=
  match with_config texts config c with
  | Ok c' => main_ends O scp parse_float imems mems eigvals texts inputs c' fs out fs'
  | Err e => out = guarded (Err e) /\ fs' = fs
  end.
