(** Model of how the parser of hyperparameters.py:93 and 149-247 reads the list of command line arguments (sys.argv[1:]) at
    hyperparameters.py:256: argparse of CPython 3.10 and 3.11, ArgumentParser.parse_args, for options that take one value each, -h, and no
    positional arguments.  No proofs here.  Simplifications: strings are bytes and only ASCII digits count; everything that argparse
    reports by ending the program is SystemExit, whatever the text and the exit status; if there is a configuration file, an abbreviated option counts as
    given on the command line (configargparse looks for full names). *)
From Verif Require Import Base Num NdArray Text Hyper FileUtils Interpolate Readers DataSource Manager Jobs Program ConfigFile.

(** The actions behind the options of hyperparameters.py:149-247: -h, -c and an option with one value. *)
Inductive action : Type := Help | Config | Named (name : string).

(** The strings of all options in the order of hyperparameters.py:149-247; -h and --help are added by argparse. *)
Definition option_strings : list (string * action) :=
  (("-h", Help) :: ("--help", Help) :: ("-c", Config) :: ("--config", Config) ::
   map (fun n => (append "--" n, Named n))
     ["experiment_name"; "list_velocity_files"; "list_coordinate_files"; "list_particle_files"; "snapshot_timestep"; "flow_map_period";
      "integrator"; "interpolator"; "num_processes"; "output_format"; "flow_grid_shape"; "particles_grid_shape"])%string.

(** self._option_string_actions[s] (hyperparameters.py:256). *)
Definition action_of (s : string) : option action :=
  option_map snd (find (fun o => String.eqb s (fst o)) option_strings).

(** str.partition("="): what is before the first sign, and what is after it, if there is one (hyperparameters.py:256). *)
Fixpoint partition_eq (s : string) : string * option string :=
  match s with
  | EmptyString => (EmptyString, None)
  | String c s' =>
      if Ascii.eqb c "=" then (EmptyString, Some s')
      else (String c (fst (partition_eq s')), snd (partition_eq s'))
  end.

(** The regular expression ^-\d+$|^-\d*\.\d+$ of argparse (hyperparameters.py:256). *)
Fixpoint digits_end (some : bool) (s : string) : bool :=
  match s with
  | EmptyString => some
  | String c s' =>
      if is_digit c then digits_end true s'
      else (some && Ascii.eqb c newline && match s' with EmptyString => true | _ => false end)%bool
  end.
(** The digits after the point in that expression (argparse, behind hyperparameters.py:256). *)
Fixpoint fraction_end (s : string) : bool :=
  match s with
  | EmptyString => false
  | String c s' => if is_digit c then fraction_end s' else (Ascii.eqb c "." && digits_end false s')%bool
  end.
(** _negative_number_matcher.match(s) (argparse, behind hyperparameters.py:256). *)
Definition negative_number (s : string) : bool :=
  match s with
  | String c s' => (Ascii.eqb c "-" && (digits_end false s' || fraction_end s'))%bool
  | EmptyString => false
  end.

(** The test for a blank in an argument (argparse _parse_optional, behind hyperparameters.py:256). *)
Fixpoint has_space (s : string) : bool :=
  match s with EmptyString => false | String c s' => (Ascii.eqb c " " || has_space s')%bool end.

(** _get_option_tuples: the options that [s], an argument of two or more characters beginning with "-", can stand for, with
    the value that is part of [s] (hyperparameters.py:256). *)
Definition option_tuples (s : string) : list (action * option string) :=
  if prefix "--" s then
    let (p, v) := partition_eq s in
    map (fun o => (snd o, v)) (filter (fun o => prefix p (fst o)) option_strings)
  else
    flat_map (fun o =>
      if String.eqb (fst o) (substring 0 2 s) then [(snd o, Some (substring 2 (String.length s - 2) s))]
      else if prefix s (fst o) then [(snd o, None)] else []) option_strings.

(** What an argument is: a value (pattern A), the two dashes alone, an option, with a value in the same argument or without
    one, or something else that begins with a dash: an unknown or an ambiguous option (hyperparameters.py:256). *)
Inductive kind : Type := Value | Dashes | Option (a : action) (v : option string) | NoOption.

(** _parse_optional, and the first loop of _parse_known_args (hyperparameters.py:256). *)
Definition classify (s : string) : kind :=
  match s with
  | EmptyString => Value
  | String c s' =>
      if negb (Ascii.eqb c "-") then Value
      else if String.eqb s "--" then Dashes
      else match action_of s with
      | Some a => Option a None
      | None =>
          match s' with
          | EmptyString => Value
          | _ =>
              match partition_eq s with
              | (o, Some v) =>
                  match action_of o with
                  | Some a => Option a (Some v)
                  | None => match option_tuples s with
                            | [(a, w)] => Option a w
                            | [] => if negative_number s then Value else if has_space s then Value else NoOption
                            | _ => NoOption
                            end
                  end
              | (_, None) => match option_tuples s with
                             | [(a, w)] => Option a w
                             | [] => if negative_number s then Value else if has_space s then Value else NoOption
                             | _ => NoOption
                             end
              end
          end
      end
  end.

Section Args.
  Context {T : Type} (parse_float : string -> res T).

  (** _get_value and _check_value: every value given is converted and checked, also if the option is given again later (hyperparameters.py:256). *)
  Definition converts (name v : string) : bool :=
    let ok {A} (r : res A) := match r with Ok _ => true | Err _ => false end in
    let is n := String.eqb name n in
    (if orb (is "snapshot_timestep") (is "flow_map_period") then ok (parse_float v)
     else if is "integrator" then ok (choice ["rk4"; "euler"; "ab2"] v)
     else if is "interpolator" then ok (choice ["cubic"; "linear"; "nearest"; "grid"] v)
     else if is "num_processes" then ok (py_int v)
     else if is "output_format" then ok (choice ["mat"; "vtk"] v)
     else if orb (is "flow_grid_shape") (is "particles_grid_shape") then ok (parse_tuple v)
     else true)%string.

  (** take_action: the path of the configuration file, and the other options (hyperparameters.py:256). *)
  Definition take (a : action) (v : string) (given : option string * command_line) : res (option string * command_line) :=
    match a with
    | Help => Err SystemExit
    | Config => Ok (Some v, snd given)
    | Named name => if converts name v then Ok (fst given, set_option name v (snd given)) else Err SystemExit
    end.

  (** _parse_known_args and parse_args.  A value that belongs to no option and an argument that is no option are collected and end
      the program afterwards; so does a missing value (hyperparameters.py:256). *)
  Fixpoint consume (args : list string) (given : option string * command_line) : res (option string * command_line) :=
    match args with
    | [] => Ok given
    | s :: args' =>
        match classify s with
        | Option Help _ => Err SystemExit
        | Option a (Some v) => let* given' := take a v given in consume args' given'
        | Option a None =>
            match args' with
            | v :: args'' =>
                match classify v with
                | Value => let* given' := take a v given in consume args'' given'
                | _ => Err SystemExit
                end
            | [] => Err SystemExit
            end
        | Value | Dashes | NoOption => Err SystemExit
        end
    end.
  (** hyperparameters.py:256, parser.parse_args(): the path of the configuration file and the options. *)
  Definition parse_argv (args : list string) : res (option string * command_line) :=
    consume args (None, CommandLine None None None None None None None None None None None None).
End Args.

(** __main__.py:216-234 with the arguments [args]. *)
Definition argv_ends {T} (O : ops T) scp parse_float imems mems eigvals texts inputs
    (args : list string) (fs : files T) (out : bool * res unit) (fs' : files T) : Prop :=
  match parse_argv parse_float args with
  | Ok (config, c) => configured_ends O scp parse_float imems mems eigvals texts inputs config c fs out fs'
  | Err e => out = guarded (Err e) /\ fs' = fs
  end.
