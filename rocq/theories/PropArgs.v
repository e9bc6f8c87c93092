(** Properties C141-C145: the arguments of the command line.  [argv_ends args fs out fs']: the program, started with the arguments [args] and
    the output files [fs], can end with the outcome [out] and the files [fs'].  [configured_ends config c fs out fs']: the same for a program
    whose options are [c] and whose configuration file is [config]. *)
From Coq Require Import Permutation.
From Verif Require Import Base Num NdArray Text Hyper FileUtils Interpolate Readers DataSource Manager Jobs Program ConfigFile Args
  SpecText SpecConfig SpecCommand SpecConfigFile SpecArgs ArgsFacts ArgsMain ArgsConfig ConfigFileCases.
Open Scope string_scope.

(** C141: every option is read, whether written as two arguments or as one; of a repeated option the last value counts.  (Without
    repetition the values may be wrong: both sides then end in the same way.) *)
Theorem C141_options : forall T (O : ops T) scp parse_float imems mems eigvals texts inputs items tokens fs,
  Forall2 (fun i ts => spells (fst i) (snd i) ts) items tokens -> (forall i, In i items -> In (fst i) all_names) ->
  NoDup (map fst items) \/ (forall i, In i items -> suits parse_float (fst i) (snd i)) ->
  forall out fs', argv_ends O scp parse_float imems mems eigvals texts inputs (concat tokens) fs out fs' <->
    configured_ends O scp parse_float imems mems eigvals texts inputs (last_given "config" items) (options_of items) fs out fs'.
Proof. exact @options_read. Qed.
Print Assumptions C141_options.

(** The order of the options and the way each is written do not matter. *)
Theorem C141_order : forall T (O : ops T) scp parse_float imems mems eigvals texts inputs items items' tokens tokens' fs,
  Forall2 (fun i ts => spells (fst i) (snd i) ts) items tokens -> Forall2 (fun i ts => spells (fst i) (snd i) ts) items' tokens' ->
  (forall i, In i items -> In (fst i) all_names) -> NoDup (map fst items) -> Permutation items items' ->
  forall out fs', argv_ends O scp parse_float imems mems eigvals texts inputs (concat tokens) fs out fs' <->
    argv_ends O scp parse_float imems mems eigvals texts inputs (concat tokens') fs out fs'.
Proof. exact @any_order. Qed.
Print Assumptions C141_order.

Example C141_case :
  Forall2 (fun i ts => spells (fst i) (snd i) ts) [("config", "config.yaml"); ("snapshot_timestep", "-0.1"); ("integrator", "ab2")]
    [["-c"; "config.yaml"]; ["--snapshot_timestep"; "-0.1"]; ["--integrator=ab2"]] /\
  NoDup (map fst [("config", "config.yaml"); ("snapshot_timestep", "-0.1"); ("integrator", "ab2")]) /\
  options_of [("config", "config.yaml"); ("snapshot_timestep", "-0.1"); ("integrator", "ab2")] =
    CommandLine None None None None (Some "-0.1") None (Some "ab2") None None None None None.
Proof.
  split; [|split; [repeat constructor; cbn; intuition discriminate|reflexivity]].
  repeat apply Forall2_cons; [|..|apply Forall2_nil]; cbn [fst snd].
  - apply by_letter; [reflexivity|]. intros t. discriminate.
  - apply in_two. right. apply (negative_fraction "0" "1"); [right|]; (split; [discriminate|]); intros c (a & b & E);
      (destruct a as [|x a]; [injection E as <- _; reflexivity|destruct a; discriminate]).
  - apply (in_one "integrator" "ab2").
Qed.

(** C142: a negative time step asks for backward-time fields.  Not every negative number can be given: with an exponent, as -1e-3, it is taken for
    an option, wherever it stands and whatever else is given, and the program ends before it touches a file. *)
Theorem C142_refuted : forall T (O : ops T) scp parse_float imems mems eigvals texts inputs a b before after fs,
  digits a -> ~ occurs " " b ->
  forall out fs', argv_ends O scp parse_float imems mems eigvals texts inputs
    (before ++ ["--snapshot_timestep"; ("-" ++ a ++ "e" ++ b)%string] ++ after)%list fs out fs' <-> out = (false, Err SystemExit) /\ fs' = fs.
Proof. exact @scientific_ends. Qed.
Print Assumptions C142_refuted.

Example C142_case : "-" ++ "1" ++ "e" ++ "-3" = "-1e-3" /\ digits "1" /\ ~ occurs " " "-3".
Proof.
  split; [reflexivity|]. split; [split; [discriminate|]|]; intros.
  - destruct H as (a & b & E). destruct a as [|x a]; [injection E as <- _; reflexivity|destruct a; discriminate].
  - intros (a & b & E). destruct a as [|? [|? a]]; [discriminate|discriminate|destruct a; discriminate].
Qed.

(** Missing: other notations than -12, -1.5 and -.5, unless the number is part of the same argument.  Those are read. *)
Theorem C142_decimal_partial : forall T (O : ops T) scp parse_float imems mems eigvals texts inputs items tokens v ts fs,
  Forall2 (fun i ts => spells (fst i) (snd i) ts) items tokens -> (forall i, In i items -> In (fst i) all_names) -> NoDup ("snapshot_timestep" :: map fst items) ->
  negative_decimal v /\ ts = ["--snapshot_timestep"; v] \/ ts = ["--snapshot_timestep=" ++ v] ->
  forall out fs', argv_ends O scp parse_float imems mems eigvals texts inputs (ts ++ concat tokens)%list fs out fs' <->
    configured_ends O scp parse_float imems mems eigvals texts inputs (last_given "config" items) (options_of (("snapshot_timestep", v) :: items)) fs out fs'.
Proof. exact @negative_read. Qed.
Print Assumptions C142_decimal_partial.

Example C142_decimal_case : negative_decimal "-.5".
Proof.
  apply (negative_fraction "" "5"); [left; reflexivity|]. split; [discriminate|]. intros c (a & b & E). destruct a as [|x a]; [injection E as <- _; reflexivity|destruct a; discriminate].
Qed.

(** C143: every argument is used or reported: either the program ends with SystemExit before it touches a file, or the
    arguments are options, by their names or beginnings of their names that belong to no other option, and values for them, and the program
    does what these say. *)
Theorem C143_all_used : forall T (O : ops T) scp parse_float imems mems eigvals texts inputs args fs out fs',
  argv_ends O scp parse_float imems mems eigvals texts inputs args fs out fs' ->
  out = (false, Err SystemExit) /\ fs' = fs \/
  exists items tokens, args = concat tokens /\ Forall2 (fun i ts => gives (fst i) (snd i) ts) items tokens /\ (forall i, In i items -> In (fst i) all_names) /\
    configured_ends O scp parse_float imems mems eigvals texts inputs (last_given "config" items) (options_of items) fs out fs'.
Proof. exact @nothing_overlooked. Qed.
Print Assumptions C143_all_used.

(** A misspelt option, with or without a value, is reported wherever it stands. *)
Theorem C143_misspelt : forall T (O : ops T) scp parse_float imems mems eigvals texts inputs r s args fs,
  (forall n, In n ("help" :: all_names) -> prefix r n = false) -> ~ occurs "=" r ->
  s = "--" ++ r \/ (exists w, s = "--" ++ r ++ "=" ++ w) -> ~ occurs " " s -> In s args ->
  forall out fs', argv_ends O scp parse_float imems mems eigvals texts inputs args fs out fs' <-> out = (false, Err SystemExit) /\ fs' = fs.
Proof. exact @misspelt_ends. Qed.
Print Assumptions C143_misspelt.

Example C143_case : forall n, In n ("help" :: all_names) -> prefix "time_step" n = false.
Proof. intros n H. cbn in H. repeat (destruct H as [<-|H]; [reflexivity|]). destruct H. Qed.

(** C144: the command that the README gives does not run: the blank after a backslash is an argument of its own. *)
Theorem C144_refuted : forall T (O : ops T) scp parse_float imems mems eigvals texts inputs fs out fs',
  argv_ends O scp parse_float imems mems eigvals texts inputs readme_arguments fs out fs' <-> out = (false, Err SystemExit) /\ fs' = fs.
Proof. exact @readme_ends. Qed.
Print Assumptions C144_refuted.

(** Missing: the comment in the command.  Without it, with the last line or not, the options are those that the command shows. *)
Theorem C144_uncommented_partial : forall T (O : ops T) scp parse_float imems mems eigvals texts inputs (both : bool) fs out fs',
  let items := (readme_items ++ if both then [("particles_grid_shape", "100,100,100")] else [])%list in
  argv_ends O scp parse_float imems mems eigvals texts inputs (concat (map (fun i => ["--" ++ fst i; snd i]) items)) fs out fs' <->
  configured_ends O scp parse_float imems mems eigvals texts inputs None
    (CommandLine (Some "my_experiment") (Some "velocity_files.txt") (Some "coordinate_files.txt") (Some "particle_files.txt") (Some "0.1") (Some "5.0")
      (Some "rk4") (Some "cubic") (Some "4") (Some "vtk") (Some "100,100,100") (if both then Some "100,100,100" else None)) fs out fs'.
Proof. exact @readme_fixed. Qed.
Print Assumptions C144_uncommented_partial.

(** C145: a configuration file is worth as much as its lines given as arguments before the others: the program ends in the same ways. *)
Theorem C145_as_arguments : forall T (O : ops T) scp parse_float imems mems eigvals texts inputs path lines said text cts items tokens fs,
  Forall2 says lines said -> written lines text -> path <> "" -> texts path = Some text -> spells "config" path cts ->
  Forall2 (fun i ts => spells (fst i) (snd i) ts) items tokens -> (forall i, In i items -> In (fst i) option_names) ->
  (forall i, In i (items_said said ++ items)%list -> suits parse_float (fst i) (snd i)) ->
  forall out fs', argv_ends O scp parse_float imems mems eigvals texts inputs (cts ++ concat tokens)%list fs out fs' <->
    argv_ends O scp parse_float imems mems eigvals texts inputs (as_arguments said ++ concat tokens)%list fs out fs'.
Proof. exact @file_as_arguments. Qed.
Print Assumptions C145_as_arguments.

(** The config.yaml of the repository, with --interpolator grid: the lines of the file are these arguments. *)
Example C145_case :
  Forall2 says shipped shipped_says /\ written shipped (text_of shipped) /\ spells "config" "config.yaml" ["-c"; "config.yaml"] /\
  (forall T (parse_float : string -> res T) x y, parse_float "0.1" = Ok x -> parse_float "5" = Ok y ->
    forall i, In i (items_said shipped_says ++ [("interpolator", "grid")])%list -> suits parse_float (fst i) (snd i)) /\
  as_arguments shipped_says =
    ["--experiment_name=experiment"; "--list_velocity_files=path/to/file.txt"; "--list_coordinate_files=path/to/file.txt";
     "--list_particle_files=path/to/file.txt"; "--snapshot_timestep=0.1"; "--flow_map_period=5"; "--integrator=rk4"; "--interpolator=cubic";
     "--num_processes=8"; "--output_format=vtk"; "--flow_grid_shape=128, 128 , 256"; "--particles_grid_shape=128, 128, 256"].
Proof.
  split; [exact shipped_said|]. split; [exact shipped_written|]. split; [apply by_letter; [reflexivity|intros t; discriminate]|].
  split; [exact @shipped_suits|reflexivity].
Qed.
