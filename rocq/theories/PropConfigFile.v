(** Properties C134, C135 and C136: the configuration file. *)
From Verif Require Import Base Num Manager Jobs Program SpecConfigFile ConfigFile ConfigFileFacts ConfigFileCases.
Open Scope string_scope.

(** C134: with a configuration file whose lines are understood ([says]) the program does what it would do if the options were all given on
    the command line; what is given on the command line counts more than the file, and in the file the last line about an option counts. *)
Theorem C134_program : forall T (O : ops T) scp parse_float imems mems eigvals texts inputs path lines said text c fs,
  Forall2 says lines said -> written lines text -> path <> "" -> texts path = Some text ->
  forall out fs', configured_ends O scp parse_float imems mems eigvals texts inputs (Some path) c fs out fs' <->
                  main_ends O scp parse_float imems mems eigvals texts inputs (merged c said) fs out fs'.
Proof. exact @config_program. Qed.
Print Assumptions C134_program.

(** The config.yaml of the repository has such lines, and with --interpolator grid on the command line gives these options. *)
Example C134_case : Forall2 says shipped shipped_says /\ written shipped (text_of shipped) /\
  merged grid_option shipped_says =
    CommandLine (Some "experiment") (Some "path/to/file.txt") (Some "path/to/file.txt") (Some "path/to/file.txt") (Some "0.1") (Some "5")
      (Some "rk4") (Some "grid") (Some "8") (Some "vtk") (Some "128, 128 , 256") (Some "128, 128, 256") /\
  with_config (only "config.yaml" (text_of shipped)) (Some "config.yaml") grid_option = Ok (merged grid_option shipped_says).
Proof. exact (conj shipped_said (conj shipped_written (conj eq_refl shipped_options))). Qed.

(** C135: the file is not read as YAML, although the help says so.  A plain scalar may be cut at a semicolon: *)
Theorem C135_scalar_refuted : exists line v, yaml_scalar line "experiment_name" v /\
  forall texts path c, path <> "" -> texts path = Some line -> c_experiment_name c = None ->
    exists c', with_config texts (Some path) c = Ok c' /\ c_experiment_name c' <> Some v.
Proof. exact semicolon_cut. Qed.
Print Assumptions C135_scalar_refuted.

(** A shape written as a YAML sequence ends the program, whatever lines come before it. *)
Theorem C135_sequence_refuted : forall T (O : ops T) scp parse_float imems mems eigvals texts inputs path lines line name items text c fs,
  (forall l, In l lines -> one_line l) -> yaml_sequence line name items ->
  name = "flow_grid_shape" /\ c_flow_grid_shape c = None \/ name = "particles_grid_shape" /\ c_particles_grid_shape c = None ->
  written (lines ++ [line]) text -> path <> "" -> texts path = Some text ->
  forall out fs', configured_ends O scp parse_float imems mems eigvals texts inputs (Some path) c fs out fs' <-> out = (false, Err SystemExit) /\ fs' = fs.
Proof. exact @sequence_program. Qed.
Print Assumptions C135_sequence_refuted.

Example C135_sequence_case : yaml_sequence "flow_grid_shape: [128, 128]" "flow_grid_shape" ["128"; "128"].
Proof. exact sequence_case. Qed.

(** Plain scalars that begin with a letter and have no semicolon after a blank are read as in YAML. *)
Theorem C135_scalar_partial : forall line name v, yaml_scalar line name v -> In name option_names ->
  (forall a b d, v = a ++ String b (String ";" d) -> Hyper.is_space b = false) -> says line (Some (name, v)).
Proof. exact yaml_scalar_said. Qed.
Print Assumptions C135_scalar_partial.

(** C136: a line about something that is neither an option nor an abbreviation of one is not passed over: the program ends with
    SystemExit before it touches a file.  So it does if the configuration file cannot be read. *)
Theorem C136_misspelt : forall T (O : ops T) scp parse_float imems mems eigvals texts inputs path lines line text c fs,
  (forall l, In l lines -> one_line l) -> In line lines -> misspelt line -> written lines text -> path <> "" -> texts path = Some text ->
  forall out fs', configured_ends O scp parse_float imems mems eigvals texts inputs (Some path) c fs out fs' <-> out = (false, Err SystemExit) /\ fs' = fs.
Proof. exact @misspelt_program. Qed.
Print Assumptions C136_misspelt.

Theorem C136_missing : forall T (O : ops T) scp parse_float imems mems eigvals texts inputs path c fs,
  path <> "" -> texts path = None ->
  forall out fs', configured_ends O scp parse_float imems mems eigvals texts inputs (Some path) c fs out fs' <-> out = (false, Err SystemExit) /\ fs' = fs.
Proof. exact @missing_program. Qed.
Print Assumptions C136_missing.

Example C136_case : misspelt "interpolation: grid".
Proof. exact misspelt_case. Qed.
