(** The run of examples/02_File-based_IO.ipynb: C83. *)
From Coq Require Import Permutation Lia Floats.
From Verif Require Import Base Num NdArray Text Particles Jacobian Ftle Integrate Interpolate Readers DataSource Solver FileRun Writers Batches FileUtils
  Hyper Manager Monitor Executor ManagerRun Jobs Decorators Program ConfigFile Args NotebookFiles
  SpecText SpecConfig SpecCommand SpecExecutor SpecProgram SpecGridProgram SpecConfigFile SpecArgs SpecNotebookRun
  HyperFacts FileUtilsFacts CommandFacts ConfigFileFacts ArgsFacts ArgsMain ArgsConfig ConfigFileCases NotebookFilesFacts CountCases.
Open Scope string_scope.

Definition notebook_says : list (option (string * string)) := [
  Some ("experiment_name", "example_file-based_IO"); Some ("list_velocity_files", "examples/velocity_filenames.txt");
  Some ("list_coordinate_files", "examples/coordinate_filenames.txt"); Some ("list_particle_files", "examples/particle_filenames.txt");
  Some ("snapshot_timestep", "0.001"); Some ("flow_map_period", "0.5"); Some ("integrator", "rk4"); Some ("interpolator", "grid");
  Some ("num_processes", "4"); Some ("output_format", "vtk"); Some ("flow_grid_shape", "100, 50"); Some ("particles_grid_shape", "100, 50")].

Ltac tested := first [apply blanks_test; reflexivity|apply one_line_test; reflexivity|apply absent_test; reflexivity|apply not_bracketed; reflexivity|apply bare_spec; reflexivity|discriminate|cbn; tauto].
Lemma notebook_said : Forall2 says notebook_config notebook_says.
Proof.
  unfold notebook_config, notebook_says. repeat apply Forall2_cons; [..|apply Forall2_nil].
  - apply (says_quoted "" "experiment_name" "" ":" " " """" "example_file-based_IO" ""); try tested. apply no_remark; tested.
  - apply (says_quoted "" "list_velocity_files" "" ":" " " """" "examples/velocity_filenames.txt" "  # assuming you run pyftle from project rootdir"); try tested.
    apply (remark_comment " " " assuming you run pyftle from project rootdir"); tested.
  - apply (says_quoted "" "list_coordinate_files" "" ":" " " """" "examples/coordinate_filenames.txt" "  # assuming you run pyftle from project rootdir"); try tested.
    apply (remark_comment " " " assuming you run pyftle from project rootdir"); tested.
  - apply (says_quoted "" "list_particle_files" "" ":" " " """" "examples/particle_filenames.txt" "  # assuming you run pyftle from project rootdir"); try tested.
    apply (remark_comment " " " assuming you run pyftle from project rootdir"); tested.
  - apply (says_bare "" "snapshot_timestep" "" ":" " " "0.001" "  # must match your snapshot timestep"); try tested.
    apply (remark_comment " " " must match your snapshot timestep"); tested.
  - apply (says_bare "" "flow_map_period" "" ":" " " "0.5" ""); try tested. apply no_remark; tested.
  - apply (says_bare "" "integrator" "" ":" " " "rk4" ""); try tested. apply no_remark; tested.
  - apply (says_bare "" "interpolator" "" ":" " " "grid" ""); try tested. apply no_remark; tested.
  - apply (says_bare "" "num_processes" "" ":" " " "4" ""); try tested. apply no_remark; tested.
  - apply (says_quoted "" "output_format" "" ":" " " """" "vtk" ""); try tested. apply no_remark; tested.
  - apply (says_bare "" "flow_grid_shape" "" ":" " " "100, 50" "  # comment this line for unstructured data"); try tested.
    apply (remark_comment " " " comment this line for unstructured data"); tested.
  - apply (says_bare "" "particles_grid_shape" "" ":" " " "100, 50" "  # comment this line for unstructured data"); try tested.
    apply (remark_comment " " " comment this line for unstructured data"); tested.
Qed.

(** One file besides the velocity files. *)
Lemma one_found pattern c0 directory entries n : prefix pattern c0 = true -> ends_with ".mat" c0 = true -> 
  (forall s, prefix pattern (append "velocity" s) = false) ->
  forall a b, Permutation entries (map (velocity_name 4) (seq 1 n) ++ a ++ [c0] ++ b)%list ->
  (forall f, In f (a ++ b)%list -> prefix pattern f = false) ->
  generate_list pattern directory entries = list_text [join directory c0].
Proof.
  intros H1 H2 H3 a b P O. unfold generate_list.
  assert (Q : Permutation [c0] (filter (fun f => prefix pattern f && ends_with ".mat" f) entries)).
  { apply Permutation_sym. apply (filter_perm (fun f => prefix pattern f && ends_with ".mat" f)) in P. rewrite P, !filter_app.
    rewrite (filter_none _ (map (velocity_name 4) (seq 1 n))), (filter_none _ a), (filter_none _ b).
    - cbn. rewrite H1, H2. reflexivity.
    - intros f Hf. rewrite O; [reflexivity|apply in_or_app; right; exact Hf].
    - intros f Hf. rewrite O; [reflexivity|apply in_or_app; left; exact Hf].
    - intros f Hf. apply in_map_iff in Hf as (i & <- & _). unfold velocity_name. rewrite H3. reflexivity. }
  apply Permutation_length_1_inv in Q. rewrite Q. reflexivity.
Qed.
Lemma one_plain directory c0 : In c0 ["coordinates.mat"; "particles.mat"] ->
  ~ occurs "," directory -> ~ occurs "010" directory -> ~ occurs "013" directory -> (forall q, directory <> String """" q) ->
  get_files_list (Some (list_text [join directory c0])) = Ok (map Some [join directory c0]).
Proof.
  intros Hc H1 H2 H3 H4. apply round_trip_iff. split; [discriminate|]. intros p [<-|[]]. unfold join.
  assert (G : forall c, ~ occurs c directory -> In c [","; "010"; "013"]%char -> ~ occurs c (append directory (append "/" c0))).
  { intros c Hn Hi C. apply occurs_app in C as [C|C]; [tauto|]. apply occurs_app in C as [C|C].
    - apply occurs_cons in C as [C|C]; [cbn in Hi; destruct Hi as [<-|[<-|[<-|[]]]]; discriminate|destruct (occurs_nil _ C)].
    - cbn in Hi, Hc. destruct Hc as [<-|[<-|[]]]; destruct Hi as [<-|[<-|[<-|[]]]]; (repeat (apply occurs_cons in C as [C|C]; [discriminate|])); destruct (occurs_nil _ C). }
  repeat split.
  - apply G; cbn; tauto.
  - apply G; cbn; tauto.
  - apply G; cbn; tauto.
  - intros q E. destruct directory as [|x d]; [discriminate|]. injection E as -> _. apply (H4 d). reflexivity.
  - exists "m"%char. split; [|split; discriminate]. apply occurs_app. right. cbn in Hc. destruct Hc as [<-|[<-|[]]].
    + exists "/coordinates.", "at". reflexivity.
    + exists "/particles.", "at". reflexivity.
  - intro I. assert (L : 14 <= String.length (append directory (append "/" c0))).
    { rewrite !append_length. cbn in Hc. destruct Hc as [<-|[<-|[]]]; cbn; lia. }
    cbn [In] in I. repeat (destruct I as [I|I]; [rewrite <- I in L; cbn in L; lia|]). exact I.
Qed.

Lemma notebook_window lnF : window_length (Fops lnF) 0.5%float 0.001%float = Ok 501%Z.
Proof. vm_compute. reflexivity. Qed.

Theorem notebook_ends lnF scp parse_float imems mems eigvals texts inputs text n directory entries fs :
  parse_float "0.001" = Ok 0.001%float -> parse_float "0.5" = Ok 0.5%float ->
  written notebook_config text -> texts "config.yaml" = Some text ->
  (501 <= Z.of_nat n < 10000)%Z -> Permutation entries (map (velocity_name 4) (seq 1 n) ++ ["coordinates.mat"; "particles.mat"])%list ->
  ~ occurs "," directory -> ~ occurs "010" directory -> ~ occurs "013" directory -> (forall q, directory <> String """" q) ->
  texts "examples/velocity_filenames.txt" = Some (generate_list "velocity" directory entries) ->
  texts "examples/coordinate_filenames.txt" = Some (generate_list "coordinates" directory entries) ->
  texts "examples/particle_filenames.txt" = Some (generate_list "particles" directory entries) ->
  settled_files fs ->
  (exists b r fs', argv_ends (Fops lnF) scp parse_float imems mems eigvals texts inputs ["-c"; "config.yaml"] fs (b, r) fs') /\
  forall b r fs', argv_ends (Fops lnF) scp parse_float imems mems eigvals texts inputs ["-c"; "config.yaml"] fs (b, r) fs' ->
    (b, r) <> (false, Ok tt) /\ forall q, fs' q = fs q.
Proof.
  intros P1 P5 W E N P D1 D2 D3 D4 Tv Tc Tp S.
  set (c := merged (options_of []) notebook_says).
  assert (A : forall out fs', argv_ends (Fops lnF) scp parse_float imems mems eigvals texts inputs ["-c"; "config.yaml"] fs out fs' <->
    main_ends (Fops lnF) scp parse_float imems mems eigvals texts inputs c fs out fs').
  { intros out fs'. change ["-c"; "config.yaml"] with (concat [["-c"; "config.yaml"]]).
    rewrite (options_read (Fops lnF) scp parse_float imems mems eigvals texts inputs [("config", "config.yaml")] [["-c"; "config.yaml"]]).
    - change (last_given "config" [("config", "config.yaml")]) with (Some "config.yaml"). change (options_of [("config", "config.yaml")]) with (options_of []).
      apply (config_program (Fops lnF) scp parse_float imems mems eigvals texts inputs "config.yaml" notebook_config notebook_says text); [exact notebook_said|exact W|discriminate|exact E].
    - constructor; [|constructor]. apply by_letter; [reflexivity|]. intros t. discriminate.
    - intros i [<-|[]]. left. reflexivity.
    - left. constructor; [intros []|constructor]. }
  set (a := ProgramArgs "example_file-based_IO" "examples/velocity_filenames.txt" "examples/coordinate_filenames.txt" "examples/particle_filenames.txt"
    0.001%float 0.5%float (Some "rk4") (Some "grid") 4 (Some "vtk") (Some [100; 50]%Z) (Some [100; 50]%Z)).
  assert (Ha : parse_args parse_float c = Ok a).
  { unfold parse_args, c. cbn [merged notebook_says options_of last_given last_said c_experiment_name c_list_velocity_files c_list_coordinate_files c_list_particle_files
      c_snapshot_timestep c_flow_map_period c_integrator c_interpolator c_num_processes c_output_format c_flow_grid_shape c_particles_grid_shape String.eqb Ascii.eqb Bool.eqb required bind].
    unfold typed. rewrite P1, P5. reflexivity. }
  assert (L : (exists b r fs', main_ends (Fops lnF) scp parse_float imems mems eigvals texts inputs c fs (b, r) fs') /\
    forall b r fs', main_ends (Fops lnF) scp parse_float imems mems eigvals texts inputs c fs (b, r) fs' -> (b, r) <> (false, Ok tt) /\ forall q, fs' q = fs q).
  { apply (static_ends (Fops lnF) scp parse_float imems mems eigvals texts inputs c a (paths 4 directory n) (join directory "coordinates.mat")
      [join directory "particles.mat"] (Z.to_nat 501) fs Ha eq_refl).
    - unfold listed. cbn [a list_velocity_files]. rewrite Tv. apply (notebook_read 4 n directory entries ["coordinates.mat"; "particles.mat"]); try assumption; [lia| |].
      + apply Nat2Z.inj_lt. rewrite Nat2Z.inj_pow. cbn. lia.
      + intros f Hf [(s & Hs) _]. destruct Hf as [<-|[<-|[]]]; discriminate.
    - unfold listed. cbn [a list_coordinate_files]. rewrite Tc. rewrite (one_found "coordinates" "coordinates.mat" directory entries n eq_refl eq_refl (fun s => eq_refl) [] ["particles.mat"] P).
      + apply one_plain; try assumption. left. reflexivity.
      + intros f [<-|[]]. reflexivity.
    - unfold listed. cbn [a list_particle_files]. rewrite Tp. rewrite (one_found "particles" "particles.mat" directory entries n eq_refl eq_refl (fun s => eq_refl) ["coordinates.mat"] [] P).
      + apply one_plain; try assumption. right. left. reflexivity.
      + intros f [<-|[]]. reflexivity.
    - cbn [a flow_map_period Manager.snapshot_timestep]. rewrite notebook_window. reflexivity.
    - unfold paths. rewrite map_length, seq_length. lia.
    - discriminate.
    - exact S. }
  destruct L as [(b & r & fs' & L1) L2]. split.
  - exists b, r, fs'. apply A. exact L1.
  - intros b' r' fs'' H. apply A in H. apply (L2 _ _ _ H).
Qed.

Lemma text_written lines : written lines (text_of lines).
Proof.
  unfold text_of. induction lines as [|l [|m lines] IH]; [apply written_empty|apply written_last|].
  change (String.concat (String newline "") (l :: m :: lines)) with (l ++ String newline "" ++ String.concat (String newline "") (m :: lines)).
  apply written_line; [left; reflexivity|exact IH].
Qed.
