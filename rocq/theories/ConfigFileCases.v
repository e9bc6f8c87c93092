(** The configuration files of the repository and of the notebook, and what becomes of some YAML. *)
From Coq Require Import Lia.
From Verif Require Import Base Text FileUtils Hyper SpecText Manager FileUtilsFacts SpecConfigFile ConfigFile ConfigFileFacts.
Open Scope string_scope.

(** A test for values that can be written as they are. *)
Fixpoint mark_free (before : bool) (s : string) : bool :=
  match s with EmptyString => true | String c s' => (negb (before && is_mark c) && mark_free (is_space c) s')%bool end.
Definition bare (v : string) : bool :=
  (every (fun c => negb (Ascii.eqb c newline || Ascii.eqb c carriage)) v &&
   match v with String c _ => negb (is_space c || is_quotation c || is_mark c) | _ => false end &&
   match rev (list_ascii_of_string v) with c :: _ => negb (is_space c) | [] => false end && mark_free false v && negb (bracketed v))%bool.

Lemma every_occurs f s : every f s = true -> forall c, occurs c s -> f c = true.
Proof.
  induction s as [|x s IH]; cbn; intros E d Hd; [destruct (occurs_nil _ Hd)|]. apply andb_prop in E as [E1 E2]. apply occurs_cons in Hd as [->|Hd]; auto.
Qed.
Lemma mark_free_spec s : forall before, mark_free before s = true -> no_mark s.
Proof.
  induction s as [|x s IH]; intros before H a b c d E Sb; [destruct a; discriminate|]. cbn in H. apply andb_prop in H as [_ H].
  destruct a as [|y a]; cbn in E.
  - injection E as -> ->. cbn in H. rewrite Sb in H. cbn in H. apply andb_prop in H as [H _]. intros [<-|[<-|[]]]; discriminate.
  - injection E as _ E. exact (IH _ H a b c d E Sb).
Qed.
Lemma in_bracketed v : in_brackets v -> bracketed v = true.
Proof. intros [t ->]. apply bracketed_in. Qed.
Lemma not_bracketed v : bracketed v = false -> ~ in_brackets v.
Proof. intros H X. rewrite (in_bracketed v X) in H. discriminate. Qed.
Lemma string_snoc l : forall c, string_of_list_ascii (l ++ [c])%list = string_of_list_ascii l ++ String c "".
Proof. induction l as [|x l IH]; intro c; [reflexivity|]. cbn. f_equal. apply IH. Qed.
Lemma bare_spec v : bare v = true -> bare_value v.
Proof.
  unfold bare. intro H. apply andb_prop in H as [H H5]. apply andb_prop in H as [H H4]. apply andb_prop in H as [H H3]. apply andb_prop in H as [H1 H2].
  pose proof (every_occurs _ _ H1) as L. repeat split.
  - intro X. specialize (L _ X). discriminate.
  - intro X. specialize (L _ X). discriminate.
  - destruct v as [|c t]; [discriminate|]. exists c, t. split; [reflexivity|].
    repeat match goal with X : negb (_ || _ || _) = true |- _ => apply Bool.negb_true_iff in X; apply Bool.orb_false_iff in X as [X ?]; apply Bool.orb_false_iff in X as [X ?] end.
    split; [assumption|]. intro X. cbn in X. intuition (subst; discriminate).
  - destruct (rev (list_ascii_of_string v)) as [|c l] eqn:E; [discriminate|]. exists (string_of_list_ascii (rev l)), c.
    split; [|apply Bool.negb_true_iff; assumption]. rewrite <- string_snoc. change (rev l ++ [c])%list with (rev (c :: l)).
    rewrite <- E, rev_involutive, string_of_list_ascii_of_string. reflexivity.
  - exact (mark_free_spec v false H4).
  - intro X. rewrite (in_bracketed v X) in H5. discriminate.
Qed.
Lemma one_line_test s : every (fun c => negb (Ascii.eqb c newline || Ascii.eqb c carriage)) s = true -> one_line s.
Proof. intro H. pose proof (every_occurs _ _ H) as L. split; intro X; specialize (L _ X); discriminate. Qed.
Lemma blanks_test s : every (fun c => Ascii.eqb c " " || Ascii.eqb c tab) s = true -> blanks s.
Proof. intros H c Hc. pose proof (every_occurs _ _ H c Hc) as L. apply Bool.orb_true_iff in L as [L|L]; apply Ascii.eqb_eq in L; auto. Qed.
Lemma absent_test c s : every (fun x => negb (Ascii.eqb x c)) s = true -> ~ occurs c s.
Proof. intros H X. pose proof (every_occurs _ _ H c X) as L. cbn in L. rewrite Ascii.eqb_refl in L. discriminate. Qed.
Lemma remark_comment b t : blanks b -> one_line t -> remark (b ++ " #" ++ t).
Proof. intros Hb Ht. exact (a_remark b " " t Hb (or_introl eq_refl) Ht). Qed.

(** config.yaml of the repository, with its last, empty line. *)
Definition shipped : list string := [
  "experiment_name: ""experiment""";
  "list_velocity_files: ""path/to/file.txt""";
  "list_coordinate_files: ""path/to/file.txt""";
  "list_particle_files: ""path/to/file.txt""";
  "snapshot_timestep: 0.1";
  "flow_map_period: 5";
  "integrator: rk4";
  "interpolator: cubic";
  "num_processes: 8";
  "output_format: ""vtk""";
  "flow_grid_shape: 128, 128 , 256  # comment this line for unstructured data";
  "particles_grid_shape: 128, 128, 256  # comment this line for unstructured data";
  ""].
Definition shipped_says : list (option (string * string)) := [
  Some ("experiment_name", "experiment"); Some ("list_velocity_files", "path/to/file.txt");
  Some ("list_coordinate_files", "path/to/file.txt"); Some ("list_particle_files", "path/to/file.txt");
  Some ("snapshot_timestep", "0.1"); Some ("flow_map_period", "5"); Some ("integrator", "rk4"); Some ("interpolator", "cubic");
  Some ("num_processes", "8"); Some ("output_format", "vtk"); Some ("flow_grid_shape", "128, 128 , 256");
  Some ("particles_grid_shape", "128, 128, 256"); None].

Ltac bare_line name v r :=
  apply (says_bare "" name "" ":" " " v r);
  [apply blanks_test; reflexivity|cbn; tauto|apply blanks_test; reflexivity|cbn; tauto|apply blanks_test; reflexivity|apply bare_spec; reflexivity
  |first [apply no_remark; apply blanks_test; reflexivity
         |apply (remark_comment " " " comment this line for unstructured data"); [apply blanks_test|apply one_line_test]; reflexivity]].
Ltac quoted_line name v :=
  apply (says_quoted "" name "" ":" " " """" v "");
  [apply blanks_test; reflexivity|cbn; tauto|apply blanks_test; reflexivity|cbn; tauto|apply blanks_test; reflexivity|cbn; tauto
  |apply one_line_test; reflexivity|discriminate|apply absent_test; reflexivity|apply not_bracketed; reflexivity
  |apply no_remark; apply blanks_test; reflexivity].

Lemma shipped_said : Forall2 says shipped shipped_says.
Proof.
  unfold shipped, shipped_says. repeat apply Forall2_cons; [..|apply Forall2_nil];
  first [apply says_nothing, blanks_test; reflexivity
        |match goal with |- says _ (Some (?n, ?v)) =>
           first [quoted_line n v|bare_line n v ""|bare_line n v "  # comment this line for unstructured data"] end].
Qed.

Definition text_of (lines : list string) : string := String.concat (String newline "") lines.
Lemma shipped_written : written shipped (text_of shipped).
Proof.
  assert (W : forall lines, written lines (text_of lines)).
  { unfold text_of. induction lines as [|l [|m lines] IH]; [apply written_empty|apply written_last|].
    change (String.concat (String newline "") (l :: m :: lines)) with (l ++ String newline "" ++ String.concat (String newline "") (m :: lines)).
    apply written_line; [left; reflexivity|exact IH]. }
  apply W.
Qed.

Definition no_options : command_line := CommandLine None None None None None None None None None None None None.
(** --interpolator grid on the command line. *)
Definition grid_option : command_line := CommandLine None None None None None None None (Some "grid") None None None None.
Definition only (path text : string) : string -> option string := fun p => if String.eqb p path then Some text else None.

Lemma shipped_options : with_config (only "config.yaml" (text_of shipped)) (Some "config.yaml") grid_option =
  Ok (CommandLine (Some "experiment") (Some "path/to/file.txt") (Some "path/to/file.txt") (Some "path/to/file.txt") (Some "0.1") (Some "5")
        (Some "rk4") (Some "grid") (Some "8") (Some "vtk") (Some "128, 128 , 256") (Some "128, 128, 256")).
Proof. reflexivity. Qed.

(** A semicolon. *)
Definition semicolon_line : string := "experiment_name: low ; high".
Lemma semicolon_yaml : yaml_scalar semicolon_line "experiment_name" "low ; high".
Proof.
  split; [reflexivity|]. split; [apply one_line_test; reflexivity|]. split; [exists "l"%char, "ow ; high"; split; [reflexivity|unfold letter; cbn; lia]|].
  split; [exists "low ; hig", "h"%char; split; reflexivity|]. split; apply absent_test; reflexivity.
Qed.
Theorem semicolon_cut : exists line v, yaml_scalar line "experiment_name" v /\
  forall texts path c, path <> "" -> texts path = Some line -> c_experiment_name c = None ->
    exists c', with_config texts (Some path) c = Ok c' /\ c_experiment_name c' <> Some v.
Proof.
  exists semicolon_line, "low ; high". split; [exact semicolon_yaml|]. intros texts path c P T N. destruct path as [|x path]; [congruence|]. cbn [with_config].
  rewrite T. change (parse_config semicolon_line) with (Ok [("experiment_name", Word "low")]). cbn [bind add_items].
  change (option_name "experiment_name") with "experiment_name". change (get_option "experiment_name" c) with (Some (c_experiment_name c)).
  rewrite N. eexists. split; [reflexivity|]. cbn. discriminate.
Qed.

Lemma sequence_case : yaml_sequence "flow_grid_shape: [128, 128]" "flow_grid_shape" ["128"; "128"].
Proof.
  split; [reflexivity|]. split; [discriminate|]. intros s [<-|[<-|[]]]; (split; [discriminate|]; apply every_occurs; reflexivity).
Qed.

Lemma misspelt_case : misspelt "interpolation: grid".
Proof.
  exists "", "interpolation", " grid". split; [reflexivity|]. split; [apply blanks_test; reflexivity|]. split; [apply one_line_test; reflexivity|]. split; [discriminate|]. split.
  - intros c Hc. assert (X : every (fun c => negb (is_space c) && negb (existsb (Ascii.eqb c) ["#"; ";"; ":"; "="; "["; "-"]%char))%bool "interpolation" = true) by reflexivity.
    apply (every_occurs _ _ X) in Hc. apply andb_prop in Hc as [H1 H2]. apply Bool.negb_true_iff in H1, H2. split; [exact H1|]. intro I.
    assert (existsb (Ascii.eqb c) ["#"; ";"; ":"; "="; "["; "-"]%char = true) by (apply existsb_exists; exists c; split; [exact I|apply Ascii.eqb_refl]). congruence.
  - intros name H. cbn in H. repeat (destruct H as [<-|H]; [reflexivity|]). destruct H.
Qed.
