(** Lemmas for C141-C144. *)
From Coq Require Import Permutation.
From Verif Require Import Base Num NdArray Text Hyper FileUtils Interpolate Readers DataSource Manager Jobs Program ConfigFile Args
  SpecText SpecConfig SpecCommand SpecConfigFile SpecArgs HyperFacts CommandFacts ConfigFileFacts.
Open Scope string_scope.

Definition act (name : string) : action := if String.eqb name "config" then Config else Named name.

(** Strings. *)
Lemma string_in c t : occurs c (String c t).
Proof. exists "", t. reflexivity. Qed.
Lemma occurs_tail c d t : occurs c t -> occurs c (String d t).
Proof. intros (a & b & ->). exists (String d a), b. reflexivity. Qed.

Lemma partition_none s : ~ occurs "=" s -> partition_eq s = (s, None).
Proof.
  induction s as [|c s IH]; intro N; [reflexivity|]. cbn. destruct (Ascii.eqb_spec c "="); [subst; destruct N; apply string_in|].
  rewrite IH by (intro H; apply N, occurs_tail, H). reflexivity.
Qed.
Lemma partition_some p v : ~ occurs "=" p -> partition_eq (p ++ String "=" v) = (p, Some v).
Proof.
  induction p as [|c s IH]; intro N; [reflexivity|]. cbn. destruct (Ascii.eqb_spec c "="); [subst; destruct N; apply string_in|].
  rewrite IH by (intro H; apply N, occurs_tail, H). reflexivity.
Qed.
Lemma partition_inv s : match snd (partition_eq s) with None => fst (partition_eq s) = s | Some v => s = fst (partition_eq s) ++ String "=" v end.
Proof.
  induction s as [|c s IH]; [reflexivity|]. cbn. destruct (Ascii.eqb_spec c "="); [subst; reflexivity|]. cbn.
  destruct (snd (partition_eq s)); cbn; [rewrite IH at 1; reflexivity|rewrite IH; reflexivity].
Qed.

Lemma names_no_equals name : In name all_names -> ~ occurs "=" ("--" ++ name).
Proof.
  intros H (a & b & E). unfold all_names, option_names in H. cbn in H.
  repeat (destruct H as [<-|H]; [cbn in E; repeat (destruct a as [|? a]; cbn in E; [discriminate|injection E as _ E]); destruct a; discriminate|]). destruct H.
Qed.
Lemma action_name name : In name all_names -> action_of ("--" ++ name) = Some (act name).
Proof. intro H. unfold all_names, option_names in H. cbn in H. repeat (destruct H as [<-|H]; [reflexivity|]). destruct H. Qed.

Lemma classify_apart name : In name all_names -> classify ("--" ++ name) = Option (act name) None.
Proof.
  intro H. unfold all_names, option_names in H. cbn in H. repeat (destruct H as [<-|H]; [reflexivity|]). destruct H.
Qed.
Lemma action_no_equals o : In o option_strings -> ~ occurs "=" (fst o).
Proof.
  intros H (a & b & E). cbn in H.
  repeat (destruct H as [<-|H]; [cbn in E; repeat (destruct a as [|? a]; cbn in E; [discriminate|injection E as _ E]); destruct a; discriminate|]). destruct H.
Qed.
Lemma action_of_in s a : action_of s = Some a -> In (s, a) option_strings.
Proof.
  unfold action_of. destruct (find _ _) as [o|] eqn:E; [|discriminate]. intros [= <-]. apply find_some in E. destruct E as [I E]. apply String.eqb_eq in E. subst s. destruct o; exact I.
Qed.
Lemma classify_joined name v : In name all_names -> classify ("--" ++ name ++ "=" ++ v) = Option (act name) (Some v).
Proof.
  intro H. set (s := "--" ++ name ++ "=" ++ v).
  assert (P : partition_eq s = ("--" ++ name, Some v)).
  { unfold s. replace ("--" ++ name ++ "=" ++ v) with (("--" ++ name) ++ String "=" v) by (rewrite sapp_assoc; reflexivity). apply partition_some, names_no_equals, H. }
  assert (A : action_of s = None).
  { destruct (action_of s) as [a|] eqn:E; [|reflexivity]. apply action_of_in in E. apply action_no_equals in E. destruct E. cbn.
    exists ("--" ++ name), v. unfold s. rewrite sapp_assoc. reflexivity. }
  unfold classify. rewrite P, A, (action_name _ H). unfold s. cbn. destruct name; [|reflexivity]. unfold all_names, option_names in H. cbn in H. intuition discriminate.
Qed.

Lemma digits_end_all s b : (forall c, occurs c s -> is_digit c = true) -> b = true \/ s <> "" -> digits_end b s = true.
Proof.
  revert b. induction s as [|c s IH]; intros b H N; cbn; [destruct N; [assumption|contradiction]|].
  rewrite (H c (string_in c s)). apply IH; [intros d Hd; apply H, occurs_tail, Hd|left; reflexivity].
Qed.
Lemma fraction_all a b : (forall c, occurs c a -> is_digit c = true) -> digits b -> fraction_end (a ++ "." ++ b) = true.
Proof.
  intros Ha [Nb Hb]. induction a as [|c a IH]; cbn; [apply digits_end_all; auto|].
  rewrite (Ha c (string_in c a)). apply IH. intros d Hd. apply Ha, occurs_tail, Hd.
Qed.

Lemma prefix_eq a s t : prefix (String a s) (String a t) = prefix s t.
Proof. cbn [prefix]. destruct (ascii_dec a a); [reflexivity|contradiction]. Qed.
Lemma prefix_ne a b s t : a <> b -> prefix (String a s) (String b t) = false.
Proof. intro N. cbn [prefix]. destruct (ascii_dec a b); [contradiction|reflexivity]. Qed.

(** Arguments that begin with a dash and then a digit or a point are no options. *)
Definition numeric (d : ascii) : bool := (is_digit d || Ascii.eqb d ".")%bool.
Lemma numeric_no_option d t : numeric d = true -> classify (String "-" (String d t)) =
  if negative_number (String "-" (String d t)) then Value else if has_space (String "-" (String d t)) then Value else NoOption.
Proof.
  intro N.
  assert (A : forall s, action_of (String "-" (String d s)) = None).
  { intro s. destruct (action_of _) as [a|] eqn:E; [|reflexivity]. apply action_of_in in E. cbn in E.
    repeat (destruct E as [E|E]; [injection E as <- _; discriminate N|]). destruct E. }
  assert (B : option_tuples (String "-" (String d t)) = []).
  { unfold option_tuples. replace (prefix "--" (String "-" (String d t))) with false.
    2:{ symmetry. rewrite prefix_eq. apply prefix_ne. intros <-. discriminate N. }
    replace (substring 0 2 (String "-" (String d t))) with (String "-" (String d "")) by (destruct t; reflexivity).
    assert (H : forall o, In o option_strings -> String.eqb (fst o) (String "-" (String d "")) = false /\ prefix (String "-" (String d t)) (fst o) = false).
    { intros o Ho. cbn in Ho. repeat (destruct Ho as [<-|Ho]; [split;
        [apply String.eqb_neq; intros [= E]; subst d; discriminate N|cbn [fst append]; rewrite prefix_eq; apply prefix_ne; intros ->; discriminate N]|]). destruct Ho. }
    induction option_strings as [|o l IH]; [reflexivity|]. cbn [flat_map]. destruct (H o (or_introl eq_refl)) as [-> ->]. cbn [app]. apply IH. intros o' Ho'. apply H. right. exact Ho'. }
  unfold classify. rewrite A, B. cbn [negb Ascii.eqb].
  replace (String.eqb (String "-" (String d t)) "--") with false.
  2:{ symmetry. apply String.eqb_neq. intros [= -> _]. discriminate N. }
  change (negb (Ascii.eqb "-" "-")) with false. cbv iota.
  assert (P : exists u, fst (partition_eq (String "-" (String d t))) = String "-" (String d u)).
  { cbn. destruct (Ascii.eqb_spec d "="); [subst; discriminate N|]. cbn. eexists. reflexivity. }
  destruct P as (u & P). destruct (partition_eq (String "-" (String d t))) as [p [v|]]; cbn in P; subst p; [rewrite A|]; reflexivity.
Qed.

Lemma classify_value v : undashed v \/ negative_decimal v -> classify v = Value.
Proof.
  intros [U|D].
  - destruct v as [|c v]; [reflexivity|]. unfold classify. destruct (Ascii.eqb_spec c "-"); [subst; destruct (U v eq_refl)|reflexivity].
  - assert (N : negative_number v = true /\ exists d t, v = String "-" (String d t) /\ numeric d = true).
    { destruct D as [a [Na Ha]|a b Ha Hb].
      - split; [cbn; rewrite (digits_end_all a false Ha (or_intror Na)); reflexivity|]. destruct a as [|d t]; [contradiction|]. exists d, t. split; [reflexivity|]. unfold numeric. rewrite (Ha d (string_in d t)). reflexivity.
      - assert (Ha' : forall c, occurs c a -> is_digit c = true) by (destruct Ha as [->|[_ Ha]]; [intros c (x & y & E); destruct x; discriminate|exact Ha]).
        split; [change (negative_number ("-" ++ a ++ "." ++ b)) with ((digits_end false (a ++ "." ++ b) || fraction_end (a ++ "." ++ b))%bool);
          rewrite (fraction_all a b Ha' Hb); apply Bool.orb_true_r|]. destruct a as [|d t]; [exists "."%char, b; split; reflexivity|].
        exists d, (t ++ "." ++ b). split; [reflexivity|]. unfold numeric. rewrite (Ha' d (string_in d t)). reflexivity. }
    destruct N as (N & d & t & -> & Nd). rewrite numeric_no_option, N by exact Nd. reflexivity.
Qed.

(** Conversions. *)
Section Reading.
  Context {T : Type} (parse_float : string -> res T).
  Local Notation converts := (converts parse_float).
  Local Notation suits := (suits parse_float).

  Lemma is_ok {A} (r : res A) : (match r with Ok _ => true | Err _ => false end) = true <-> exists x, r = Ok x.
  Proof. destruct r; split; intro H; try discriminate; eauto. destruct H; discriminate. Qed.

  Lemma converts_suits name v : converts name v = true <-> suits name v.
  Proof.
    assert (C : forall l, (exists x, choice l v = Ok x) <-> In v l).
    { intro l. split; [intros (x & H); apply choice_ok in H; apply H|intro H; exists v; apply choice_ok; split; [reflexivity|exact H]]. }
    assert (N : (exists z, py_int v = Ok z) <-> whole_number (Some v)).
    { split; [intros (z & H) s [= <-]; exists z; apply py_int_iff, H|]. intro H. destruct (H v eq_refl) as (z & Hz). exists z. apply py_int_iff, Hz. }
    assert (Sh : (exists z, parse_tuple v = Ok z) <-> shape_option (Some v)).
    { rewrite <- shape_fine. cbn. unfold typed. destruct (parse_tuple v); cbn; split; intros (z & H); try discriminate; eauto. }
    unfold Args.converts, SpecArgs.suits.
    destruct (String.eqb_spec name "snapshot_timestep") as [->|N1]; [cbn; rewrite is_ok; intuition discriminate|].
    destruct (String.eqb_spec name "flow_map_period") as [->|N2]; [cbn; rewrite is_ok; intuition discriminate|]. cbn [orb].
    destruct (String.eqb_spec name "integrator") as [->|N3]; [rewrite is_ok, C; intuition discriminate|].
    destruct (String.eqb_spec name "interpolator") as [->|N4]; [rewrite is_ok, C; intuition discriminate|].
    destruct (String.eqb_spec name "num_processes") as [->|N5]; [rewrite is_ok, N; intuition discriminate|].
    destruct (String.eqb_spec name "output_format") as [->|N6]; [rewrite is_ok, C; intuition discriminate|].
    destruct (String.eqb_spec name "flow_grid_shape") as [->|N7]; [cbn; rewrite is_ok, Sh; intuition discriminate|].
    destruct (String.eqb_spec name "particles_grid_shape") as [->|N8]; [cbn; rewrite is_ok, Sh; intuition discriminate|]. cbn. intuition contradiction.
  Qed.

  (** One option after another. *)
  Definition step (r : res (option string * command_line)) (i : string * string) : res (option string * command_line) :=
    let* g := r in take parse_float (act (fst i)) (snd i) g.

  Lemma consume_apart a s v args g : classify s = Option a None -> a <> Help -> classify v = Value ->
    consume parse_float (s :: v :: args) g = let* g' := take parse_float a v g in consume parse_float args g'.
  Proof. intros E N V. cbn [consume]. rewrite E, V. destruct a; [contradiction|reflexivity|reflexivity]. Qed.
  Lemma consume_joined a s v args g : classify s = Option a (Some v) -> a <> Help ->
    consume parse_float (s :: args) g = let* g' := take parse_float a v g in consume parse_float args g'.
  Proof. intros E N. cbn [consume]. rewrite E. destruct a; [contradiction|reflexivity|reflexivity]. Qed.
  Lemma act_not_help name : act name <> Help.
  Proof. unfold act. destruct (String.eqb name "config"); discriminate. Qed.

  Lemma consume_spelled items tokens : Forall2 (fun i ts => spells (fst i) (snd i) ts) items tokens -> (forall i, In i items -> In (fst i) all_names) ->
    forall g, consume parse_float (concat tokens) g = fold_left step items (Ok g).
  Proof.
    induction 1 as [|[name v] ts items tokens Hs HF IH]; intros Hn g; [reflexivity|]. cbn [concat fold_left fst snd] in *.
    pose proof (Hn _ (or_introl eq_refl)) as H. cbn in H.
    assert (R : forall r : res (option string * command_line), (let* g' := r in consume parse_float (concat tokens) g') = fold_left step items r).
    { intros [g'|e]; cbn [bind]; [apply IH; intros i Hi; apply Hn; right; exact Hi|].
      clear. induction items as [|i l IHl]; [reflexivity|]. cbn. exact IHl. }
    destruct Hs as [Hv| |E Hv]; cbn [app]; unfold step at 1; cbn [bind fst snd]; rewrite <- R.
    - apply consume_apart; [apply classify_apart, H|apply act_not_help|apply classify_value, Hv].
    - apply consume_joined; [apply classify_joined, H|apply act_not_help].
    - subst name. apply consume_apart; [reflexivity|apply act_not_help|apply classify_value; left; exact Hv].
  Qed.

  Definition state_of (items : list (string * string)) : option string * command_line := (last_given "config" items, options_of items).
  Lemma last_given_snoc name items n v : last_given name (items ++ [(n, v)])%list = if String.eqb n name then Some v else last_given name items.
  Proof.
    induction items as [|[m w] items IH]; [reflexivity|]. cbn. rewrite IH. destruct (String.eqb n name); [reflexivity|]. reflexivity.
  Qed.
  Lemma field_options name items : In name option_names -> field name (options_of items) = last_given name items.
  Proof. intro H. unfold option_names in H. cbn in H. repeat (destruct H as [<-|H]; [reflexivity|]). destruct H. Qed.

  Lemma step_state items n v : In n all_names -> converts n v = true -> step (Ok (state_of items)) (n, v) = Ok (state_of (items ++ [(n, v)])%list).
  Proof.
    intros Hn Hc. unfold step, state_of, act. cbn [bind fst snd]. destruct (String.eqb_spec n "config") as [->|N].
    - cbn [take snd]. rewrite last_given_snoc. cbn [String.eqb]. do 2 f_equal. apply fields_ext. intros name Hname.
      rewrite !field_options, last_given_snoc by exact Hname. destruct (known_key _ Hname) as [_ E]. rewrite String.eqb_sym, E. reflexivity.
    - destruct Hn as [<-|Hn]; [contradiction|]. cbn [take fst snd]. rewrite Hc, last_given_snoc. apply String.eqb_neq in N. rewrite N. do 2 f_equal.
      apply fields_ext. intros name Hname. rewrite field_set, !field_options, last_given_snoc by exact Hname. reflexivity.
  Qed.
  Lemma step_bad g n v : In n all_names -> converts n v = false -> step (Ok g) (n, v) = Err SystemExit.
  Proof.
    intros Hn Hc. unfold step, act. cbn [bind fst snd]. destruct (String.eqb_spec n "config") as [->|N]; [discriminate Hc|]. cbn [take]. rewrite Hc. reflexivity.
  Qed.
  Lemma fold_err items e : fold_left step items (Err e) = Err e.
  Proof. induction items as [|i l IH]; [reflexivity|exact IH]. Qed.

  Lemma fold_state done items : (forall i, In i items -> In (fst i) all_names) ->
    (forall i, In i items -> converts (fst i) (snd i) = true) /\ fold_left step items (Ok (state_of done)) = Ok (state_of (done ++ items)%list) \/
    (exists i, In i items /\ converts (fst i) (snd i) = false) /\ fold_left step items (Ok (state_of done)) = Err SystemExit.
  Proof.
    revert done. induction items as [|[n v] items IH]; intros done Hn; [left; split; [intros i []|rewrite app_nil_r; reflexivity]|].
    pose proof (Hn _ (or_introl eq_refl)) as H. cbn in H. cbn [fold_left]. destruct (converts n v) eqn:C.
    - rewrite step_state by assumption. destruct (IH (done ++ [(n, v)])%list ltac:(intros i Hi; apply Hn; right; exact Hi)) as [[A B]|[(i & Hi & B) D]].
      + left. split; [intros i [<-|Hi]; [exact C|apply A, Hi]|]. rewrite B, <- app_assoc. reflexivity.
      + right. split; [exists i; split; [right; exact Hi|exact B]|exact D].
    - right. split; [exists (n, v); split; [left; reflexivity|exact C]|]. rewrite step_bad by assumption. apply fold_err.
  Qed.
End Reading.
