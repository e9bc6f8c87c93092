(** The theorems C141-C144. *)
From Coq Require Import Permutation Lia.
From Verif Require Import Base Num NdArray Particles Jacobian Integrate Text Hyper FileUtils Interpolate Readers DataSource Manager Jobs Program ConfigFile Args
  SpecText SpecConfig SpecCommand SpecConfigFile SpecArgs HyperFacts CommandFacts ConfigFileFacts ArgsFacts.
Open Scope string_scope.

Lemma with_config_err texts config c e : with_config texts config c = Err e -> e = SystemExit.
Proof.
  unfold with_config. destruct config as [[|h t]|]; try discriminate. destruct (texts _); [|intros [= <-]; reflexivity].
  unfold parse_config. destruct (parse_lines _ _) eqn:E; cbn [bind]; [apply add_error|]. intros [= <-]. eapply items_error. exact E.
Qed.

(** Options on the command line count more than the configuration file. *)
Lemma add_kept items g name v : In name option_names -> field name g = Some v -> forall c c', field name c = Some v -> add_items items g c = Ok c' -> field name c' = Some v.
Proof.
  intros Hn Hg. induction items as [|[k w] items IH]; intros c c' Hc E; cbn [add_items] in E; [injection E as <-; exact Hc|].
  destruct (String.eqb (option_name k) "config"); [eapply IH; eassumption|]. destruct (get_option (option_name k) g) as [[o|]|] eqn:G; [eapply IH; eassumption| |discriminate].
  destruct w as [w|]; [|discriminate]. eapply IH; [|exact E]. rewrite field_set by exact Hn. destruct (String.eqb_spec (option_name k) name) as [X|]; [|exact Hc].
  rewrite X, (get_field _ _ Hn), Hg in G. discriminate.
Qed.
Lemma config_kept texts config c c' name v : In name option_names -> field name c = Some v -> with_config texts config c = Ok c' -> field name c' = Some v.
Proof.
  intros Hn Hf. unfold with_config. destruct config as [[|h t]|]; [intros [= <-]; exact Hf| |intros [= <-]; exact Hf].
  destruct (texts _); [|discriminate]. destruct (parse_config _); cbn [bind]; [|discriminate]. apply add_kept with (c := c); assumption.
Qed.

Lemma nodup_last name v items : NoDup (map fst items) -> In (name, v) items -> last_given name items = Some v.
Proof.
  induction items as [|[n w] items IH]; intros D H; [destruct H|]. cbn in D. inversion D as [|? ? Hn D']; subst. cbn. destruct H as [[= -> ->]|H].
  - rewrite String.eqb_refl. replace (last_given name items) with (@None string); [reflexivity|]. clear - Hn. symmetry. induction items as [|[m u] l IH]; [reflexivity|].
    cbn in *. rewrite IH by tauto. destruct (String.eqb_spec m name); [subst; tauto|reflexivity].
  - rewrite (IH D' H). reflexivity.
Qed.

Section Program.
  Context {T : Type} (O : ops T) (scp : scipy T) (parse_float : string -> res T).
  Context (imems mems : nat -> nat -> memory (T := T)) (eigvals : m33 T -> res (T * T * T)) (texts : string -> option string) (inputs : filesystem T).
  Local Notation argv_ends := (argv_ends O scp parse_float imems mems eigvals texts inputs).
  Local Notation configured_ends := (configured_ends O scp parse_float imems mems eigvals texts inputs).

  Lemma unsuited c name v : In name option_names -> field name c = Some v -> ~ suits parse_float name v -> ~ acceptable parse_float c.
  Proof.
    intros Hn Hf N A. apply N. clear N. destruct A as (_ & _ & _ & _ & (s1 & x1 & E1 & F1) & (s2 & x2 & E2 & F2) & A3 & A4 & A5 & A6 & A7 & A8).
    unfold option_names in Hn. cbn [In] in Hn. unfold suits.
    repeat (destruct Hn as [<-|Hn]; [cbn in Hf; repeat split; intro X; (discriminate X || (destruct X as [X|X]; discriminate X) || idtac)|]); try destruct Hn.
    - rewrite Hf in E1. injection E1 as ->. eauto.
    - rewrite Hf in E2. injection E2 as ->. eauto.
    - apply A3, Hf.
    - apply A4, Hf.
    - rewrite <- Hf. exact A6.
    - apply A5, Hf.
    - rewrite <- Hf. exact A7.
    - rewrite <- Hf. exact A8.
  Qed.

  Lemma unsuited_ends config c name v fs : In name option_names -> field name c = Some v -> ~ suits parse_float name v ->
    forall out fs', configured_ends config c fs out fs' <-> out = (false, Err SystemExit) /\ fs' = fs.
  Proof.
    intros Hn Hf N out fs'. unfold ConfigFile.configured_ends. destruct (with_config texts config c) as [c'|e] eqn:E.
    - pose proof (refused parse_float O scp imems mems eigvals texts inputs c' fs (unsuited c' name v Hn (config_kept _ _ _ _ _ _ Hn Hf E) N)) as [A B].
      split; [apply B|]. intros [-> ->]. exact A.
    - apply with_config_err in E. subst e. reflexivity.
  Qed.

  Theorem options_read items tokens fs : Forall2 (fun i ts => spells (fst i) (snd i) ts) items tokens -> (forall i, In i items -> In (fst i) all_names) ->
    NoDup (map fst items) \/ (forall i, In i items -> suits parse_float (fst i) (snd i)) ->
    forall out fs', argv_ends (concat tokens) fs out fs' <-> configured_ends (last_given "config" items) (options_of items) fs out fs'.
  Proof.
    intros HF Hn D out fs'. unfold Args.argv_ends, parse_argv. rewrite (consume_spelled parse_float items tokens HF Hn).
    change (None, CommandLine None None None None None None None None None None None None) with (state_of []).
    destruct (fold_state parse_float [] items Hn) as [[A ->]|[([n v] & Hi & B) ->]]; [reflexivity|]. cbn [fst snd] in B.
    destruct D as [D|D].
    2:{ pose proof (D _ Hi) as S. cbn in S. apply converts_suits in S. congruence. }
    assert (Hno : In n option_names) by (destruct (Hn _ Hi) as [X|X]; [cbn in X; subst n; discriminate B|exact X]).
    rewrite (unsuited_ends _ _ n v fs Hno); [reflexivity| |].
    - rewrite field_options by exact Hno. apply nodup_last; assumption.
    - intro S. apply converts_suits in S. congruence.
  Qed.

  Lemma perm_last name items items' : Permutation items items' -> NoDup (map fst items) -> last_given name items = last_given name items'.
  Proof.
    intros P D. assert (D' : NoDup (map fst items')) by (eapply Permutation_NoDup; [apply Permutation_map, P|exact D]).
    destruct (last_given name items) as [v|] eqn:E; destruct (last_given name items') as [w|] eqn:F; try reflexivity.
    - assert (I : forall l, last_given name l = Some v -> In (name, v) l).
      { induction l as [|[n u] l IH]; [discriminate|]. cbn. destruct (last_given name l); [intros [= ->]; right; apply IH; reflexivity|].
        destruct (String.eqb_spec n name); [intros [= ->]; subst; left; reflexivity|discriminate]. }
      rewrite <- F. symmetry. apply nodup_last; [exact D'|]. eapply Permutation_in; [exact P|apply I, E].
    - assert (I : forall l, last_given name l = Some v -> In (name, v) l).
      { induction l as [|[n u] l IH]; [discriminate|]. cbn. destruct (last_given name l); [intros [= ->]; right; apply IH; reflexivity|].
        destruct (String.eqb_spec n name); [intros [= ->]; subst; left; reflexivity|discriminate]. }
      pose proof (nodup_last name v items' D' (Permutation_in _ P (I _ E))). congruence.
    - assert (I : forall l, last_given name l = Some w -> In (name, w) l).
      { induction l as [|[n u] l IH]; [discriminate|]. cbn. destruct (last_given name l); [intros [= ->]; right; apply IH; reflexivity|].
        destruct (String.eqb_spec n name); [intros [= ->]; subst; left; reflexivity|discriminate]. }
      pose proof (nodup_last name w items D (Permutation_in _ (Permutation_sym P) (I _ F))). congruence.
  Qed.

  Theorem any_order items items' tokens tokens' fs :
    Forall2 (fun i ts => spells (fst i) (snd i) ts) items tokens -> Forall2 (fun i ts => spells (fst i) (snd i) ts) items' tokens' ->
    (forall i, In i items -> In (fst i) all_names) -> NoDup (map fst items) -> Permutation items items' ->
    forall out fs', argv_ends (concat tokens) fs out fs' <-> argv_ends (concat tokens') fs out fs'.
  Proof.
    intros H1 H2 Hn D P out fs'. rewrite (options_read items tokens fs H1 Hn (or_introl D)).
    rewrite (options_read items' tokens' fs H2).
    - replace (options_of items') with (options_of items); [rewrite (perm_last "config" items items' P D); reflexivity|].
      apply fields_ext. intros name H. rewrite !field_options by exact H. apply perm_last; assumption.
    - intros i Hi. apply Hn. eapply Permutation_in; [apply Permutation_sym, P|exact Hi].
    - left. eapply Permutation_NoDup; [apply Permutation_map, P|exact D].
  Qed.

  (** What is no option is never passed over. *)
  Lemma consume_none s : classify s = NoOption -> forall n args g, length args <= n -> In s args -> consume parse_float args g = Err SystemExit.
  Proof.
    intro C. induction n as [|n IH]; intros args g L H; [destruct args; [destruct H|cbn in L; lia]|].
    destruct args as [|a args]; [destruct H|]. cbn [length] in L. destruct H as [->|H]; [cbn [consume]; rewrite C; reflexivity|].
    destruct (classify a) as [| |x [v|]|] eqn:E; try (cbn [consume]; rewrite E; reflexivity).
    - destruct (match x with Help => true | _ => false end) eqn:X; [destruct x; try discriminate; cbn [consume]; rewrite E; reflexivity|].
      rewrite (consume_joined parse_float x a v args g E) by (intros ->; discriminate). destruct (take parse_float x v g) as [g'|e] eqn:Tk; cbn [bind].
      + apply IH; [lia|exact H].
      + destruct x as [| |nm]; cbn in Tk; try congruence. destruct (converts parse_float nm v); congruence.
    - destruct (match x with Help => true | _ => false end) eqn:X; [destruct x; try discriminate; cbn [consume]; rewrite E; reflexivity|].
      destruct args as [|v args]; [destruct H|]. destruct (classify v) as [| |y w|] eqn:V; try (cbn [consume]; rewrite E, V; destruct x; reflexivity).
      rewrite (consume_apart parse_float x a v args g E) by (try assumption; intros ->; discriminate).
      destruct H as [->|H]; [congruence|]. destruct (take parse_float x v g) as [g'|e] eqn:Tk; cbn [bind].
      + cbn [length] in L. apply IH; [lia|exact H].
      + destruct x as [| |nm]; cbn in Tk; try congruence. destruct (converts parse_float nm v); congruence.
  Qed.
  Theorem none_ends s args fs : classify s = NoOption -> In s args ->
    forall out fs', argv_ends args fs out fs' <-> out = (false, Err SystemExit) /\ fs' = fs.
  Proof. intros C H out fs'. unfold Args.argv_ends, parse_argv. rewrite (consume_none s C _ args _ (le_n _) H). reflexivity. Qed.
End Program.

(** Negative numbers in scientific notation. *)
Lemma digits_end_stop a e t b : (forall c, occurs c a -> is_digit c = true) -> is_digit e = false -> e <> newline -> digits_end b (a ++ String e t) = false.
Proof.
  revert b. induction a as [|c a IH]; intros b Ha He Hn; cbn.
  - rewrite He. apply Ascii.eqb_neq in Hn. rewrite Hn. destruct b; reflexivity.
  - rewrite (Ha c (string_in c a)). apply IH; [|exact He|exact Hn]. intros d Hd. apply Ha, occurs_tail, Hd.
Qed.
Lemma fraction_stop a e t : (forall c, occurs c a -> is_digit c = true) -> is_digit e = false -> e <> "."%char -> fraction_end (a ++ String e t) = false.
Proof.
  induction a as [|c a IH]; intros Ha He Hn; cbn.
  - rewrite He. apply Ascii.eqb_neq in Hn. rewrite Hn. reflexivity.
  - rewrite (Ha c (string_in c a)). apply IH; [|exact He|exact Hn]. intros d Hd. apply Ha, occurs_tail, Hd.
Qed.
Lemma no_space s : ~ occurs " " s -> has_space s = false.
Proof.
  induction s as [|c s IH]; intro N; [reflexivity|]. cbn. destruct (Ascii.eqb_spec c " "); [subst; destruct N; apply string_in|]. apply IH. intro H. apply N, occurs_tail, H.
Qed.
Lemma space_inv s : has_space s = true -> occurs " " s.
Proof.
  induction s as [|c s IH]; [discriminate|]. cbn. destruct (Ascii.eqb_spec c " "); [subst; intros _; apply string_in|]. intro H. apply occurs_tail, IH, H.
Qed.
Lemma scientific_none a b : digits a -> ~ occurs " " b -> classify ("-" ++ a ++ "e" ++ b) = NoOption.
Proof.
  intros [Na Ha] Nb. destruct a as [|d t]; [contradiction|]. change ("-" ++ String d t ++ "e" ++ b) with (String "-" (String d (t ++ "e" ++ b))).
  rewrite numeric_no_option by (unfold numeric; rewrite (Ha d (string_in d t)); reflexivity).
  replace (negative_number _) with false.
  2:{ symmetry. unfold negative_number. change (String d (t ++ "e" ++ b)) with (String d t ++ String "e" b).
      rewrite digits_end_stop, fraction_stop; try assumption; try reflexivity; discriminate. }
  rewrite no_space; [reflexivity|]. change (String "-" (String d (t ++ "e" ++ b))) with ("-" ++ String d t ++ "e" ++ b).
  intro H. apply s_occurs_app in H. destruct H as [(x & y & H)|H]; [destruct x as [|? [|? ?]]; discriminate|].
  apply s_occurs_app in H. destruct H as [H|H]; [apply Ha in H; discriminate|]. apply s_occurs_app in H. destruct H as [(x & y & H)|H]; [destruct x as [|? [|? ?]]; discriminate|contradiction].
Qed.

(** What an accepted argument is. *)
Lemma value_inv v : classify v = Value ->
  undashed v \/ v = "-" \/ (exists d t, v = "-" ++ String d t /\ (is_digit d = true \/ d = "."%char)) \/ occurs " " v.
Proof.
  destruct v as [|c s]; [intros _; left; intros t; discriminate|]. destruct (Ascii.eqb_spec c "-") as [->|N]; [|intros _; left; intros t [= E]; contradiction].
  intro H. destruct s as [|d t]; [right; left; reflexivity|]. right. right.
  assert (K : negative_number (String "-" (String d t)) = true \/ has_space (String "-" (String d t)) = true).
  { unfold classify in H. change (negb (Ascii.eqb "-" "-")) with false in H. cbv iota in H. destruct (String.eqb _ "--"); [discriminate|].
    destruct (action_of _); [discriminate|]. destruct (partition_eq _) as [p [w|]]; [destruct (action_of p); [discriminate|]|];
      (destruct (option_tuples _) as [|[a w'] [|]]; try discriminate; destruct (negative_number _); [left; reflexivity|]; destruct (has_space _); [right; reflexivity|discriminate]). }
  destruct K as [K|K]; [left|right; apply space_inv, K]. exists d, t. split; [reflexivity|]. unfold negative_number in K.
  change (Ascii.eqb "-" "-") with true in K. cbn [andb digits_end fraction_end] in K. destruct (is_digit d); [left; reflexivity|]. cbn in K.
  right. destruct (Ascii.eqb_spec d "."); [assumption|discriminate].
Qed.

Lemma name_alone name : In name all_names -> forall n, In n ("help" :: all_names) -> prefix name n = true -> n = name.
Proof.
  intros H n Hn. unfold all_names, option_names in *. cbn in H, Hn.
  repeat (destruct H as [<-|H]; [repeat (destruct Hn as [<-|Hn]; [intro X; first [reflexivity|discriminate X]|]); destruct Hn|]). destruct H.
Qed.
Lemma option_stands p a : In (p, a) option_strings -> a = Help \/ exists name, In name all_names /\ a = act name /\ stands_for p name.
Proof.
  intro H. assert (K : a = Help \/ p = "-c" /\ a = act "config" \/ exists name, In name all_names /\ a = act name /\ p = "--" ++ name).
  { cbn in H. repeat (destruct H as [H|H]; [injection H as <- <-; first [left; reflexivity | right; left; split; reflexivity |
      right; right; match goal with |- exists name, _ /\ _ /\ ?s = _ => match s with String _ (String _ ?t) => exists t end end; split; [cbn; tauto|split; reflexivity]]|]). destruct H. }
  destruct K as [->|[[-> ->]|(name & Hn & -> & ->)]]; [left; reflexivity| |]; right.
  - exists "config". split; [left; reflexivity|]. split; [reflexivity|]. left. split; reflexivity.
  - exists name. split; [exact Hn|]. split; [reflexivity|]. right. exists name. split; [reflexivity|]. split; [apply prefix_refl|apply name_alone, Hn].
Qed.
Lemma long_option n : In n ("help" :: all_names) -> exists a, In ("--" ++ n, a) option_strings.
Proof. intro H. unfold all_names, option_names in H. cbn in H. repeat (destruct H as [<-|H]; [eexists; cbn; tauto|]). destruct H. Qed.
Lemma substring_all t : substring 0 (String.length t) t = t.
Proof. induction t as [|c t IH]; [reflexivity|]. cbn. rewrite IH. reflexivity. Qed.

Lemma tuples_inv s a v : prefix "--" s = true -> option_tuples s = [(a, v)] -> a = Help \/ exists name, In name all_names /\ a = act name /\ v = snd (partition_eq s) /\ stands_for (fst (partition_eq s)) name.
Proof.
  intros Hp. unfold option_tuples. rewrite Hp. destruct s as [|c1 [|c2 s]]; [discriminate|cbn [prefix] in Hp; destruct (ascii_dec "-" c1); discriminate Hp|].
  assert (E : c1 = "-"%char /\ c2 = "-"%char).
  { cbn [prefix] in Hp. destruct (ascii_dec "-" c1) as [<-|]; [|discriminate]. destruct (ascii_dec "-" c2) as [<-|]; [split; reflexivity|discriminate]. }
  destruct E as [-> ->]. set (q := fst (partition_eq s)).
  assert (P : partition_eq (String "-" (String "-" s)) = ("--" ++ q, snd (partition_eq s))) by reflexivity.
  rewrite P. cbn [fst snd]. intro E. destruct (filter _ option_strings) as [|o [|]] eqn:F; try discriminate. cbn [map] in E. injection E as <- <-.
  assert (Ho : In o option_strings /\ prefix ("--" ++ q) (fst o) = true) by (apply (filter_In (fun o => prefix ("--" ++ q) (fst o)) o option_strings); rewrite F; left; reflexivity). destruct Ho as [Ho Hq].
  destruct (option_stands (fst o) (snd o) ltac:(destruct o; exact Ho)) as [A|(name & Hn & A & B)]; [left; exact A|right].
  assert (L : fst o = "--" ++ name).
  { destruct B as [[B _]|(r & B & Hr & Hu)]; [rewrite B in Hq; discriminate Hq|]. clear - Ho A Hn Hq.
    cbn in Ho. repeat (destruct Ho as [<-|Ho]; [cbn [snd fst] in *; unfold act in A; destruct (String.eqb_spec name "config"); try subst name; try discriminate A; try (injection A as <-); first [reflexivity|discriminate Hq]|]). destruct Ho. }
  exists name. split; [exact Hn|]. split; [exact A|]. split; [reflexivity|]. right. exists q. split; [reflexivity|].
  assert (X : forall n, prefix ("--" ++ q) ("--" ++ n) = prefix q n) by (intro n; cbn [append]; rewrite !prefix_eq; reflexivity).
  split; [rewrite L, X in Hq; exact Hq|]. intros n Hin Hpn. destruct (long_option n Hin) as (b & Hb).
  assert (Y : In ("--" ++ n, b) (filter (fun o => prefix ("--" ++ q) (fst o)) option_strings)) by (apply filter_In; split; [exact Hb|cbn [fst]; rewrite X; exact Hpn]).
  rewrite F in Y. destruct Y as [Y|[]]. subst o. cbn [fst] in L. injection L as ->. reflexivity.
Qed.
Lemma short_inv d t a v : d <> "-"%char -> action_of (String "-" (String d t)) = None -> option_tuples (String "-" (String d t)) = [(a, v)] ->
  a = Help \/ a = Config /\ d = "c"%char /\ v = Some t.
Proof.
  intros Nd A. unfold option_tuples. rewrite prefix_eq, prefix_ne by congruence.
  replace (substring 0 2 (String "-" (String d t))) with (String "-" (String d "")) by (destruct t; reflexivity).
  replace (substring 2 _ _) with t by (cbn; rewrite Nat.sub_0_r, substring_all; reflexivity).
  assert (H : forall o, In o option_strings -> (exists n, fst o = "--" ++ n) ->
    String.eqb (fst o) (String "-" (String d "")) = false /\ prefix (String "-" (String d t)) (fst o) = false).
  { intros o _ (n & ->). split; [apply String.eqb_neq; intros [= E _]; congruence|]. cbn [append]. rewrite prefix_eq, prefix_ne by exact Nd. reflexivity. }
  assert (Z : forall l, (forall o, In o l -> In o option_strings /\ exists n, fst o = "--" ++ n) ->
    flat_map (fun o : string * action => if String.eqb (fst o) (String "-" (String d "")) then [(snd o, Some t)] else if prefix (String "-" (String d t)) (fst o) then [(snd o, None)] else []) l = []).
  { induction l as [|o l IH]; intro Hl; [reflexivity|]. cbn [flat_map]. destruct (Hl o (or_introl eq_refl)) as [X Y]. destruct (H o X Y) as [-> ->]. apply IH. intros o' Ho'. apply Hl. right. exact Ho'. }
  assert (Sp : exists l, option_strings = ("-h", Help) :: ("--help", Help) :: ("-c", Config) :: l /\ forall o, In o l -> In o option_strings /\ exists n, fst o = "--" ++ n).
  { eexists. split; [reflexivity|]. intros o Ho. split; [cbn; cbn in Ho; tauto|]. cbn in Ho. repeat (destruct Ho as [<-|Ho]; [eexists; reflexivity|]). destruct Ho. }
  destruct Sp as (l & E & Hl). rewrite E. cbn [flat_map fst snd]. rewrite (Z l Hl).
  pose proof (H ("--help", Help) ltac:(cbn; tauto) (ex_intro _ "help" eq_refl)) as HH. cbn [fst] in HH. destruct HH as [-> ->].
  destruct (Ascii.eqb_spec d "h") as [->|Nh].
  - cbn. intros [= <- _]. left. reflexivity.
  - replace (String.eqb "-h" (String "-" (String d ""))) with false by (symmetry; apply String.eqb_neq; intros [= ?]; congruence).
    rewrite !prefix_eq, (prefix_ne d "h") by exact Nh. cbn [app]. destruct (Ascii.eqb_spec d "c") as [->|Nc].
    + cbn. intros [= <- <-]. right. repeat split.
    + replace (String.eqb "-c" (String "-" (String d ""))) with false by (symmetry; apply String.eqb_neq; intros [= ?]; congruence).
      rewrite (prefix_ne d "c") by exact Nc. discriminate.
Qed.

Lemma option_inv s a v : classify s = Option a v -> a = Help \/ exists name, In name all_names /\ a = act name /\
  match v with None => stands_for s name | Some w => (exists p, s = p ++ "=" ++ w /\ stands_for p name) \/ name = "config" /\ s = "-c" ++ w end.
Proof.
  destruct s as [|c s]; [discriminate|]. unfold classify. destruct (Ascii.eqb_spec c "-") as [->|]; [|discriminate]. cbn [negb].
  destruct (String.eqb _ "--"); [discriminate|]. destruct (action_of _) as [b|] eqn:A.
  { intros [= <- <-]. destruct (option_stands _ _ (action_of_in _ _ A)) as [->|(name & H)]; [left; reflexivity|right; exists name; exact H]. }
  destruct s as [|d t]; [discriminate|]. set (s := String "-" (String d t)) in *. pose proof (partition_inv s) as PI.
  assert (Tup : option_tuples s = [(a, v)] -> a = Help \/ exists name, In name all_names /\ a = act name /\
    match v with None => stands_for s name | Some w => (exists p, s = p ++ "=" ++ w /\ stands_for p name) \/ name = "config" /\ s = "-c" ++ w end).
  { intro E. destruct (ascii_dec d "-") as [->|Nd].
    - destruct (tuples_inv s a v ltac:(unfold s; rewrite !prefix_eq; destruct t; reflexivity) E) as [->|(name & Hn & Ha & Hv & Hs)]; [left; reflexivity|right].
      exists name. split; [exact Hn|]. split; [exact Ha|]. rewrite <- Hv in PI. destruct v as [w|]; [left; eexists; split; [exact PI|exact Hs]|rewrite PI in Hs; exact Hs].
    - destruct (short_inv d t a v Nd A E) as [->|(-> & -> & ->)]; [left; reflexivity|right]. exists "config". split; [left; reflexivity|]. split; [reflexivity|]. right. split; reflexivity. }
  destruct (partition_eq s) as [p [w|]]; cbn [fst snd] in PI.
  - destruct (action_of p) as [b|] eqn:B.
    + intros [= <- <-]. destruct (option_stands _ _ (action_of_in _ _ B)) as [->|(name & Hn & Ha & Hs)]; [left; reflexivity|right].
      exists name. split; [exact Hn|]. split; [exact Ha|]. left. exists p. split; [exact PI|exact Hs].
    + destruct (option_tuples s) as [|[b x] [|]]; [destruct (negative_number s), (has_space s); discriminate| |discriminate]. intros [= -> ->]. apply Tup. reflexivity.
  - destruct (option_tuples s) as [|[b x] [|]]; [destruct (negative_number s), (has_space s); discriminate| |discriminate]. intros [= -> ->]. apply Tup. reflexivity.
Qed.

Section Complete.
  Context {T : Type} (parse_float : string -> res T).
  Lemma take_err a v g e : take parse_float a v g = Err e -> e = SystemExit.
  Proof. destruct a as [| |n]; cbn; [congruence|discriminate|]. destruct (converts parse_float n v); congruence. Qed.

  Lemma consume_inv : forall n args g, length args <= n ->
    consume parse_float args g = Err SystemExit \/
    exists items tokens, args = concat tokens /\ Forall2 (fun i ts => gives (fst i) (snd i) ts) items tokens /\ (forall i, In i items -> In (fst i) all_names) /\
      consume parse_float args g = fold_left (step parse_float) items (Ok g).
  Proof.
    induction n as [|n IH]; intros args g L; (destruct args as [|s args]; [right; exists [], []; repeat split; [constructor|intros i []]|cbn in L]); [lia|].
    destruct (classify s) as [| |a v|] eqn:C; try (left; cbn [consume]; rewrite C; reflexivity).
    destruct (option_inv s a v C) as [->|(name & Hn & -> & Hv)]; [left; cbn [consume]; rewrite C; destruct v; reflexivity|].
    destruct v as [w|].
    - rewrite (consume_joined parse_float (act name) s w args g C (act_not_help name)). destruct (take parse_float (act name) w g) as [g'|e] eqn:Tk; cbn [bind].
      2:{ left. apply take_err in Tk. subst e. reflexivity. }
      destruct (IH args g' ltac:(lia)) as [E|(items & tokens & E1 & E2 & E3 & E4)]; [left; exact E|right].
      exists ((name, w) :: items), ([s] :: tokens). split; [cbn; rewrite E1; reflexivity|]. split.
      { constructor; [|exact E2]. cbn [fst snd]. destruct Hv as [(p & -> & Hs)|[-> ->]]; [apply gives_joined, Hs|apply gives_attached; reflexivity]. }
      split; [intros i [<-|Hi]; [exact Hn|apply E3, Hi]|]. rewrite E4. cbn [fold_left]. unfold step at 3. cbn [bind fst snd]. rewrite Tk. reflexivity.
    - destruct args as [|v args]; [left; cbn [consume]; rewrite C; unfold act; destruct (String.eqb name "config"); reflexivity|].
      destruct (classify v) as [| |b x|] eqn:V; try (left; cbn [consume]; rewrite C, V; unfold act; destruct (String.eqb name "config"); reflexivity).
      rewrite (consume_apart parse_float (act name) s v args g C (act_not_help name) V). destruct (take parse_float (act name) v g) as [g'|e] eqn:Tk; cbn [bind].
      2:{ left. apply take_err in Tk. subst e. reflexivity. }
      cbn [length] in L. destruct (IH args g' ltac:(lia)) as [E|(items & tokens & E1 & E2 & E3 & E4)]; [left; exact E|right].
      exists ((name, v) :: items), ([s; v] :: tokens). split; [cbn; rewrite E1; reflexivity|]. split.
      { constructor; [|exact E2]. cbn [fst snd]. apply gives_apart; [exact Hv|apply value_inv, V]. }
      split; [intros i [<-|Hi]; [exact Hn|apply E3, Hi]|]. rewrite E4. cbn [fold_left]. unfold step at 3. cbn [bind fst snd]. rewrite Tk. reflexivity.
  Qed.
End Complete.

Theorem nothing_overlooked {T} (O : ops T) scp parse_float imems mems eigvals texts inputs args fs out fs' :
  argv_ends O scp parse_float imems mems eigvals texts inputs args fs out fs' ->
  out = (false, Err SystemExit) /\ fs' = fs \/
  exists items tokens, args = concat tokens /\ Forall2 (fun i ts => gives (fst i) (snd i) ts) items tokens /\ (forall i, In i items -> In (fst i) all_names) /\
    configured_ends O scp parse_float imems mems eigvals texts inputs (last_given "config" items) (options_of items) fs out fs'.
Proof.
  unfold argv_ends, parse_argv. change (None, CommandLine None None None None None None None None None None None None) with (state_of []).
  destruct (consume_inv parse_float _ args (state_of []) (le_n _)) as [->|(items & tokens & E1 & E2 & E3 & ->)]; [left; assumption|].
  destruct (fold_state parse_float [] items E3) as [[_ ->]|[_ ->]]; [|left; assumption]. intro H. right. exists items, tokens. repeat split; assumption.
Qed.

(** Misspelt options. *)
Definition unknown (r : string) : Prop := forall n, In n ("help" :: all_names) -> prefix r n = false.
Lemma dashed_options o : In o option_strings -> fst o = "-h" \/ fst o = "-c" \/ exists n, In n ("help" :: all_names) /\ fst o = "--" ++ n.
Proof.
  intro H. cbn in H. repeat (destruct H as [<-|H]; [first [left; reflexivity | right; left; reflexivity |
    right; right; match goal with |- exists n, _ /\ fst (?s, _) = _ => match s with String _ (String _ ?t) => exists t end end; split; [cbn; tauto|reflexivity]]|]). destruct H.
Qed.
Lemma unknown_no_action r : unknown r -> action_of ("--" ++ r) = None.
Proof.
  intro U. destruct (action_of _) as [a|] eqn:E; [|reflexivity]. apply action_of_in, dashed_options in E. cbn [fst] in E.
  destruct E as [E|[E|(n & Hn & E)]]; [discriminate|discriminate|]. injection E as ->. pose proof (U _ Hn) as X. rewrite prefix_refl in X. discriminate.
Qed.
Lemma unknown_no_tuples r s : unknown r -> fst (partition_eq s) = "--" ++ r -> prefix "--" s = true -> option_tuples s = [].
Proof.
  intros U E P. unfold option_tuples. rewrite P. destruct (partition_eq s) as [p v]. cbn [fst] in E. subst p.
  destruct (filter _ option_strings) as [|o l] eqn:F; [reflexivity|].
  assert (Ho : In o option_strings /\ prefix ("--" ++ r) (fst o) = true) by (apply (filter_In (fun o => prefix ("--" ++ r) (fst o)) o option_strings); rewrite F; left; reflexivity).
  destruct Ho as [Ho Hq]. destruct (dashed_options o Ho) as [X|[X|(n & Hn & X)]]; rewrite X in Hq; [discriminate|discriminate|].
  cbn [append] in Hq. rewrite !prefix_eq, (U n Hn) in Hq. discriminate.
Qed.
Lemma unknown_none r s : unknown r -> ~ occurs "=" r -> s = "--" ++ r \/ (exists w, s = "--" ++ r ++ "=" ++ w) -> ~ occurs " " s -> classify s = NoOption.
Proof.
  intros U N Hs Hsp. assert (Nr : r <> "") by (intros ->; discriminate (U "help" (or_introl eq_refl))).
  assert (Nr' : ~ occurs "=" ("--" ++ r)) by (intros (a & b & E); destruct a as [|? [|? a]]; cbn in E; [discriminate|discriminate|]; injection E as _ _ E; apply N; exists a, b; exact E).
  assert (X : exists t, s = String "-" (String "-" t) /\ t <> "") by (destruct Hs as [->|(w & ->)]; eexists; (split; [reflexivity|]); destruct r; [contradiction|discriminate|contradiction|discriminate]).
  destruct X as (t & X & Nt).
  assert (P : fst (partition_eq s) = "--" ++ r /\ action_of s = None).
  { destruct Hs as [->|(w & ->)].
    - rewrite partition_none by exact Nr'. split; [reflexivity|apply unknown_no_action, U].
    - replace ("--" ++ r ++ "=" ++ w) with (("--" ++ r) ++ String "=" w) by (rewrite sapp_assoc; reflexivity). rewrite partition_some by exact Nr'. split; [reflexivity|].
      destruct (action_of _) as [a|] eqn:E; [|reflexivity]. apply action_of_in, action_no_equals in E. destruct E. cbn [fst]. exists ("--" ++ r), w. reflexivity. }
  destruct P as [P A]. assert (Pf : prefix "--" s = true) by (rewrite X, !prefix_eq; destruct t; reflexivity).
  pose proof (unknown_no_tuples r s U P Pf) as Tu.
  assert (Ng : negative_number s = false) by (rewrite X; reflexivity). pose proof (no_space s Hsp) as Sp.
  assert (Q : String.eqb s "--" = false) by (apply String.eqb_neq; intro E; rewrite X in E; injection E as E; contradiction).
  assert (B : action_of (fst (partition_eq s)) = None) by (rewrite P; apply unknown_no_action, U).
  unfold classify. rewrite Q, A, Tu, Ng, Sp. destruct (partition_eq s) as [p [w|]]; cbn [fst] in B; rewrite ?B; rewrite X; reflexivity.
Qed.
Theorem misspelt_ends {T} (O : ops T) scp parse_float imems mems eigvals texts inputs r s args fs :
  (forall n, In n ("help" :: all_names) -> prefix r n = false) -> ~ occurs "=" r -> s = "--" ++ r \/ (exists w, s = "--" ++ r ++ "=" ++ w) -> ~ occurs " " s -> In s args ->
  forall out fs', argv_ends O scp parse_float imems mems eigvals texts inputs args fs out fs' <-> out = (false, Err SystemExit) /\ fs' = fs.
Proof. intros U N Hs Hsp. apply none_ends. exact (unknown_none r s U N Hs Hsp). Qed.

Theorem scientific_ends {T} (O : ops T) scp parse_float imems mems eigvals texts inputs a b before after fs :
  digits a -> ~ occurs " " b ->
  forall out fs', argv_ends O scp parse_float imems mems eigvals texts inputs (before ++ ["--snapshot_timestep"; ("-" ++ a ++ "e" ++ b)%string] ++ after)%list fs out fs' <->
    out = (false, Err SystemExit) /\ fs' = fs.
Proof.
  intros Ha Hb. apply none_ends with (s := "-" ++ a ++ "e" ++ b); [apply scientific_none; assumption|]. apply in_or_app. right. right. left. reflexivity.
Qed.

Theorem readme_ends {T} (O : ops T) scp parse_float imems mems eigvals texts inputs fs :
  forall out fs', argv_ends O scp parse_float imems mems eigvals texts inputs readme_arguments fs out fs' <-> out = (false, Err SystemExit) /\ fs' = fs.
Proof.
  intros out fs'. unfold argv_ends. replace (parse_argv parse_float readme_arguments) with (@Err (option string * command_line) SystemExit); [reflexivity|]. symmetry.
  unfold parse_argv, readme_arguments, readme_items.
  assert (K : forall items g, (forall i, In i items -> In (fst i) all_names /\ undashed (snd i)) ->
    consume parse_float (concat (map (fun i => [("--" ++ fst i)%string; snd i]) items) ++ [" "])%list g = Err SystemExit).
  { induction items as [|[n v] items IH]; intros g H; [reflexivity|]. destruct (H _ (or_introl eq_refl)) as [Hn Hv]. cbn [fst snd] in *. cbn [map concat app fst snd].
    rewrite (consume_apart parse_float (act n) _ v _ g (classify_apart n Hn) (act_not_help n) (classify_value v (or_introl Hv))).
    destruct (take parse_float (act n) v g) as [g'|e] eqn:E; cbn [bind]; [apply IH; intros i Hi; apply H; right; exact Hi|]. apply take_err in E. subst e. reflexivity. }
  apply K. intros i Hi. cbn in Hi. repeat (destruct Hi as [<-|Hi]; [split; [cbn; tauto|intros t; discriminate]|]). destruct Hi.
Qed.

Theorem negative_read {T} (O : ops T) scp parse_float imems mems eigvals texts inputs items tokens v ts fs :
  Forall2 (fun i ts => spells (fst i) (snd i) ts) items tokens -> (forall i, In i items -> In (fst i) all_names) -> NoDup ("snapshot_timestep" :: map fst items) ->
  negative_decimal v /\ ts = ["--snapshot_timestep"; v] \/ ts = ["--snapshot_timestep=" ++ v] ->
  forall out fs', argv_ends O scp parse_float imems mems eigvals texts inputs (ts ++ concat tokens)%list fs out fs' <->
    configured_ends O scp parse_float imems mems eigvals texts inputs (last_given "config" items) (options_of (("snapshot_timestep", v) :: items)) fs out fs'.
Proof.
  intros HF Hn D Ht out fs'. change (ts ++ concat tokens)%list with (concat (ts :: tokens)).
  rewrite (options_read O scp parse_float imems mems eigvals texts inputs (("snapshot_timestep", v) :: items) (ts :: tokens)).
  - cbn [last_given]. destruct (last_given "config" items); reflexivity.
  - constructor; [|exact HF]. cbn [fst snd]. destruct Ht as [[N ->]| ->]; [apply (in_two "snapshot_timestep" v); right; exact N|apply (in_one "snapshot_timestep" v)].
  - intros i [<-|Hi]; [cbn; tauto|apply Hn, Hi].
  - left. exact D.
Qed.

Theorem readme_fixed {T} (O : ops T) scp parse_float imems mems eigvals texts inputs (both : bool) fs out fs' :
  let items := (readme_items ++ if both then [("particles_grid_shape", "100,100,100")] else [])%list in
  argv_ends O scp parse_float imems mems eigvals texts inputs (concat (map (fun i => ["--" ++ fst i; snd i]) items)) fs out fs' <->
  configured_ends O scp parse_float imems mems eigvals texts inputs None
    (CommandLine (Some "my_experiment") (Some "velocity_files.txt") (Some "coordinate_files.txt") (Some "particle_files.txt") (Some "0.1") (Some "5.0")
      (Some "rk4") (Some "cubic") (Some "4") (Some "vtk") (Some "100,100,100") (if both then Some "100,100,100" else None)) fs out fs'.
Proof.
  intro items. assert (H : forall i, In i items -> In (fst i) all_names /\ undashed (snd i)).
  { intros i Hi. unfold items in Hi. apply in_app_or in Hi. destruct Hi as [Hi|Hi].
    - cbn in Hi. repeat (destruct Hi as [<-|Hi]; [split; [cbn; tauto|intros t; discriminate]|]). destruct Hi.
    - destruct both; [|destruct Hi]. destruct Hi as [<-|[]]. split; [cbn; tauto|intros t; discriminate]. }
  rewrite (options_read O scp parse_float imems mems eigvals texts inputs items).
  - destruct both; reflexivity.
  - clear - H. induction items as [|[n v] l IH]; constructor; [apply in_two; left; apply (H (n, v)); left; reflexivity|]. apply IH. intros i Hi. apply H. right. exact Hi.
  - intros i Hi. apply H, Hi.
  - left. unfold items. destruct both; repeat constructor; cbn; intuition discriminate.
Qed.
