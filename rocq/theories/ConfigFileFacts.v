(** Facts about configuration files. *)
From Coq Require Import Lia.
From Verif Require Import Base Text FileUtils Hyper SpecText Manager FileUtilsFacts SpecConfigFile ConfigFile.
Open Scope string_scope.

Lemma sapp_assoc a b c : (a ++ b) ++ c = a ++ b ++ c.
Proof. induction a as [|x a IH]; [reflexivity|]. cbn. f_equal. exact IH. Qed.
Lemma sapp_nil a : a ++ "" = a.
Proof. induction a as [|x a IH]; [reflexivity|]. cbn. f_equal. exact IH. Qed.
Lemma s_occurs_app c a b : occurs c (a ++ b) <-> occurs c a \/ occurs c b.
Proof.
  induction a as [|x a IH]; cbn [append]; [split; [tauto|intros [H|H]; [destruct (occurs_nil _ H)|exact H]]|].
  rewrite !occurs_cons, IH. tauto.
Qed.

(** Blanks. *)
Lemma blank_char c : c = " "%char \/ c = tab -> is_space c = true.
Proof. intros [->| ->]; reflexivity. Qed.
Lemma blanks_spaces b : blanks b -> all_spaces b = true.
Proof.
  induction b as [|c b IH]; intro H; [reflexivity|]. cbn. rewrite (blank_char c); [cbn; apply IH|apply H; rewrite occurs_cons; auto].
  intros d Hd. apply H. rewrite occurs_cons. auto.
Qed.
Lemma skip_all b : all_spaces b = true -> skip_spaces b = "".
Proof. induction b as [|c b IH]; [reflexivity|]. cbn. destruct (is_space c); [exact IH|discriminate]. Qed.
Lemma skip_app b s : all_spaces b = true -> skip_spaces (b ++ s) = skip_spaces s.
Proof. induction b as [|c b IH]; [reflexivity|]. cbn. destruct (is_space c); [exact IH|discriminate]. Qed.
Lemma skip_head c s : is_space c = false -> skip_spaces (String c s) = String c s.
Proof. intro H. cbn. rewrite H. reflexivity. Qed.
Lemma all_spaces_mid y c r : is_space c = false -> all_spaces (y ++ String c r) = false.
Proof. intro H. induction y as [|x y IH]; cbn; [rewrite H; reflexivity|]. rewrite IH. apply Bool.andb_false_r. Qed.
Lemma drop_end_mid y c r : is_space c = false -> drop_end (y ++ String c r) = y ++ String c (drop_end r).
Proof.
  intro H. induction y as [|x y IH].
  - cbn [append drop_end]. cbn [all_spaces]. rewrite H. reflexivity.
  - change (String x y ++ String c r) with (String x (y ++ String c r)). cbn [drop_end].
    change (String x (y ++ String c r)) with (String x y ++ String c r) at 1. rewrite (all_spaces_mid (String x y) c r H). cbn [append]. f_equal. exact IH.
Qed.
Lemma drop_end_all b : all_spaces b = true -> drop_end b = "".
Proof. destruct b; [reflexivity|]. intro H. cbn [drop_end]. rewrite H. reflexivity. Qed.

(** What follows the value stays a remark when the line is stripped. *)
Lemma remark_stripped r : remark r -> ends_well (drop_end r) = true.
Proof.
  intros [b Hb|b c t Hb Hc Ht].
  - rewrite (drop_end_all b (blanks_spaces b Hb)). reflexivity.
  - replace (b ++ String c ("#" ++ t)) with ((b ++ String c "") ++ String "#" t) by (rewrite sapp_assoc; reflexivity).
    rewrite drop_end_mid by reflexivity. unfold ends_well.
    assert (A : all_spaces (b ++ String c "") = true).
    { pose proof (blanks_spaces b Hb) as A. pose proof (blank_char c Hc) as A'. clear - A A'. induction b as [|x b IH]; cbn in *; [rewrite A'; reflexivity|].
      destruct (is_space x); [apply IH; exact A|discriminate]. }
    rewrite skip_app, skip_head by (exact A || reflexivity). cbn [is_mark Ascii.eqb andb orb]. cbn.
    destruct b as [|x b]; cbn; [rewrite (blank_char c Hc); reflexivity|]. cbn in A. destruct (is_space x); [reflexivity|discriminate].
Qed.

(** The shortest beginning that is followed by something acceptable. *)
Lemma shortest_app after v r : v <> "" -> after r = true ->
  (forall a b, v = a ++ b -> a <> "" -> b <> "" -> after (b ++ r) = false) -> shortest after (v ++ r) = Some v.
Proof.
  intros Hv Hr. induction v as [|c v IH]; [congruence|]. intro H. cbn [append shortest].
  destruct v as [|d v].
  - cbn [append]. rewrite Hr. reflexivity.
  - rewrite (H (String c "") (String d v)) by (reflexivity || discriminate). rewrite IH; [reflexivity|discriminate|].
    intros a b E Ha Hb. apply (H (String c a) b); [cbn; f_equal; exact E|discriminate|exact Hb].
Qed.

Lemma first_word b : all_spaces b = false -> exists sp m d, b = sp ++ String m d /\ all_spaces sp = true /\ is_space m = false.
Proof.
  induction b as [|c b IH]; [discriminate|]. cbn. destruct (is_space c) eqn:E.
  - intro H. destruct (IH H) as (sp & m & d & -> & H1 & H2). exists (String c sp), m, d. cbn. rewrite E. auto.
  - intros _. exists "", c, b. auto.
Qed.
Lemma last_char c s : exists t x, String c s = t ++ String x "".
Proof.
  revert c. induction s as [|d s IH]; intro c; [exists "", c; reflexivity|]. destruct (IH d) as (t & x & ->). exists (String c t), x. reflexivity.
Qed.
Lemma last_split a b t x : b <> "" -> a ++ b = t ++ String x "" -> exists u, b = u ++ String x "".
Proof.
  revert t. induction a as [|c a IH]; intros t Hb E; [exists t; exact E|]. destruct t as [|d t]; cbn in E.
  - injection E as _ E. destruct a; [cbn in E; congruence|discriminate].
  - injection E as _ E. exact (IH t Hb E).
Qed.
Lemma mark_spec c : is_mark c = true -> In c ["#"; ";"]%char.
Proof. unfold is_mark. intro H. apply Bool.orb_true_iff in H as [H|H]; apply Ascii.eqb_eq in H; subst; cbn; auto. Qed.
Lemma quotation_spec c : is_quotation c = true -> In c ["'"; """"]%char.
Proof. unfold is_quotation. intro H. apply Bool.orb_true_iff in H as [H|H]; apply Ascii.eqb_eq in H; subst; cbn; auto. Qed.

Definition no_mark (v : string) : Prop := forall a b c d, v = a ++ String b (String c d) -> is_space b = true -> ~ In c ["#"; ";"]%char.

Lemma plain_text v r c0 t0 t1 c1 : v = String c0 t0 -> is_quotation c0 = false -> v = t1 ++ String c1 "" -> is_space c1 = false -> no_mark v ->
  ends_well r = true -> value_text (v ++ r) = Some v.
Proof.
  intros E0 Q E1 S1 M W.
  assert (X : shortest ends_well (v ++ r) = Some v).
  { apply shortest_app; [rewrite E0; discriminate|exact W|]. intros a b E Ha Hb.
    destruct (last_split a b t1 c1 Hb) as [u Eu]; [rewrite <- E; exact E1|].
    destruct (first_word b) as (sp & m & d & Eb & A & Sm); [rewrite Eu; apply all_spaces_mid; exact S1|].
    unfold ends_well. rewrite Eb, sapp_assoc. cbn [append]. rewrite skip_app, skip_head by assumption.
    destruct sp as [|x sp]; [cbn; rewrite Sm; apply Bool.andb_false_r|].
    destruct (is_mark m) eqn:Em; [|reflexivity]. exfalso. destruct (last_char x sp) as (t & y & Ey).
    assert (Sy : is_space y = true).
    { rewrite Ey in A. clear - A. induction t as [|z t IH]; cbn in A; [destruct (is_space y); [reflexivity|discriminate]|].
      destruct (is_space z); [apply IH; exact A|discriminate]. }
    apply (M (a ++ t) y m d); [|exact Sy|apply mark_spec; exact Em].
    rewrite E, Eb, Ey, !sapp_assoc. reflexivity. }
  revert X. rewrite E0. cbn [append value_text]. rewrite Q. auto.
Qed.

Lemma quoted_text q v r : is_quotation q = true -> v <> "" -> ~ occurs q v -> ends_well r = true -> value_text (String q (v ++ String q r)) = Some v.
Proof.
  intros Q Hv Hq W. cbn [value_text]. rewrite Q. rewrite shortest_app; [reflexivity|exact Hv| |].
  - cbn. rewrite Ascii.eqb_refl. exact W.
  - intros a b E _ Hb. destruct b as [|c b]; [congruence|]. cbn. destruct (Ascii.eqb_spec c q) as [->|]; [|reflexivity].
    exfalso. apply Hq. exists a, b. exact E.
Qed.

Lemma ends_bracket_spec v : ends_in_bracket v = true -> exists t, v = t ++ "]".
Proof.
  induction v as [|c v IH]; [discriminate|]. destruct v as [|d v].
  - cbn. intro H. apply Ascii.eqb_eq in H as ->. exists "". reflexivity.
  - intro H. destruct (IH H) as [t E]. exists (String c t). cbn. f_equal. exact E.
Qed.
Lemma bracketed_spec v : bracketed v = true -> in_brackets v.
Proof.
  destruct v as [|c v]; [discriminate|]. cbn [bracketed]. intro H. apply andb_prop in H as [H H']. apply Ascii.eqb_eq in H as ->.
  destruct v as [|d v]; [discriminate|]. destruct (ends_bracket_spec (String d v) H') as [t E]. exists t. cbn. f_equal. exact E.
Qed.
Lemma bracketed_in t : bracketed ("[" ++ t ++ "]") = true.
Proof.
  cbn [append bracketed]. rewrite Ascii.eqb_refl. cbn [andb]. change (ends_in_bracket (String "[" (t ++ "]")) = true).
  enough (H : forall c, ends_in_bracket (String c (t ++ "]")) = true) by apply H.
  induction t as [|d t IH]; intro c; [reflexivity|]. exact (IH d).
Qed.
Lemma setting_word v : ~ in_brackets v -> as_setting v = Word v.
Proof. intro H. unfold as_setting. destruct (bracketed v) eqn:E; [destruct (H (bracketed_spec v E))|reflexivity]. Qed.

(** Keys. *)
Definition key_like (key : string) : Prop := exists c t, key = String c t /\ c <> "["%char /\ c <> "-"%char /\ forall d, occurs d key -> is_key d = true.

Lemma split_key_app key e rest : (forall d, occurs d key -> is_key d = true) -> is_key e = false -> split_key (key ++ String e rest) = (key, String e rest).
Proof.
  intros H He. induction key as [|c key IH].
  - cbn. rewrite He. reflexivity.
  - cbn. rewrite (H c) by (rewrite occurs_cons; auto). rewrite IH; [reflexivity|]. intros d Hd. apply H. rewrite occurs_cons. auto.
Qed.
Lemma equal_not_key e : is_equal e = true -> is_key e = false /\ is_space e = false.
Proof. unfold is_equal. intro H. apply Bool.orb_true_iff in H as [H|H]; apply Ascii.eqb_eq in H; subst; split; reflexivity. Qed.
Lemma space_not_key e : is_space e = true -> is_key e = false.
Proof. unfold is_key. intros ->. reflexivity. Qed.

Lemma match_setting key b e after : key_like key -> all_spaces b = true -> is_equal e = true ->
  match_line (key ++ b ++ String e after) = Some (key, as_setting match value_text (skip_spaces after) with Some v => v | None => "" end).
Proof.
  intros (c & t & E & _ & _ & K) B He. destruct (equal_not_key e He) as [K' S']. unfold match_line.
  destruct b as [|x b].
  - cbn [append]. rewrite (split_key_app key e after K K'). rewrite E at 1. cbn [skip_spaces]. rewrite S'. cbn. rewrite He, E. reflexivity.
  - cbn in B. destruct (is_space x) eqn:Sx; [|discriminate]. cbn [append]. rewrite (split_key_app key x _ K (space_not_key x Sx)).
    rewrite E at 1. cbn [skip_spaces]. rewrite Sx, skip_app, skip_head by assumption. rewrite He, E. reflexivity.
Qed.

Lemma key_not_skipped key rest : key_like key -> skipped (key ++ rest) = false.
Proof.
  intros (c & t & E & H1 & H2 & K). subst key. cbn [append skipped]. assert (Kc : is_key c = true) by (apply K; rewrite occurs_cons; auto).
  unfold is_key in Kc. apply Bool.negb_true_iff in Kc. apply Bool.orb_false_iff in Kc as [Kc _]. apply Bool.orb_false_iff in Kc as [_ Kc]. rewrite Kc.
  destruct (Ascii.eqb_spec c "[") as [X|_]; [congruence|]. cbn [orb prefix]. destruct (ascii_dec "-" c) as [X|_]; [congruence|reflexivity].
Qed.
Lemma key_first key : key_like key -> exists c t, key = String c t /\ is_space c = false.
Proof.
  intros (c & t & E & _ & _ & K). exists c, t. split; [exact E|]. assert (Kc : is_key c = true) by (apply K; rewrite E, occurs_cons; auto).
  unfold is_key in Kc. destruct (is_space c); [discriminate|reflexivity].
Qed.

Lemma strip_key b0 key b e after : all_spaces b0 = true -> key_like key -> is_equal e = true ->
  strip (b0 ++ key ++ b ++ String e after) = key ++ b ++ String e (drop_end after).
Proof.
  intros B0 K He. unfold strip. rewrite skip_app by exact B0. destruct (key_first key K) as (c & t & -> & S). cbn [append]. rewrite skip_head by exact S.
  change (String c (t ++ b ++ String e after)) with (String c t ++ b ++ String e after).
  rewrite <- sapp_assoc, drop_end_mid by (apply equal_not_key; exact He). rewrite sapp_assoc. reflexivity.
Qed.

Lemma names_keys name : In name option_names -> key_like name.
Proof.
  intro H.
  assert (D : forallb (fun n => match n with String c _ => (negb (Ascii.eqb c "[") && negb (Ascii.eqb c "-"))%bool | _ => false end && every is_key n)%bool option_names = true)
    by reflexivity.
  rewrite forallb_forall in D. specialize (D name H). apply andb_prop in D as [D1 D2]. destruct name as [|c t]; [discriminate|].
  apply andb_prop in D1 as [D0 D1]. exists c, t. split; [reflexivity|]. split; [intros ->; discriminate|]. split; [intros ->; discriminate|].
  clear - D2. revert D2. generalize (String c t). intro s. induction s as [|x s IH]; cbn; intros E d Hd; [destruct (occurs_nil _ Hd)|].
  apply andb_prop in E as [E1 E2]. apply occurs_cons in Hd as [->|Hd]; auto.
Qed.

Definition add_said (items : list (string * setting)) (s : option (string * string)) : list (string * setting) :=
  match s with Some (n, v) => set_item n (Word v) items | None => items end.

Lemma eq_sign eq : In eq [":"; "="] -> exists e, eq = String e "" /\ is_equal e = true.
Proof. intros [<-|[<-|[]]]; eexists; split; reflexivity. Qed.

Lemma said_line line s : says line s -> forall lines items, parse_lines (line :: lines) items = parse_lines lines (add_said items s).
Proof.
  intros H lines items. cbn [parse_lines]. destruct H as [b Hb|b t Hb Ht|b0 name b1 eq b2 v r H0 Hn H1 He H2 Hv Hr|b0 name b1 eq b2 q v r H0 Hn H1 He H2 Hq Hl Hv Ho Hi Hr].
  - unfold strip. rewrite (skip_all b (blanks_spaces b Hb)). reflexivity.
  - unfold strip. rewrite skip_app by (apply blanks_spaces; exact Hb). cbn [append skip_spaces]. cbn. reflexivity.
  - destruct (eq_sign eq He) as (e & -> & Ee). destruct Hv as (_ & (c0 & t0 & E0 & S0 & N0) & (t1 & c1 & E1 & S1) & M & I).
    change (b0 ++ name ++ b1 ++ String e "" ++ b2 ++ v ++ r) with (b0 ++ name ++ b1 ++ String e (b2 ++ v ++ r)).
    pose proof (names_keys name Hn) as K. rewrite strip_key by first [exact K|exact Ee|apply blanks_spaces; exact H0].
    rewrite key_not_skipped by exact K. rewrite match_setting by first [exact K|exact Ee|apply blanks_spaces; exact H1].
    replace (drop_end (b2 ++ v ++ r)) with (b2 ++ v ++ drop_end r).
    + rewrite skip_app by (apply blanks_spaces; exact H2). replace (skip_spaces (v ++ drop_end r)) with (v ++ drop_end r) by (rewrite E0; cbn; rewrite S0; reflexivity).
      rewrite (plain_text v (drop_end r) c0 t0 t1 c1 E0); [rewrite (setting_word v I); reflexivity| |exact E1|exact S1|exact M|apply remark_stripped; exact Hr].
      destruct (is_quotation c0) eqn:Q; [|reflexivity]. apply quotation_spec in Q. exfalso. apply N0. cbn in Q |- *. intuition.
    + rewrite E1, !sapp_assoc. cbn [append]. rewrite <- !sapp_assoc with (a := b2). rewrite drop_end_mid by exact S1. reflexivity.
  - destruct (eq_sign eq He) as (e & -> & Ee).
    change (b0 ++ name ++ b1 ++ String e "" ++ b2 ++ String q (v ++ String q r)) with (b0 ++ name ++ b1 ++ String e (b2 ++ String q (v ++ String q r))).
    pose proof (names_keys name Hn) as K. rewrite strip_key by first [exact K|exact Ee|apply blanks_spaces; exact H0].
    rewrite key_not_skipped by exact K. rewrite match_setting by first [exact K|exact Ee|apply blanks_spaces; exact H1].
    assert (Q : is_quotation q = true /\ is_space q = false) by (destruct Hq as [<-|[<-|[]]]; split; reflexivity). destruct Q as [Q S].
    replace (drop_end (b2 ++ String q (v ++ String q r))) with (b2 ++ String q (v ++ String q (drop_end r))).
    + rewrite skip_app, skip_head by first [exact S|apply blanks_spaces; exact H2].
      rewrite quoted_text by first [exact Q|exact Hv|exact Ho|apply remark_stripped; exact Hr]. rewrite (setting_word v Hi). reflexivity.
    + replace (b2 ++ String q (v ++ String q r)) with ((b2 ++ String q v) ++ String q r) by (rewrite sapp_assoc; reflexivity).
      rewrite drop_end_mid by exact S. rewrite sapp_assoc. reflexivity.
Qed.

Lemma said_lines lines said : Forall2 says lines said -> forall items, parse_lines lines items = Ok (fold_left add_said said items).
Proof. induction 1 as [|line s lines said H _ IH]; intro items; [reflexivity|]. rewrite (said_line line s H). apply IH. Qed.

(** Lines of a text. *)
Lemma newlines_id s : ~ occurs carriage s -> newlines s = s.
Proof.
  induction s as [|c s IH]; [reflexivity|]. rewrite occurs_cons. intro H. cbn. rewrite IH by tauto. unfold is_carriage.
  destruct (Ascii.eqb_spec c carriage) as [->|]; [tauto|reflexivity].
Qed.
Lemma newlines_app a b : newlines (a ++ b) = newlines a ++ newlines b.
Proof. induction a as [|c a IH]; [reflexivity|]. cbn. f_equal. exact IH. Qed.
Lemma split_one s : ~ occurs newline s -> split_on newline s = [s].
Proof.
  induction s as [|c s IH]; [reflexivity|]. rewrite occurs_cons. intro H. cbn [split_on]. destruct (Ascii.eqb_spec c newline) as [->|]; [tauto|].
  rewrite IH by tauto. reflexivity.
Qed.
Lemma split_line a s : ~ occurs newline a -> split_on newline (a ++ String newline s) = a :: split_on newline s.
Proof.
  induction a as [|c a IH]; intro H; [cbn [append split_on]; rewrite Ascii.eqb_refl; reflexivity|].
  rewrite occurs_cons in H. cbn [append split_on]. destruct (Ascii.eqb_spec c newline) as [->|]; [tauto|]. rewrite IH by tauto. reflexivity.
Qed.
Lemma parse_same l A B : (forall items, parse_lines A items = parse_lines B items) -> forall items, parse_lines (l :: A) items = parse_lines (l :: B) items.
Proof. intros H items. cbn [parse_lines]. destruct (skipped (strip l)); [apply H|]. destruct (match_line (strip l)) as [[k v]|]; [apply H|reflexivity]. Qed.
Lemma parse_text lines text : written lines text -> (forall l, In l lines -> one_line l) -> parse_config text = parse_lines lines [].
Proof.
  intros W H. unfold parse_config. generalize (@nil (string * setting)). unfold file_lines. induction W as [|l|l e lines t He W IH].
  - reflexivity.
  - destruct (H l (or_introl eq_refl)) as [H1 H2]. intro items. rewrite newlines_id, split_one by assumption. reflexivity.
  - destruct (H l (or_introl eq_refl)) as [H1 H2]. assert (IH' := IH (fun x Hx => H x (or_intror Hx))). rewrite !newlines_app, (newlines_id l H2).
    destruct He as [<-|[<-|[<-|[]]]]; cbn [newlines append];
      [change (if is_carriage newline then newline else newline) with newline
      |change (if is_carriage newline then newline else newline) with newline; change (if is_carriage carriage then newline else carriage) with newline
      |change (if is_carriage carriage then newline else carriage) with newline];
      rewrite split_line by exact H1; apply parse_same; [exact IH'| |exact IH'].
    intro items. replace (split_on newline (String newline (newlines t))) with ("" :: split_on newline (newlines t)); [exact (IH' items)|].
    symmetry. apply (split_line "" (newlines t)). apply occurs_nil.
Qed.

Lemma one_line_app a b : one_line a -> one_line b -> one_line (a ++ b).
Proof. unfold one_line. rewrite !s_occurs_app. tauto. Qed.
Lemma blanks_line b : blanks b -> one_line b.
Proof. intro H. split; intro X; destruct (H _ X) as [Y|Y]; discriminate. Qed.
Lemma char_line c s : c <> newline -> c <> carriage -> one_line s -> one_line (String c s).
Proof. unfold one_line. rewrite !occurs_cons. intuition congruence. Qed.
Lemma remark_line r : remark r -> one_line r.
Proof.
  intros [b Hb|b c t Hb Hc Ht]; [apply blanks_line; exact Hb|]. apply one_line_app; [apply blanks_line; exact Hb|].
  cbn [append]. destruct Hc as [->| ->]; repeat apply char_line; try discriminate; exact Ht.
Qed.
Lemma key_line key : key_like key -> one_line key.
Proof. intros (c & t & _ & _ & _ & K). split; intro X; specialize (K _ X); discriminate. Qed.
Lemma says_line line s : says line s -> one_line line.
Proof.
  destruct 1 as [b Hb|b t Hb Ht|b0 name b1 eq b2 v r H0 Hn H1 He H2 Hv Hr|b0 name b1 eq b2 q v r H0 Hn H1 He H2 Hq Hl Hv Ho Hi Hr].
  - apply blanks_line. exact Hb.
  - apply one_line_app; [apply blanks_line; exact Hb|]. cbn [append]. apply char_line; try discriminate. exact Ht.
  - repeat apply one_line_app; try (apply blanks_line; assumption); [apply key_line, names_keys, Hn| |apply Hv|apply remark_line; exact Hr].
    destruct He as [<-|[<-|[]]]; apply char_line; try discriminate; split; apply occurs_nil.
  - repeat apply one_line_app; try (apply blanks_line; assumption); [apply key_line, names_keys, Hn| |].
    + destruct He as [<-|[<-|[]]]; apply char_line; try discriminate; split; apply occurs_nil.
    + destruct Hq as [<-|[<-|[]]]; apply char_line; try discriminate; (apply one_line_app; [exact Hl|]); apply char_line; try discriminate; apply remark_line; exact Hr.
Qed.

(** The items of a file. *)
Fixpoint find_item (name : string) (items : list (string * setting)) : option setting :=
  match items with [] => None | (k, v) :: items' => if String.eqb k name then Some v else find_item name items' end.
Lemma find_set name key v items : find_item name (set_item key v items) = if String.eqb key name then Some v else find_item name items.
Proof.
  induction items as [|[k w] items IH]; cbn; [reflexivity|]. destruct (String.eqb_spec k key) as [->|N]; cbn.
  - destruct (String.eqb key name); reflexivity.
  - rewrite IH. destruct (String.eqb_spec k name) as [->|]; [|reflexivity]. destruct (String.eqb_spec key name); [congruence|reflexivity].
Qed.
Lemma keys_set key v items : map fst (set_item key v items) = if existsb (String.eqb key) (map fst items) then map fst items else (map fst items ++ [key])%list.
Proof.
  induction items as [|[k w] items IH]; cbn; [reflexivity|]. rewrite String.eqb_sym. destruct (String.eqb key k); cbn; [reflexivity|]. rewrite IH.
  destruct (existsb _ _); reflexivity.
Qed.
Lemma nodup_set key v items : NoDup (map fst items) -> NoDup (map fst (set_item key v items)).
Proof.
  intro H. rewrite keys_set. destruct (existsb _ _) eqn:E; [exact H|]. apply NoDup_Add with (a := key) (l := map fst items).
  - rewrite <- (app_nil_r (map fst items)) at 1. apply Add_app.
  - split; [exact H|]. intro X. assert (existsb (String.eqb key) (map fst items) = true) by (apply existsb_exists; exists key; split; [exact X|apply String.eqb_refl]). congruence.
Qed.
Lemma in_set key v items x : In x (set_item key v items) -> x = (key, v) \/ In x items \/ exists w, x = (fst x, v) /\ In (fst x, w) items.
Proof.
  induction items as [|[k w] items IH]; cbn; [intros [<-|[]]; auto|]. destruct (String.eqb_spec k key) as [->|]; cbn.
  - intros [<-|H]; auto.
  - intros [<-|H]; [auto|]. destruct (IH H) as [->|[H'|(w' & E & H')]]; auto. right. right. exists w'. auto.
Qed.

Definition good (items : list (string * setting)) : Prop := forall k v, In (k, v) items -> In k option_names /\ exists w, v = Word w.
Lemma good_set key w items : In key option_names -> good items -> good (set_item key (Word w) items).
Proof.
  intros Hk G k v H. apply in_set in H as [E|[H|(w' & E & H)]]; [injection E as -> ->; eauto|exact (G k v H)|].
  cbn in E, H. injection E as ->. destruct (G k w' H). eauto.
Qed.
Lemma says_name line n v : says line (Some (n, v)) -> In n option_names.
Proof. inversion 1; subst; assumption. Qed.
Lemma fold_said lines said : Forall2 says lines said -> forall items, good items -> NoDup (map fst items) ->
  good (fold_left add_said said items) /\ NoDup (map fst (fold_left add_said said items)) /\
  forall name, find_item name (fold_left add_said said items) = match last_said name said with Some v => Some (Word v) | None => find_item name items end.
Proof.
  induction 1 as [|line s lines said H _ IH]; intros items G D; [cbn; auto|]. cbn [fold_left].
  destruct (IH (add_said items s)) as (G' & D' & F').
  - destruct s as [[n v]|]; cbn; [apply good_set; [exact (says_name _ _ _ H)|exact G]|exact G].
  - destruct s as [[n v]|]; cbn; [apply nodup_set; exact D|exact D].
  - split; [exact G'|]. split; [exact D'|]. intro name. rewrite F'. cbn [last_said]. destruct (last_said name said); [reflexivity|].
    destruct s as [[n v]|]; cbn [add_said]; [|reflexivity]. rewrite find_set. destruct (String.eqb n name); reflexivity.
Qed.

(** The options after the items. *)
Definition over (items : list (string * setting)) (given : option string) (name : string) (old : option string) : option string :=
  match given with Some _ => old | None => match find_item name items with Some (Word v) => Some v | _ => old end end.
Definition field (name : string) (c : command_line) : option string := match get_option name c with Some o => o | None => None end.
Lemma get_field name c : In name option_names -> get_option name c = Some (field name c).
Proof. intro H. cbn [option_names In] in H. repeat (destruct H as [<-|H]; [reflexivity|]). destruct H. Qed.
Lemma field_set name k v c : In name option_names -> field name (set_option k v c) = if String.eqb k name then Some v else field name c.
Proof. intro H. cbn [option_names In] in H. repeat (destruct H as [<-|H]; [reflexivity|]). destruct H. Qed.
Lemma fields_ext c c' : (forall name, In name option_names -> field name c = field name c') -> c = c'.
Proof.
  intro H.
  assert (H1 := H "experiment_name" ltac:(cbn; tauto)). assert (H2 := H "list_velocity_files" ltac:(cbn; tauto)).
  assert (H3 := H "list_coordinate_files" ltac:(cbn; tauto)). assert (H4 := H "list_particle_files" ltac:(cbn; tauto)).
  assert (H5 := H "snapshot_timestep" ltac:(cbn; tauto)). assert (H6 := H "flow_map_period" ltac:(cbn; tauto)).
  assert (H7 := H "integrator" ltac:(cbn; tauto)). assert (H8 := H "interpolator" ltac:(cbn; tauto)).
  assert (H9 := H "num_processes" ltac:(cbn; tauto)). assert (H10 := H "output_format" ltac:(cbn; tauto)).
  assert (H11 := H "flow_grid_shape" ltac:(cbn; tauto)). assert (H12 := H "particles_grid_shape" ltac:(cbn; tauto)).
  clear H. destruct c, c'. cbn in *. subst. reflexivity.
Qed.
Lemma field_merged name c said : In name option_names -> field name (merged c said) = match field name c with Some v => Some v | None => last_said name said end.
Proof. intro H. cbn [option_names In] in H. repeat (destruct H as [<-|H]; [reflexivity|]). destruct H. Qed.

Lemma find_absent name items : ~ In name (map fst items) -> find_item name items = None.
Proof.
  induction items as [|[k v] items IH]; [reflexivity|]. cbn. intro H. destruct (String.eqb_spec k name) as [->|]; [tauto|]. apply IH. tauto.
Qed.

Lemma known_key name : In name option_names -> option_name name = name /\ String.eqb name "config" = false.
Proof. intro H. cbn [option_names In] in H. repeat (destruct H as [<-|H]; [split; reflexivity|]). destruct H. Qed.

Lemma add_fields items g : forall c, good items -> NoDup (map fst items) ->
  exists c', add_items items g c = Ok c' /\ forall name, In name option_names -> field name c' = over items (field name g) name (field name c).
Proof.
  induction items as [|[k v] items IH]; intros c G D.
  - exists c. split; [reflexivity|]. intros name _. unfold over. destruct (field name g); reflexivity.
  - cbn [map fst] in D. inversion D as [|? ? Hk D']; subst. destruct (G k v (or_introl eq_refl)) as [N [w ->]].
    assert (G' : good items) by (intros a b X; apply G; right; exact X).
    destruct (known_key k N) as [X1 X2]. cbn [add_items]. rewrite X1, X2, (get_field k g N). destruct (field k g) as [o|] eqn:Ek.
    + destruct (IH c G' D') as (c' & E & F). exists c'. split; [exact E|]. intros name Hn. rewrite (F name Hn). unfold over. cbn [find_item].
      destruct (String.eqb_spec k name) as [<-|]; [rewrite Ek|]; reflexivity.
    + destruct (IH (set_option k w c) G' D') as (c' & E & F). exists c'. split; [exact E|]. intros name Hn. rewrite (F name Hn), (field_set name k w c Hn).
      unfold over. cbn [find_item]. destruct (String.eqb_spec k name) as [<-|]; [rewrite Ek, (find_absent k items Hk)|]; reflexivity.
Qed.

Theorem config_used (texts : string -> option string) path lines said text c :
  Forall2 says lines said -> written lines text -> path <> "" -> texts path = Some text -> with_config texts (Some path) c = Ok (merged c said).
Proof.
  intros F W P E. destruct path as [|x path]; [congruence|]. cbn [with_config]. rewrite E.
  rewrite (parse_text lines text W); [|intros l H; clear - F H; induction F as [|a b la lb S F IH]; [destruct H|destruct H as [<-|H]; [exact (says_line _ _ S)|exact (IH H)]]].
  rewrite (said_lines lines said F). cbn [bind].
  destruct (fold_said lines said F []) as (G & D & L); [intros ? ? []|constructor|].
  destruct (add_fields _ c c G D) as (c' & -> & X). f_equal. apply fields_ext. intros name Hn. rewrite (X name Hn), (field_merged name c said Hn).
  unfold over. destruct (field name c); [reflexivity|]. rewrite L. cbn [find_item]. destruct (last_said name said); reflexivity.
Qed.

(** Misspelt options. *)
Lemma items_kept lines : forall items k, In k (map fst items) ->
  parse_lines lines items = Err SystemExit \/ exists items', parse_lines lines items = Ok items' /\ In k (map fst items').
Proof.
  induction lines as [|line lines IH]; intros items k H; [right; exists items; auto|]. cbn [parse_lines].
  destruct (skipped _); [apply IH; exact H|]. destruct (match_line _) as [[key v]|]; [|left; reflexivity]. apply IH.
  rewrite keys_set. destruct (existsb _ _); [exact H|]. apply in_or_app. left. exact H.
Qed.
Lemma items_error lines : forall items e, parse_lines lines items = Err e -> e = SystemExit.
Proof.
  induction lines as [|line lines IH]; intros items e; [discriminate|]. cbn [parse_lines].
  destruct (skipped _); [apply IH|]. destruct (match_line _) as [[key v]|]; [apply IH|]. congruence.
Qed.
Lemma add_error items g : forall c e, add_items items g c = Err e -> e = SystemExit.
Proof.
  induction items as [|[k v] items IH]; intros c e; [discriminate|]. cbn [add_items]. destruct (String.eqb _ _); [apply IH|].
  destruct (get_option _ _) as [[o|]|]; [apply IH| |congruence]. destruct v; [apply IH|congruence].
Qed.
Lemma add_unknown items g k : In k (map fst items) -> option_name k = k -> k <> "config" -> get_option k g = None -> forall c, add_items items g c = Err SystemExit.
Proof.
  intros H E N U. induction items as [|[k' v] items IH]; intro c; [destruct H|].
  destruct (add_items ((k', v) :: items) g c) as [c'|e] eqn:X; [|rewrite (add_error _ _ _ _ X); reflexivity].
  exfalso. revert X. cbn [add_items]. cbn in H. destruct H as [->|H].
  - rewrite E, U. destruct (String.eqb_spec k "config"); [contradiction|discriminate].
  - destruct (String.eqb _ _); [rewrite IH by exact H; discriminate|]. destruct (get_option (option_name k') g) as [[o|]|], v; intro X; try discriminate X; rewrite IH in X by exact H; discriminate X.
Qed.

Lemma get_unknown k g : ~ In k option_names -> get_option k g = None.
Proof.
  intro H. unfold get_option. repeat match goal with |- context [String.eqb k ?n] => destruct (String.eqb_spec k n) as [->|_]; [exfalso; apply H; cbn; tauto|] end.
  reflexivity.
Qed.
Lemma prefix_refl s : prefix s s = true.
Proof. induction s as [|c s IH]; [reflexivity|]. cbn. destruct (ascii_dec c c); [exact IH|congruence]. Qed.

Theorem config_misspelt (texts : string -> option string) path lines line text c :
  (forall l, In l lines -> one_line l) -> In line lines -> misspelt line -> written lines text -> path <> "" -> texts path = Some text ->
  with_config texts (Some path) c = Err SystemExit.
Proof.
  intros L I (b & key & rest & E & B & R & N & K & P) W Hp T. destruct path as [|x path]; [congruence|]. cbn [with_config]. rewrite T, (parse_text lines text W L). clear T Hp L W.
  assert (KL : key_like key).
  { destruct key as [|k0 kt]; [congruence|]. exists k0, kt. split; [reflexivity|]. destruct (K k0) as [_ K0]; [rewrite occurs_cons; auto|].
    split; [intros ->; apply K0; cbn; tauto|]. split; [intros ->; apply K0; cbn; tauto|]. intros d Hd. destruct (K d Hd) as [K1 K2].
    unfold is_key. rewrite K1. cbn [orb]. destruct (is_mark d) eqn:M; [exfalso; apply K2; apply mark_spec in M; cbn in M |- *; intuition|].
    destruct (is_equal d) eqn:Q; [|reflexivity]. exfalso. apply K2. unfold is_equal in Q. apply Bool.orb_true_iff in Q as [Q|Q]; apply Ascii.eqb_eq in Q; subst; cbn; tauto. }
  assert (X : forall items, parse_lines lines items = Err SystemExit \/ exists items', parse_lines lines items = Ok items' /\ In key (map fst items')).
  { induction lines as [|l lines IH]; [destruct I|]. intro items. destruct I as [->|I].
    - cbn [parse_lines]. subst line. change (b ++ key ++ ":" ++ rest) with (b ++ key ++ "" ++ String ":" rest).
      rewrite (strip_key b key "" ":" rest (blanks_spaces b B) KL eq_refl). rewrite key_not_skipped by exact KL.
      rewrite (match_setting key "" ":" _ KL eq_refl eq_refl). apply items_kept. rewrite keys_set. destruct (existsb _ _) eqn:Ex; [|apply in_or_app; right; left; reflexivity].
      apply existsb_exists in Ex as (k & Hk & Ek). apply String.eqb_eq in Ek as ->. exact Hk.
    - cbn [parse_lines]. destruct (skipped _); [apply IH; exact I|]. destruct (match_line _) as [[k v]|]; [apply IH; exact I|left; reflexivity]. }
  destruct (X []) as [->|(items & -> & H)]; [reflexivity|]. cbn [bind].
  apply (add_unknown items c key H).
  - destruct key as [|k0 kt]; [congruence|]. unfold option_name. cbn [prefix]. destruct (ascii_dec "-" k0) as [<-|]; [|reflexivity].
    destruct (K "-"%char) as [_ K0]; [rewrite occurs_cons; auto|]. exfalso. apply K0. cbn. tauto.
  - intros ->. specialize (P "config" (or_introl eq_refl)). rewrite prefix_refl in P. discriminate.
  - apply get_unknown. intro Y. specialize (P key (or_intror (or_intror Y))). rewrite prefix_refl in P. discriminate.
Qed.

(** YAML. *)
Theorem yaml_scalar_said line name v : yaml_scalar line name v -> In name option_names -> (forall a b d, v = a ++ String b (String ";" d) -> is_space b = false) ->
  says line (Some (name, v)).
Proof.
  intros (-> & L & (c & t & E & Hc) & S & H1 & H2) Hn M.
  replace (name ++ ": " ++ v) with ("" ++ name ++ "" ++ ":" ++ " " ++ v ++ "") by (cbn; rewrite sapp_nil; reflexivity).
  apply says_bare; try exact Hn; try (intros x Hx; destruct (occurs_nil _ Hx)); [left; reflexivity| | |apply no_remark; intros x Hx; destruct (occurs_nil _ Hx)].
  - intros x Hx. apply occurs_cons in Hx as [->|Hx]; [auto|destruct (occurs_nil _ Hx)].
  - split; [exact L|]. split; [|split; [exact S|split]].
    + exists c, t. split; [exact E|]. unfold letter in Hc. clear - Hc. split.
      * unfold is_space. destruct (Nat.eqb_spec (nat_of_ascii c) 32) as [X|_]; [lia|]. cbn [orb]. destruct (Nat.leb_spec (nat_of_ascii c) 13); [lia|]. apply Bool.andb_false_r.
      * intro X. cbn in X. intuition subst; cbn in *; lia.
    + intros a b x d Ev Hb [<-|[<-|[]]]; [apply H1; exists (a ++ String b ""), d; rewrite sapp_assoc; exact Ev|]. specialize (M a b d Ev). congruence.
    + intros [u Eu]. rewrite E in Eu. cbn in Eu. injection Eu as -> _. unfold letter in Hc. cbn in Hc. lia.
Qed.

Lemma concat_chars items : (forall s, In s items -> s <> "" /\ forall c, occurs c s -> is_digit c = true) ->
  forall c, occurs c (String.concat ", " items) -> is_digit c = true \/ In c [","; " "]%char.
Proof.
  induction items as [|s items IH]; intros H c Hc; [destruct (occurs_nil _ Hc)|]. destruct items as [|s' items].
  - cbn in Hc. left. apply (H s (or_introl eq_refl)). exact Hc.
  - change (String.concat ", " (s :: s' :: items)) with (s ++ String "," (String " " (String.concat ", " (s' :: items)))) in Hc.
    apply s_occurs_app in Hc as [Hc|Hc]; [left; apply (H s (or_introl eq_refl)); exact Hc|].
    apply occurs_cons in Hc as [->|Hc]; [right; cbn; auto|]. apply occurs_cons in Hc as [->|Hc]; [right; cbn; auto|].
    apply IH; [intros x Hx; apply H; right; exact Hx|exact Hc].
Qed.

Lemma sequence_match name items : In name option_names -> items <> [] -> (forall s, In s items -> s <> "" /\ forall c, occurs c s -> is_digit c = true) ->
  skipped (strip (name ++ ": [" ++ String.concat ", " items ++ "]")) = false /\
  match_line (strip (name ++ ": [" ++ String.concat ", " items ++ "]")) = Some (name, Items) /\
  one_line (name ++ ": [" ++ String.concat ", " items ++ "]").
Proof.
  intros Hn He Hi. pose proof (names_keys name Hn) as K. set (t := String.concat ", " items) in *.
  pose proof (concat_chars items Hi) as C. fold t in C.
  change (name ++ ": [" ++ t ++ "]") with ("" ++ name ++ "" ++ String ":" (String " " ("[" ++ t ++ "]"))).
  rewrite strip_key by (reflexivity || exact K).
  replace (drop_end (String " " ("[" ++ t ++ "]"))) with (String " " ("[" ++ t ++ "]")).
  2:{ change (String " " ("[" ++ t ++ "]")) with ((String " " (String "[" t)) ++ String "]" ""). rewrite drop_end_mid by reflexivity. reflexivity. }
  split; [apply key_not_skipped; exact K|]. split.
  - rewrite match_setting by (reflexivity || exact K).
    replace (skip_spaces (String " " ("[" ++ t ++ "]"))) with ("[" ++ t ++ "]") by reflexivity.
    rewrite <- (sapp_nil ("[" ++ t ++ "]")) at 1.
    rewrite (plain_text ("[" ++ t ++ "]") "" "[" (t ++ "]") ("[" ++ t) "]"); [unfold as_setting; rewrite bracketed_in; reflexivity|reflexivity|reflexivity|reflexivity|reflexivity| |reflexivity].
    intros a b c d E _ H. assert (O : occurs c ("[" ++ t ++ "]")) by (exists (a ++ String b ""), d; rewrite sapp_assoc; exact E).
    cbn [append] in O. apply occurs_cons in O as [->|O]; [cbn in H; intuition discriminate|].
    apply s_occurs_app in O as [O|O].
    + destruct (C c O) as [D|D]; cbn in H, D; intuition subst; discriminate.
    + apply occurs_cons in O as [->|O]; [cbn in H; intuition discriminate|destruct (occurs_nil _ O)].
  - cbn [append]. apply one_line_app; [apply key_line; exact K|]. repeat (apply char_line; [discriminate|discriminate|]).
    apply one_line_app; [|apply char_line; try discriminate; split; apply occurs_nil].
    split; intro O; destruct (C _ O) as [D|D]; cbn in D; intuition discriminate.
Qed.

Lemma parse_last line key v : skipped (strip line) = false -> match_line (strip line) = Some (key, v) ->
  forall lines items, parse_lines (lines ++ [line])%list items = Err SystemExit \/
  exists items', parse_lines (lines ++ [line])%list items = Ok items' /\ In (key, v) items'.
Proof.
  intros S M. induction lines as [|l lines IH]; intro items; cbn [app parse_lines].
  - rewrite S, M. right. eexists. split; [reflexivity|]. clear. induction items as [|[k w] items IH]; cbn; [auto|].
    destruct (String.eqb_spec k key) as [->|]; [left; reflexivity|right; exact IH].
  - destruct (skipped (strip l)); [apply IH|]. destruct (match_line (strip l)) as [[k w]|]; [apply IH|left; reflexivity].
Qed.

Lemma add_list items g key : In (key, Items) items -> option_name key = key -> key <> "config" -> get_option key g = Some None ->
  forall c, add_items items g c = Err SystemExit.
Proof.
  intros H E N U. induction items as [|[k' v] items IH]; intro c; [destruct H|].
  destruct (add_items ((k', v) :: items) g c) as [c'|e] eqn:X; [|rewrite (add_error _ _ _ _ X); reflexivity].
  exfalso. revert X. cbn [add_items]. cbn in H. destruct H as [H|H].
  - injection H as -> ->. rewrite E, U. destruct (String.eqb_spec key "config"); [contradiction|discriminate].
  - destruct (String.eqb _ _); [rewrite IH by exact H; discriminate|].
    destruct (get_option (option_name k') g) as [[o|]|], v; intro X; try discriminate X; rewrite IH in X by exact H; discriminate X.
Qed.

Theorem config_sequence (texts : string -> option string) path lines line name items text c :
  (forall l, In l lines -> one_line l) -> yaml_sequence line name items ->
  name = "flow_grid_shape" /\ c_flow_grid_shape c = None \/ name = "particles_grid_shape" /\ c_particles_grid_shape c = None ->
  written (lines ++ [line]) text -> path <> "" -> texts path = Some text -> with_config texts (Some path) c = Err SystemExit.
Proof.
  intros L (-> & He & Hi) Hn W P T. destruct path as [|x path]; [congruence|].
  assert (N : In name option_names) by (destruct Hn as [[-> _]|[-> _]]; cbn; tauto).
  assert (F : option_name name = name /\ name <> "config" /\ get_option name c = Some None).
  { destruct Hn as [[-> E]|[-> E]]; cbn; rewrite E; repeat split; discriminate. }
  destruct F as (F1 & F2 & F3). destruct (sequence_match name items N He Hi) as (S & M & O). cbn [with_config]. rewrite T.
  rewrite (parse_text _ _ W) by (intros l H; apply in_app_or in H as [H|[<-|[]]]; [exact (L l H)|exact O]).
  destruct (parse_last _ _ _ S M lines []) as [->|(its & -> & H)]; [reflexivity|]. cbn [bind]. exact (add_list its c name H F1 F2 F3 c).
Qed.

(** The program with a configuration file. *)
From Verif Require Import Num NdArray Interpolate Readers DataSource Jobs Program.

Theorem config_program {T} (O : ops T) scp parse_float imems mems eigvals texts inputs path lines said text c fs :
  Forall2 says lines said -> written lines text -> path <> "" -> texts path = Some text ->
  forall out fs', configured_ends O scp parse_float imems mems eigvals texts inputs (Some path) c fs out fs' <->
                  main_ends O scp parse_float imems mems eigvals texts inputs (merged c said) fs out fs'.
Proof. intros F W P E out fs'. unfold configured_ends. rewrite (config_used texts path lines said text c F W P E). reflexivity. Qed.

Theorem config_refused {T} (O : ops T) scp parse_float imems mems eigvals texts inputs config c fs :
  with_config texts config c = Err SystemExit ->
  forall out fs', configured_ends O scp parse_float imems mems eigvals texts inputs config c fs out fs' <-> out = (false, Err SystemExit) /\ fs' = fs.
Proof. intros E out fs'. unfold configured_ends. rewrite E. reflexivity. Qed.

Theorem misspelt_program {T} (O : ops T) scp parse_float imems mems eigvals texts inputs path lines line text c fs :
  (forall l, In l lines -> one_line l) -> In line lines -> misspelt line -> written lines text -> path <> "" -> texts path = Some text ->
  forall out fs', configured_ends O scp parse_float imems mems eigvals texts inputs (Some path) c fs out fs' <-> out = (false, Err SystemExit) /\ fs' = fs.
Proof. intros L I M W P E. apply config_refused. exact (config_misspelt texts path lines line text c L I M W P E). Qed.

Theorem missing_program {T} (O : ops T) scp parse_float imems mems eigvals texts inputs path c fs :
  path <> "" -> texts path = None ->
  forall out fs', configured_ends O scp parse_float imems mems eigvals texts inputs (Some path) c fs out fs' <-> out = (false, Err SystemExit) /\ fs' = fs.
Proof. intros P E. apply config_refused. destruct path; [congruence|]. cbn. rewrite E. reflexivity. Qed.

Theorem sequence_program {T} (O : ops T) scp parse_float imems mems eigvals texts inputs path lines line name items text c fs :
  (forall l, In l lines -> one_line l) -> yaml_sequence line name items ->
  name = "flow_grid_shape" /\ c_flow_grid_shape c = None \/ name = "particles_grid_shape" /\ c_particles_grid_shape c = None ->
  written (lines ++ [line]) text -> path <> "" -> texts path = Some text ->
  forall out fs', configured_ends O scp parse_float imems mems eigvals texts inputs (Some path) c fs out fs' <-> out = (false, Err SystemExit) /\ fs' = fs.
Proof. intros L Y N W P E. apply config_refused. exact (config_sequence texts path lines line name items text c L Y N W P E). Qed.
