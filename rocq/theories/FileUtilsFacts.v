(** Lemmas on FileUtils.v: the round trip of file lists. *)
From Coq Require Import Lia.
From Verif Require Import Base FileUtils SpecText.

Definition special (c : ascii) : bool := (is_newline c || is_carriage c || is_comma c)%bool.
Fixpoint every (P : ascii -> bool) (s : string) : bool :=
  match s with EmptyString => true | String c s' => P c && every P s' end.
Notation clean := (every (fun c => negb (special c))).
Notation len := String.length.

Lemma append_nil s : append s "" = s.
Proof. induction s; cbn; congruence. Qed.
Lemma append_assoc a b c : append (append a b) c = append a (append b c).
Proof. induction a; cbn; congruence. Qed.
Lemma snoc_append a c b : append (snoc a c) b = append a (String c b).
Proof. unfold snoc. rewrite append_assoc. reflexivity. Qed.
Lemma append_length a b : len (append a b) = len a + len b.
Proof. induction a; cbn; congruence. Qed.
Lemma snoc_length a c : len (snoc a c) = S (len a).
Proof. unfold snoc. rewrite append_length. cbn. lia. Qed.

Lemma special_false c : special c = false -> is_newline c = false /\ is_carriage c = false /\ is_comma c = false.
Proof. unfold special. now destruct (is_newline c), (is_carriage c), (is_comma c). Qed.

Lemma tokenize_field p : forall fields f s, clean p = true ->
  tokenize InField fields f (append p (String newline s)) =
  let* ls := tokenize StartRecord [] "" s in Ok ((fields ++ [append f p])%list :: ls).
Proof.
  induction p as [|c p IH]; intros fields f s H.
  - cbn [append tokenize]. rewrite append_nil. reflexivity.
  - cbn in H. apply andb_true_iff in H as [Hc H]. apply negb_true_iff, special_false in Hc as (H1 & H2 & H3).
    cbn [append tokenize]. rewrite H1, H2, H3. rewrite (IH fields (snoc f c) s H), snoc_append. reflexivity.
Qed.

Lemma tokenize_blank p : forall f s, clean p = true -> every blank p = false ->
  tokenize WhitespaceLine [] f (append p (String newline s)) =
  let* ls := tokenize StartRecord [] "" s in Ok ([append f p] :: ls).
Proof.
  induction p as [|c p IH]; intros f s H Hb; [discriminate|].
  cbn in H. apply andb_true_iff in H as [Hc H]. apply negb_true_iff, special_false in Hc as (H1 & H2 & H3).
  cbn [append tokenize]. rewrite H1, H2, H3. cbn in Hb. destruct (blank c).
  - rewrite (IH (snoc f c) s H Hb), snoc_append. reflexivity.
  - rewrite (tokenize_field p [] (snoc f c) s H), snoc_append. reflexivity.
Qed.

Definition opens_quote (p : string) : bool := match p with String c _ => is_quote c | EmptyString => false end.
Definition good_line (p : string) : bool := clean p && negb (every blank p) && negb (opens_quote p).

Lemma tokenize_line p s : good_line p = true ->
  tokenize StartRecord [] "" (append p (String newline s)) =
  let* ls := tokenize StartRecord [] "" s in Ok ([p] :: ls).
Proof.
  unfold good_line. rewrite !andb_true_iff, !negb_true_iff. intros [[H Hb] Hq].
  destruct p as [|c p]; [discriminate|]. cbn in H, Hb, Hq. apply andb_true_iff in H as [Hc H].
  apply negb_true_iff, special_false in Hc as (H1 & H2 & H3). cbn [append tokenize]. rewrite H1, H2.
  destruct (blank c).
  - rewrite tokenize_blank; auto.
  - rewrite Hq, H3. rewrite tokenize_field; auto.
Qed.

Lemma tokenize_lines l : forallb good_line l = true -> tokenize StartRecord [] "" (list_text l) = Ok (map (fun p => [p]) l).
Proof.
  induction l as [|p l IH]; cbn [forallb list_text map]; [reflexivity|]. rewrite andb_true_iff. intros [Hp Hl].
  rewrite tokenize_line by exact Hp. rewrite (IH Hl). reflexivity.
Qed.

Lemma read_plain l : l <> [] -> forallb good_line l = true -> forallb (fun p => negb (is_na p)) l = true ->
  read_column (list_text l) = Ok (map Some l).
Proof.
  intros Hl H Hn. unfold read_column. rewrite (tokenize_lines l H). cbn [bind].
  destruct l as [|p l]; [contradiction|]. cbn [map].
  replace (existsb _ _) with false.
  - assert (E : forall x, In x (p :: l) -> (if is_na x then None else Some x) = Some x).
    { intros x Hx. rewrite forallb_forall in Hn. apply Hn in Hx. apply negb_true_iff in Hx. now rewrite Hx. }
    cbn [map hd]. rewrite map_map. cbn [hd]. rewrite (E p) by (left; reflexivity). do 2 f_equal.
    apply map_ext_in. intros x Hx. apply E. right. exact Hx.
  - symmetry. apply not_true_is_false. intro E. apply existsb_exists in E as (x & Hx & E).
    change ([p] :: map (fun p => [p]) l) with (map (fun p => [p]) (p :: l)) in Hx.
    apply in_map_iff in Hx as (y & <- & _). discriminate.
Qed.

(** ** The converse *)

(** A line that is begun keeps its first field. *)
Lemma first_field s : forall m f0 fs field ls,
  m = StartField \/ m = InField \/ m = InQuoted \/ m = QuoteInQuoted \/ m = EatNewline ->
  tokenize m (f0 :: fs) field s = Ok ls -> exists line ls', ls = line :: ls' /\ hd ""%string line = f0.
Proof.
  induction s as [|c s IH]; intros m f0 fs field ls Hm H.
  - destruct Hm as [->|[->|[->|[->| ->] ] ] ]; cbn in H; try discriminate; injection H as <-; eauto.
  - assert (E : forall l, (let* ls := tokenize StartRecord [] "" s in Ok (((f0 :: fs) ++ l)%list :: ls)) = Ok ls ->
        exists line ls', ls = line :: ls' /\ hd ""%string line = f0).
    { intros l E. destruct (tokenize StartRecord [] "" s); cbn in E; [|discriminate]. injection E as <-. eauto. }
    destruct Hm as [->|[->|[->|[->| ->] ] ] ]; cbn [tokenize] in H.
    + destruct (is_newline c); [exact (E _ H)|]. destruct (is_carriage c); [eapply IH; [|exact H]; auto 10|].
      destruct (is_quote c); [eapply IH; [|exact H]; auto 10|].
      destruct (is_comma c); eapply IH; [|exact H| |exact H]; auto 10.
    + destruct (is_newline c); [exact (E _ H)|]. destruct (is_carriage c); [eapply IH; [|exact H]; auto 10|].
      destruct (is_comma c); eapply IH; [|exact H| |exact H]; auto 10.
    + destruct (is_quote c); eapply IH; [|exact H| |exact H]; auto 10.
    + destruct (is_newline c); [exact (E _ H)|]. destruct (is_carriage c); [eapply IH; [|exact H]; auto 10|].
      destruct (is_quote c); [eapply IH; [|exact H]; auto 10|].
      destruct (is_comma c); eapply IH; [|exact H| |exact H]; auto 10.
    + destruct (is_newline c).
      * apply (E []). rewrite app_nil_r. exact H.
      * match type of H with bind ?x _ = _ => destruct x end; cbn in H; [|discriminate]. injection H as <-. eauto.
Qed.

(** The size of the first fields, against the size of the text. *)
Fixpoint size (ls : list (list string)) : nat :=
  match ls with [] => 0 | l :: ls' => S (len (hd ""%string l)) + size ls' end.
Fixpoint ends_newline (s : string) : bool :=
  match s with
  | EmptyString => false
  | String c EmptyString => is_newline c
  | String _ s' => ends_newline s'
  end.
Definition pending (m : mode) (fields : list string) (field : string) : nat :=
  match m with
  | StartRecord | EatNewlineSkip => 0
  | WhitespaceLine => len field
  | StartField => len (hd ""%string fields)
  | EatNewline => S (len (hd ""%string fields))
  | InField | InQuoted | QuoteInQuoted => len (hd field fields)
  end.
Definition text_end (s : string) : Prop := s = ""%string \/ ends_newline s = true.

Lemma text_end_tail c s : ends_newline (String c s) = true -> text_end s /\ (s = ""%string -> is_newline c = true).
Proof. destruct s as [|d s]; cbn; intro H; [split; [left; reflexivity|auto]|]. split; [right; exact H|discriminate]. Qed.

Lemma size_bound s : forall m fields field ls,
  (s = ""%string -> m = StartRecord \/ m = InQuoted) -> text_end s ->
  tokenize m fields field s = Ok ls -> size ls <= len s + pending m fields field.
Proof.
  induction s as [|c s IH]; intros m fields field ls Hm He H.
  - destruct (Hm eq_refl) as [-> | ->]; cbn in H; [|discriminate]. injection H as <-. cbn. lia.
  - destruct He as [He|He]; [discriminate|]. apply text_end_tail in He as [He Hc].
    assert (K : forall ls m' fs f, (is_newline c = false \/ m' = StartRecord \/ m' = InQuoted) -> tokenize m' fs f s = Ok ls ->
                size ls <= len s + pending m' fs f).
    { clear ls H. intros ls m' fs f Hx Hk. apply IH; auto. intro Hs. destruct Hx as [Hx|Hx]; [|exact Hx]. rewrite (Hc Hs) in Hx. discriminate. }
    assert (E : forall ls l, (let* ls := tokenize StartRecord [] "" s in Ok (l :: ls)) = Ok ls ->
                size ls <= len s + S (len (hd ""%string l))).
    { clear ls H. intros ls l E. destruct (tokenize StartRecord [] "" s) as [ls'|] eqn:Et; cbn in E; [|discriminate]. injection E as <-.
      apply IH in Et; auto. cbn in *. lia. }
    cbn [len].
    assert (F : forall fs f, hd ""%string (fs ++ [f])%list = hd f fs) by (intros [|]; reflexivity).
    (* in a field *)
    assert (A : forall ls fs f,
      (if is_newline c then let* ls := tokenize StartRecord [] "" s in Ok ((fs ++ [f])%list :: ls)
       else if is_carriage c then tokenize EatNewline (fs ++ [f])%list "" s
       else if is_comma c then tokenize StartField (fs ++ [f])%list "" s
       else tokenize InField fs (snoc f c) s) = Ok ls -> size ls <= S (len s) + len (hd f fs)).
    { clear ls H. intros ls fs f Hx. destruct (is_newline c) eqn:En; [apply E in Hx; rewrite F in Hx; lia|].
      destruct (is_carriage c); [apply K in Hx; [cbn [pending] in Hx; rewrite F in Hx; lia|auto]|].
      destruct (is_comma c); apply K in Hx; auto; cbn [pending] in Hx; [rewrite F in Hx; lia|].
      destruct fs; cbn [hd] in *; rewrite ?snoc_length in Hx; lia. }
    (* at the start of a field *)
    assert (B : forall ls fs,
      (if is_newline c then let* ls := tokenize StartRecord [] "" s in Ok ((fs ++ [""%string])%list :: ls)
       else if is_carriage c then tokenize EatNewline (fs ++ [""%string])%list "" s
       else if is_quote c then tokenize InQuoted fs "" s
       else if is_comma c then tokenize StartField (fs ++ [""%string])%list "" s
       else tokenize InField fs (String c "") s) = Ok ls -> size ls <= S (len s) + len (hd ""%string fs)).
    { clear ls H. intros ls fs Hx. destruct (is_newline c) eqn:En; [apply E in Hx; rewrite F in Hx; lia|].
      destruct (is_carriage c); [apply K in Hx; [cbn [pending] in Hx; rewrite F in Hx; lia|auto]|].
      destruct (is_quote c); [apply K in Hx; [cbn [pending] in Hx; lia|auto]|].
      destruct (is_comma c); apply K in Hx; auto; cbn [pending] in Hx; [rewrite F in Hx; lia|].
      destruct fs; cbn [hd len] in *; lia. }
    (* at the start of a line *)
    pose (start_record :=
        if is_newline c then tokenize StartRecord [] "" s
        else if is_carriage c then tokenize EatNewlineSkip [] "" s
        else if blank c then tokenize WhitespaceLine [] (String c "") s
        else if is_newline c then let* ls := tokenize StartRecord [] "" s in Ok (([] ++ [""%string])%list :: ls)
       else if is_carriage c then tokenize EatNewline ([] ++ [""%string])%list "" s
       else if is_quote c then tokenize InQuoted [] "" s
       else if is_comma c then tokenize StartField ([] ++ [""%string])%list "" s
       else tokenize InField [] (String c "") s).
    assert (D : forall ls, start_record = Ok ls -> size ls <= S (len s)).
    { clear ls H. intros ls. unfold start_record. intro Hx. specialize (B ls []).
      destruct (is_newline c) eqn:En; [apply K in Hx; [cbn [pending] in Hx; lia|auto]|].
      destruct (is_carriage c); [apply K in Hx; [cbn [pending] in Hx; lia|auto]|].
      destruct (blank c); [apply K in Hx; [cbn [pending len] in Hx; lia|auto]|].
      apply B in Hx. cbn in Hx. lia. }
    destruct m; cbn [tokenize] in H; cbn [pending].
    + apply D in H. lia.
    + destruct (is_newline c) eqn:En; [apply K in H; [cbn [pending] in H; lia|auto]|].
      destruct (is_carriage c); [apply K in H; [cbn [pending] in H; lia|auto]|].
      destruct (blank c); [apply K in H; [cbn [pending] in H; rewrite snoc_length in H; lia|auto]|].
      apply (A ls []) in H. cbn in H. lia.
    + exact (B _ _ H).
    + exact (A _ _ _ H).
    + destruct (is_quote c) eqn:Eq; apply K in H; auto.
      * cbn [pending] in H. lia.
      * left. unfold is_quote in Eq. apply Ascii.eqb_eq in Eq. subst. reflexivity.
      * cbn [pending] in H. destruct fields; cbn [hd] in *; rewrite ?snoc_length in H; lia.
    + destruct (is_newline c) eqn:En; [apply E in H; rewrite F in H; lia|].
      destruct (is_carriage c); [apply K in H; [cbn [pending] in H; rewrite F in H; lia|auto]|].
      destruct (is_quote c);
        [apply K in H; auto; cbn [pending] in H; destruct fields; cbn [hd] in *; rewrite ?snoc_length in H; lia|].
      destruct (is_comma c); apply K in H; auto; cbn [pending] in H; [rewrite F in H; lia|].
      destruct fields; cbn [hd] in *; rewrite ?snoc_length in H; lia.
    + destruct (is_newline c) eqn:En; [apply E in H; lia|].
      match type of H with bind ?x _ = _ => destruct x as [ls'|] eqn:Es end; cbn in H; [|discriminate].
      injection H as <-. cbn [size]. assert (size ls' <= S (len s)) by (apply D; reflexivity). lia.
    + destruct (is_newline c) eqn:En; [apply K in H; [cbn [pending] in H; lia|auto]|]. apply D in H. lia.
Qed.

Lemma text_newline l : text_end (list_text l).
Proof.
  induction l as [|p l IH]; [left; reflexivity|]. right. cbn [list_text].
  assert (H : ends_newline (String newline (list_text l)) = true).
  { destruct IH as [->|IH]; [reflexivity|]. cbn. destruct (list_text l); [discriminate|exact IH]. }
  induction p as [|c p IHp]; cbn [append]; [exact H|]. cbn. destruct (append p _); [discriminate|exact IHp].
Qed.

Lemma text_length l : len (list_text l) = size (map (fun p => [p]) l).
Proof. induction l as [|p l IH]; cbn; [reflexivity|]. rewrite append_length. cbn. rewrite IH. lia. Qed.

Lemma size_firsts ls : size (map (fun p => [p]) (map (hd ""%string) ls)) = size ls.
Proof. induction ls; cbn; congruence. Qed.

(** The first special character. *)
Lemma split_special p : clean p = true \/ exists u c v, p = append u (String c v) /\ clean u = true /\ special c = true.
Proof.
  induction p as [|c p IH]; [left; reflexivity|]. cbn. destruct (special c) eqn:Ec.
  - right. exists ""%string, c, p. auto.
  - destruct IH as [IH|(u & d & v & -> & Hu & Hd)]; [left; exact IH|]. right. exists (String c u), d, v.
    cbn. rewrite Ec. auto.
Qed.

(** Reading up to the first special character. *)
Lemma read_field u : forall fields f s, clean u = true ->
  tokenize InField fields f (append u s) = tokenize InField fields (append f u) s.
Proof.
  induction u as [|c u IH]; intros fields f s H; [cbn [append]; now rewrite append_nil|].
  cbn in H. apply andb_true_iff in H as [Hc H]. apply negb_true_iff, special_false in Hc as (H1 & H2 & H3).
  cbn [append tokenize]. rewrite H1, H2, H3, (IH _ _ _ H), snoc_append. reflexivity.
Qed.
Lemma read_blanks u : forall f s, every blank u = true ->
  tokenize WhitespaceLine [] f (append u s) = tokenize WhitespaceLine [] (append f u) s.
Proof.
  induction u as [|c u IH]; intros f s H; [cbn [append]; now rewrite append_nil|].
  cbn in H. apply andb_true_iff in H as [Hc H].
  assert (Hn : is_newline c = false /\ is_carriage c = false).
  { unfold blank in Hc. apply orb_true_iff in Hc as [Hc|Hc]; apply Ascii.eqb_eq in Hc; subst; split; reflexivity. }
  cbn [append tokenize]. rewrite (proj1 Hn), (proj2 Hn), Hc, (IH _ _ H), snoc_append. reflexivity.
Qed.
Lemma read_mixed u : forall f s, clean u = true -> every blank u = false ->
  tokenize WhitespaceLine [] f (append u s) = tokenize InField [] (append f u) s.
Proof.
  induction u as [|c u IH]; intros f s H Hb; [discriminate|].
  cbn in H. apply andb_true_iff in H as [Hc H]. apply negb_true_iff, special_false in Hc as (H1 & H2 & H3).
  cbn in Hb. cbn [append tokenize]. rewrite H1, H2, H3. destruct (blank c) eqn:Ec.
  - rewrite (IH _ _ H Hb), snoc_append. reflexivity.
  - rewrite (read_field u [] _ _ H), snoc_append. reflexivity.
Qed.
(** From the start of a line that does not open with a quotation mark. *)
Lemma read_start u s : clean u = true -> opens_quote u = false -> u <> ""%string ->
  tokenize StartRecord [] "" (append u s) =
  if every blank u then tokenize WhitespaceLine [] u s else tokenize InField [] u s.
Proof.
  destruct u as [|c u]; intros H Hq Hne; [contradiction|]. clear Hne. cbn in H, Hq. apply andb_true_iff in H as [Hc H].
  apply negb_true_iff, special_false in Hc as (H1 & H2 & H3). cbn [append tokenize every]. rewrite H1, H2, Hq, H3.
  destruct (blank c) eqn:Ec; cbn [andb].
  - destruct (every blank u) eqn:Eb; [exact (read_blanks u (String c "") s Eb)|exact (read_mixed u (String c "") s H Eb)].
  - exact (read_field u [] (String c "") s H).
Qed.

Lemma append_cancel u c v : append u (String c v) <> u.
Proof. intro E. apply (f_equal len) in E. rewrite append_length in E. cbn in E. lia. Qed.

(** A line that is not good is not read back. *)
Lemma bad_line p l ls : good_line p = false ->
  tokenize StartRecord [] "" (append p (String newline (list_text l))) = Ok ls -> map (hd ""%string) ls <> p :: l.
Proof.
  intros Hp H E.
  assert (Hsize : size ls = S (len p) + len (list_text l)).
  { rewrite <- size_firsts, E, <- text_length. cbn. rewrite append_length. cbn. lia. }
  assert (Hfirst : forall line ls', ls = line :: ls' -> hd ""%string line = p).
  { intros line ls' ->. cbn in E. congruence. }
  assert (Hend : forall v, text_end (append v (String newline (list_text l)))).
  { intro v. exact (text_newline (v :: l)). }
  assert (Hne : forall v, append v (String newline (list_text l)) <> ""%string) by (intros [|]; discriminate).
  (* the line is dropped *)
  assert (Hdrop : forall m v, m = StartRecord \/ m = EatNewlineSkip -> len v < len p ->
            tokenize m [] "" (append v (String newline (list_text l))) = Ok ls -> False).
  { intros m v Hm Hv Ht. apply size_bound in Ht; auto.
    - rewrite append_length in Ht. cbn [len] in Ht. destruct Hm as [-> | ->]; cbn in Ht; lia.
    - intro Hx. contradiction (Hne v). }
  assert (Hgone : tokenize StartRecord [] "" (list_text l) = Ok ls -> False).
  { intro Ht. apply size_bound in Ht; [cbn in Ht; lia|auto|apply text_newline]. }
  destruct p as [|c0 p0].
  { cbn [append tokenize] in H. apply Hgone. exact H. }
  set (p := String c0 p0) in *.
  destruct (opens_quote p) eqn:Hq.
  { (* quoted *)
    unfold p in H. cbn in Hq. cbn [append tokenize] in H.
    assert (Hc : is_newline c0 = false /\ is_carriage c0 = false /\ blank c0 = false).
    { unfold is_quote in Hq. apply Ascii.eqb_eq in Hq. subst. repeat split; reflexivity. }
    rewrite (proj1 Hc), (proj1 (proj2 Hc)), (proj2 (proj2 Hc)), Hq in H.
    apply size_bound in H; auto.
    - rewrite append_length in H. unfold p in Hsize. cbn in H, Hsize. lia. }
  destruct (split_special p) as [Hcl|(u & c & v & Hu & Hcl & Hsp)].
  - (* only blanks *)
    unfold good_line in Hp. rewrite Hcl, Hq in Hp. change (negb false) with true in Hp. rewrite andb_true_r, andb_true_l in Hp.
    apply negb_false_iff in Hp.
    rewrite (read_start p _ Hcl Hq) in H by discriminate. rewrite Hp in H. cbn [tokenize] in H. exact (Hgone H).
  - rewrite Hu, append_assoc in H. cbn [append] in H.
    assert (Huv : len v < len p) by (rewrite Hu, append_length; cbn; lia).
    (* the line ends after u *)
    assert (Hin : forall f, f = u -> tokenize InField [] f (String c (append v (String newline (list_text l)))) = Ok ls -> False).
    { intros f -> Ht. cbn [tokenize] in Ht.
      assert (Hx : exists line ls', ls = line :: ls' /\ hd ""%string line = u).
      { destruct (is_newline c) eqn:E1.
        - match type of Ht with bind ?x _ = _ => destruct x end; cbn in Ht; [|discriminate]. injection Ht as <-. cbn. eauto.
        - destruct (is_carriage c) eqn:E2; [eapply first_field; [|exact Ht]; auto 10|].
          destruct (is_comma c) eqn:E3; [eapply first_field; [|exact Ht]; auto 10|].
          unfold special in Hsp. rewrite E1, E2, E3 in Hsp. discriminate. }
      destruct Hx as (line & ls' & Hl & Hh). apply Hfirst in Hl. rewrite Hh in Hl.
      apply (append_cancel u c v). congruence. }
    destruct u as [|d u].
    + cbn [append tokenize] in H. destruct (is_newline c) eqn:E1; [exact (Hdrop _ v (or_introl eq_refl) Huv H)|].
      destruct (is_carriage c) eqn:E2; [exact (Hdrop _ v (or_intror eq_refl) Huv H)|].
      destruct (is_comma c) eqn:E3; [|unfold special in Hsp; rewrite E1, E2, E3 in Hsp; discriminate].
      unfold is_comma in E3. apply Ascii.eqb_eq in E3. subst c. cbn [blank Ascii.eqb is_quote orb] in H.
      change (blank comma) with false in H. change (is_quote comma) with false in H. cbv iota in H.
      assert (Hx : exists line ls', ls = line :: ls' /\ hd ""%string line = ""%string)
        by (eapply first_field; [|exact H]; auto 10).
      destruct Hx as (line & ls' & Hl & Hh). apply Hfirst in Hl. rewrite Hh in Hl. discriminate.
    + assert (Hq' : opens_quote (String d u) = false) by (rewrite Hu in Hq; exact Hq).
      rewrite (read_start (String d u) _ Hcl Hq') in H by discriminate.
      destruct (every blank (String d u)) eqn:Eb; [|exact (Hin _ eq_refl H)].
      cbn [tokenize] in H. destruct (is_newline c) eqn:E1; [exact (Hdrop _ v (or_introl eq_refl) Huv H)|].
      destruct (is_carriage c) eqn:E2; [exact (Hdrop _ v (or_intror eq_refl) Huv H)|].
      destruct (is_comma c) eqn:E3; [|unfold special in Hsp; rewrite E1, E2, E3 in Hsp; discriminate].
      assert (Eb' : blank c = false) by (unfold is_comma in E3; apply Ascii.eqb_eq in E3; subst; reflexivity).
      rewrite Eb' in H. apply (Hin _ eq_refl). cbn [tokenize]. rewrite E1, E2, E3. exact H.
Qed.

Lemma good_lines l : forall ls, tokenize StartRecord [] "" (list_text l) = Ok ls -> map (hd ""%string) ls = l ->
  forallb good_line l = true.
Proof.
  induction l as [|p l IH]; intros ls H E; [reflexivity|]. cbn [list_text] in H. cbn [forallb].
  destruct (good_line p) eqn:Hp; [|exfalso; exact (bad_line p l ls Hp H E)].
  rewrite (tokenize_line p _ Hp) in H. destruct (tokenize StartRecord [] "" (list_text l)) as [ls'|] eqn:Et; cbn in H; [|discriminate].
  injection H as <-. cbn in E. injection E as E. exact (IH ls' eq_refl E).
Qed.

Lemma round_trip l : get_files_list (Some (list_text l)) = Ok (map Some l) <->
  l <> [] /\ forall p, In p l -> good_line p = true /\ is_na p = false.
Proof.
  cbn [get_files_list]. split.
  - intro H. assert (Hl : l <> []) by (intros ->; discriminate H). unfold read_column in H. destruct (tokenize StartRecord [] "" (list_text l)) as [ls|] eqn:Et; cbn [bind] in H; [|discriminate].
    destruct ls as [|l0 ls]; [discriminate|]. destruct (existsb _ _); [discriminate|].
    assert (E : map (fun l => let f := hd ""%string l in if is_na f then None else Some f) (l0 :: ls) = map Some l)
      by exact (f_equal (fun r => match r with Ok x => x | Err _ => [] end) H).
    clear H. revert Et E. generalize (l0 :: ls). clear l0 ls. intros ls Et E.
    assert (Hm : map (hd ""%string) ls = l /\ forallb (fun p => negb (is_na p)) l = true).
    { clear Et Hl. revert l E. induction ls as [|a ls IH]; intros [|p l] E; try discriminate; [auto|].
      cbn [map] in E. injection E as Ep E. cbv zeta in Ep. destruct (is_na (hd ""%string a)) eqn:En; [discriminate|].
      injection Ep as Ep. destruct (IH l E) as [I1 I2]. cbn [map forallb]. rewrite Ep, I1. split; auto. rewrite <- Ep, En. exact I2. }
    destruct Hm as [Hm Hn]. pose proof (good_lines l ls Et Hm) as Hg. split.
    + exact Hl.
    + intros p Hp. rewrite forallb_forall in Hg, Hn. split; [auto|]. apply negb_true_iff. auto.
  - intros [Hl H]. apply read_plain; auto; apply forallb_forall; intros p Hp; [apply H, Hp|].
    apply negb_true_iff. apply H, Hp.
Qed.

(** ** Plain paths *)

Lemma occurs_cons c d s : occurs c (String d s) <-> c = d \/ occurs c s.
Proof.
  split.
  - intros ([|a u] & v & H); cbn in H; injection H as -> H; [auto|]. right. exists u, v. exact H.
  - intros [->|(u & v & ->)]; [exists ""%string, s; reflexivity|]. exists (String d u), v. reflexivity.
Qed.
Lemma occurs_nil c : ~ occurs c "".
Proof. intros ([|a u] & v & H); discriminate. Qed.

Lemma clean_spec p : clean p = true <-> ~ occurs "," p /\ ~ occurs "010" p /\ ~ occurs "013" p.
Proof.
  induction p as [|c p IH]; cbn.
  - split; auto using occurs_nil.
  - rewrite andb_true_iff, IH, negb_true_iff, !occurs_cons. unfold special, is_newline, is_carriage, is_comma.
    rewrite !orb_false_iff, !Ascii.eqb_neq. unfold newline, carriage, comma. intuition congruence.
Qed.

Lemma blank_spec p : every blank p = false <-> exists c, occurs c p /\ c <> " "%char /\ c <> "009"%char.
Proof.
  induction p as [|c p IH]; cbn.
  - split; [discriminate|]. intros (c & H & _). destruct (occurs_nil c H).
  - rewrite andb_false_iff, IH. unfold blank, tab. rewrite orb_false_iff, !Ascii.eqb_neq. split.
    + intros [[H1 H2]|(d & H & H1 & H2)]; [exists c|exists d]; rewrite occurs_cons; auto.
    + intros (d & H & H1 & H2). apply occurs_cons in H as [->|H]; [auto|]. right. exists d. auto.
Qed.

Lemma plain_spec p : plain p <-> good_line p = true /\ is_na p = false.
Proof.
  unfold good_line. rewrite !andb_true_iff, !negb_true_iff, clean_spec, blank_spec.
  assert (Hq : opens_quote p = false <-> forall q, p <> String """" q).
  { destruct p as [|c p]; cbn; [split; [discriminate|reflexivity]|]. unfold is_quote, quote. rewrite Ascii.eqb_neq.
    split; [intros H q E; injection E as E _; contradiction|]. intros H E. subst. exact (H p eq_refl). }
  assert (Hna : is_na p = false <-> ~ In p na_values).
  { unfold is_na. rewrite <- not_true_iff_false, existsb_exists. split.
    - intros H Hin. apply H. exists p. split; [exact Hin|apply String.eqb_refl].
    - intros H (x & Hx & E). apply String.eqb_eq in E. subst. contradiction. }
  rewrite Hq, Hna. unfold plain. split.
  - intros (H1 & H2 & H3 & H4 & H5 & H6). split; [auto|]. intros [E|Hin]; [|contradiction].
    subst. destruct H5 as (c & H5 & _). destruct (occurs_nil c H5).
  - intros [[[[H1 [H2 H3]] H4] H5] H6]. repeat split; auto. intro Hin. apply H6. right. exact Hin.
Qed.

Lemma round_trip_iff l : get_files_list (Some (list_text l)) = Ok (map Some l) <-> l <> [] /\ forall p, In p l -> plain p.
Proof.
  rewrite round_trip. split; intros [H1 H2]; (split; [exact H1|]); intros p Hp; apply plain_spec; auto.
Qed.
