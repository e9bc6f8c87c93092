(** Lemmas about FileUtils.v: file search and the script that lists the input files. *)
From Coq Require Import Lia Permutation.
From Verif Require Import Base FileUtils SpecText FileUtilsFacts.
Open Scope string_scope.

(** ** Strings *)

Lemma append_assoc a b c : append (append a b) c = append a (append b c).
Proof. induction a as [|x a IH]; cbn; [reflexivity|]. f_equal. exact IH. Qed.
Lemma append_nil_r a : append a "" = a.
Proof. induction a as [|x a IH]; cbn; [reflexivity|]. f_equal. exact IH. Qed.
Lemma append_inj a b c : append a b = append a c -> b = c.
Proof. induction a as [|x a IH]; cbn; [auto|]. intro H. injection H as H. auto. Qed.

(** ** Matching *)

Definition no_wild (p : string) : Prop := ~ occurs "*" p /\ ~ occurs "?" p.

Lemma no_wild_cons c p : no_wild (String c p) <-> c <> "*"%char /\ c <> "?"%char /\ no_wild p.
Proof. unfold no_wild. rewrite !occurs_cons. intuition congruence. Qed.

Lemma glob_star p : forall s, glob (String "*" p) s = true <-> exists u v, s = append u v /\ glob p v = true.
Proof.
  induction s as [|c s IH].
  - change (glob (String "*" p) "") with (glob p "" || false)%bool. rewrite orb_false_r. split.
    + intro H. exists "", "". auto.
    + intros (u & v & E & H). destruct u; [|discriminate]. cbn in E. subst. exact H.
  - change (glob (String "*" p) (String c s)) with (glob p (String c s) || glob (String "*" p) s)%bool.
    rewrite orb_true_iff, IH. split.
    + intros [H|(u & v & -> & H)]; [exists "", (String c s); auto|]. exists (String c u), v. auto.
    + intros (u & v & E & H). destruct u as [|d u].
      * left. cbn in E. subst. exact H.
      * right. cbn in E. injection E as -> ->. exists u, v. auto.
Qed.

Lemma glob_any s : glob "*" s = true.
Proof. apply glob_star. exists s, "". rewrite append_nil_r. auto. Qed.

Lemma glob_prefix p : no_wild p -> forall s, glob (append p "*") s = true <-> exists v, s = append p v.
Proof.
  induction p as [|c p IH]; intros Hp s.
  - cbn [append]. split; [intros _; exists s; reflexivity|]. intros _. apply glob_any.
  - apply no_wild_cons in Hp as (H1 & H2 & Hp). cbn [append glob].
    apply Ascii.eqb_neq in H1, H2. rewrite H1, H2. cbn [orb].
    destruct s as [|d s]; [split; [discriminate|intros (v & E); discriminate]|].
    rewrite andb_true_iff, IH by exact Hp. rewrite Ascii.eqb_eq. split.
    + intros [-> (v & ->)]. exists v. reflexivity.
    + intros (v & E). injection E as -> ->. split; [reflexivity|]. exists v. reflexivity.
Qed.

Lemma glob_substring p s : no_wild p -> glob (append "*" (append p "*")) s = true <-> substring_of p s.
Proof.
  intro Hp. cbn [append]. rewrite glob_star. unfold substring_of. split.
  - intros (u & v & -> & H). apply glob_prefix in H as (w & ->); [|exact Hp]. exists u, w. reflexivity.
  - intros (u & v & ->). exists u, (append p v). split; [reflexivity|]. apply glob_prefix; [exact Hp|]. exists v. reflexivity.
Qed.

(** ** Sorting *)

Lemma leb_total a b : String.leb a b = true \/ String.leb b a = true.
Proof. destruct (String.leb_total a b); auto. Qed.

Lemma compare_ascii_trans a b c : Ascii.compare a b = Lt -> Ascii.compare b c = Lt -> Ascii.compare a c = Lt.
Proof. unfold Ascii.compare. rewrite !N.compare_lt_iff. apply N.lt_trans. Qed.
Lemma compare_ascii_eq a b : Ascii.compare a b = Eq -> a = b.
Proof. apply Ascii.compare_eq_iff. Qed.

Lemma compare_trans a : forall b c, String.compare a b <> Gt -> String.compare b c <> Gt -> String.compare a c <> Gt.
Proof.
  induction a as [|x a IH]; intros [|y b] [|z c]; cbn; try congruence.
  destruct (Ascii.compare x y) eqn:E1; destruct (Ascii.compare y z) eqn:E2; try congruence.
  - apply compare_ascii_eq in E1, E2. subst. unfold Ascii.compare. rewrite N.compare_refl. apply IH.
  - apply compare_ascii_eq in E1. subst. rewrite E2. congruence.
  - apply compare_ascii_eq in E2. subst. rewrite E1. congruence.
  - rewrite (compare_ascii_trans _ _ _ E1 E2). congruence.
Qed.

Lemma leb_compare a b : String.leb a b = true <-> String.compare a b <> Gt.
Proof. unfold String.leb. destruct (String.compare a b); split; congruence. Qed.
Lemma leb_trans a b c : String.leb a b = true -> String.leb b c = true -> String.leb a c = true.
Proof. rewrite !leb_compare. apply compare_trans. Qed.

Lemma insert_perm x l : Permutation (insert_sorted x l) (x :: l).
Proof.
  induction l as [|y l IH]; cbn; [reflexivity|]. destruct (String.leb x y); [reflexivity|].
  rewrite IH. apply perm_swap.
Qed.
Lemma sorted_perm l : Permutation (sorted l) l.
Proof. induction l as [|x l IH]; cbn; [constructor|]. rewrite insert_perm. constructor. exact IH. Qed.
Lemma sorted_in l x : In x (sorted l) <-> In x l.
Proof. split; apply Permutation_in; [|symmetry]; apply sorted_perm. Qed.

Inductive chain : list string -> Prop :=
| chain_nil : chain []
| chain_cons x l : (forall y, In y l -> String.leb x y = true) -> chain l -> chain (x :: l).

Lemma chain_insert x l : chain l -> chain (insert_sorted x l).
Proof.
  induction 1 as [|y l Hy Hl IH]; cbn; [repeat constructor; intros y []|].
  destruct (String.leb x y) eqn:E.
  - constructor; [|constructor; assumption]. intros z [<-|Hz]; [exact E|]. exact (leb_trans _ _ _ E (Hy z Hz)).
  - constructor; [|exact IH]. intros z Hz. apply (Permutation_in z (insert_perm x l)) in Hz as [<-|Hz]; [|auto].
    destruct (leb_total x y); congruence.
Qed.
Lemma chain_sorted l : chain (sorted l).
Proof. induction l as [|x l IH]; cbn; [constructor|apply chain_insert, IH]. Qed.
Lemma chain_ascending l : chain l -> ascending l.
Proof.
  induction 1 as [|x l Hx Hl IH]; intros i j a b Hij Ha Hb; [destruct i; discriminate|].
  destruct j as [|j]; [lia|]. cbn in Hb. destruct i as [|i].
  - cbn in Ha. injection Ha as <-. apply Hx. exact (nth_error_In _ _ Hb).
  - cbn in Ha. apply (IH i j); auto. lia.
Qed.
Lemma sorted_ascending l : ascending (sorted l).
Proof. apply chain_ascending, chain_sorted. Qed.

(** ** Trees *)

Fixpoint node_rect' (P : node -> Prop) (Hf : P File)
  (Hd : forall entries, (forall n t, In (n, t) entries -> P t) -> P (Dir entries)) (t : node) : P t :=
  match t with
  | File => Hf
  | Dir entries => Hd entries
      ((fix go (l : list (string * node)) : forall n t, In (n, t) l -> P t :=
         match l with
         | [] => fun n t H => match H with end
         | e :: l' => fun n t H =>
             match H with
             | or_introl E => match E in _ = y return P (snd y) with eq_refl => node_rect' P Hf Hd (snd e) end
             | or_intror H' => go l' n t H'
             end
         end) entries)
  end.

Lemma rglob_in p t : forall root path,
  In path (rglob p root t) <-> exists name is_dir, entry t root path name is_dir /\ glob p name = true.
Proof.
  induction t as [|entries IH] using node_rect'; intros root path.
  - cbn. split; [intros []|]. intros (name & d & H & _). inversion H.
  - cbn [rglob]. rewrite in_flat_map. split.
    + intros ([n t] & Hin & H). cbn [fst snd] in H. rewrite in_app_iff in H. destruct H as [H|H].
      * destruct (glob p n) eqn:Eg; [|destruct H]. destruct H as [<-|[]].
        exists n, (match t with Dir _ => true | File => false end). split; [|exact Eg]. exact (entry_here _ _ _ _ Hin).
      * apply (IH n t Hin) in H as (name & d & H & Hg). exists name, d. split; [|exact Hg]. exact (entry_below _ _ _ _ _ _ _ Hin H).
    + intros (name & d & H & Hg). inversion H; subst.
      * exists (name, t). split; [assumption|]. cbn [fst snd]. rewrite Hg. left. reflexivity.
      * match goal with Hi : In (?n, ?t) entries, He : entry ?t _ _ _ _ |- _ => exists (n, t); split; [exact Hi|];
          cbn [fst snd]; apply in_app_iff; right; apply (IH n t Hi); exists name, d; auto end.
Qed.

(** ** Every path leads to one entry *)

Lemma entry_prefix t root path name d : entry t root path name d -> exists s, path = append root (String "/" s).
Proof.
  induction 1 as [root entries name t Hin|root entries dir t path name d Hin H (s & ->)].
  - exists name. reflexivity.
  - rewrite append_assoc. exists (append dir (String "/" s)). cbn. reflexivity.
Qed.

Lemma no_slash_split a b u v : ~ occurs "/" a -> ~ occurs "/" b ->
  append a (String "/" u) = append b (String "/" v) -> a = b.
Proof.
  revert b. induction a as [|c a IH]; intros [|d b] Ha Hb E; cbn in E; auto.
  - injection E as <- _. exfalso. apply Hb. apply occurs_cons. auto.
  - injection E as -> _. exfalso. apply Ha. apply occurs_cons. auto.
  - injection E as -> E. f_equal. apply IH; auto; rewrite occurs_cons in *; tauto.
Qed.

Lemma no_slash_end a b v : ~ occurs "/" a -> a = append b (String "/" v) -> False.
Proof. intros Ha E. apply Ha. exists b, v. exact E. Qed.

Lemma nodup_fst (entries : list (string * node)) n t t' :
  NoDup (map fst entries) -> In (n, t) entries -> In (n, t') entries -> t = t'.
Proof.
  induction entries as [|[m u] l IH]; cbn; intros Hn H1 H2; [destruct H1|]. inversion Hn; subst.
  destruct H1 as [E1|H1], H2 as [E2|H2].
  - congruence.
  - injection E1 as -> ->. exfalso. match goal with H : ~ In _ _ |- _ => apply H end. apply in_map_iff. exists (n, t'). auto.
  - injection E2 as -> ->. exfalso. match goal with H : ~ In _ _ |- _ => apply H end. apply in_map_iff. exists (n, t). auto.
  - auto.
Qed.

Lemma entry_unique t root path name d : entry t root path name d -> proper t ->
  forall name' d', entry t root path name' d' -> name = name' /\ d = d'.
Proof.
  induction 1 as [root entries name t Hin|root entries dir t path name d Hin H IH]; intros Hp name' d' H';
    inversion Hp as [|es Hn Hs]; subst; inversion H' as [r es' n' t' Hin'|r es' dir' t' p' n' d'' Hin' H'']; subst.
  - match goal with E : append _ _ = append _ _ |- _ => apply append_inj in E; injection E as E end. subst.
    split; [reflexivity|]. rewrite (nodup_fst _ _ _ _ Hn Hin Hin'). reflexivity.
  - exfalso. apply entry_prefix in H'' as (s & E). rewrite append_assoc in E. apply append_inj in E. cbn in E. injection E as E.
    apply (no_slash_end name dir' s); [|exact E]. exact (proj1 (Hs _ _ Hin)).
  - exfalso. apply entry_prefix in H as (s & E). rewrite append_assoc in E. apply append_inj in E. cbn in E. injection E as E.
    apply (no_slash_end name' dir s); [|exact E]. exact (proj1 (Hs _ _ Hin')).
  - assert (Ed : dir = dir').
    { pose proof (entry_prefix _ _ _ _ _ H) as (s & E). pose proof (entry_prefix _ _ _ _ _ H'') as (s' & E').
      rewrite E in E'. rewrite !append_assoc in E'. apply append_inj in E'. cbn in E'. injection E' as E'.
      apply (no_slash_split dir dir' s s'); [exact (proj1 (Hs _ _ Hin))|exact (proj1 (Hs _ _ Hin'))|exact E']. }
    subst. pose proof (nodup_fst _ _ _ _ Hn Hin Hin'). subst. apply IH; [exact (proj2 (proj2 (Hs _ _ Hin)))|exact H''].
Qed.

Lemma nodup_app {A} (a b : list A) : NoDup a -> NoDup b -> (forall x, In x a -> ~ In x b) -> NoDup (a ++ b)%list.
Proof.
  induction a as [|x a IH]; cbn; intros Ha Hb H; [exact Hb|]. inversion Ha; subst. constructor.
  - rewrite in_app_iff. intros [Hx|Hx]; [contradiction|]. exact (H x (or_introl eq_refl) Hx).
  - apply IH; auto.
Qed.

Lemma rglob_prefix p t root path : In path (rglob p root t) -> exists s, path = append root (String "/" s).
Proof. intro H. apply rglob_in in H as (n & d & H & _). exact (entry_prefix _ _ _ _ _ H). Qed.

Lemma rglob_nodup p t : forall root, proper t -> NoDup (rglob p root t).
Proof.
  induction t as [|entries IH] using node_rect'; intros root Hp; [constructor|]. cbn [rglob].
  inversion Hp as [|es Hn Hs]; subst. clear Hp.
  assert (IH' : forall n t, In (n, t) entries -> forall root, NoDup (rglob p root t))
    by (intros n t H r; apply (IH n t H r); exact (proj2 (proj2 (Hs _ _ H)))). clear IH.
  induction entries as [|[n t] l IHl]; cbn [flat_map]; [constructor|]. cbn [map] in Hn. inversion Hn as [|? ? Hnot Hn']; subst.
  apply nodup_app.
  - cbn [fst snd]. apply nodup_app.
    + destruct (glob p n); repeat constructor; intros [].
    + apply (IH' n t). left. reflexivity.
    + intros x Hx Hr. destruct (glob p n); [|destruct Hx]. destruct Hx as [<-|[]].
      apply rglob_prefix in Hr as (s & E). rewrite append_assoc in E. apply append_inj in E. cbn in E. injection E as E.
      apply (no_slash_end n n s); [|exact E]. exact (proj1 (Hs _ _ (or_introl eq_refl))).
  - apply IHl; auto; intros m u H; [apply Hs|apply (IH' m u)]; right; exact H.
  - intros x Hx Hr. apply in_flat_map in Hr as ([m u] & Hin & Hr). cbn [fst snd] in Hx, Hr.
    assert (Hq : forall k w, In x ((if glob p k then [append root (append "/" k)] else []) ++ rglob p (append root (append "/" k)) w)%list ->
        (exists s, x = append root (String "/" (append k s)) /\ (s = "" \/ exists s', s = String "/" s'))).
    { intros k w H. apply in_app_iff in H as [H|H].
      - destruct (glob p k); [|destruct H]. destruct H as [<-|[]]. exists "". rewrite append_nil_r. auto.
      - apply rglob_prefix in H as (s & ->). rewrite append_assoc. cbn. exists (String "/" s). split; [reflexivity|]. right. eauto. }
    destruct (Hq n t Hx) as (s1 & E1 & D1). destruct (Hq m u Hr) as (s2 & E2 & D2). rewrite E1 in E2. apply append_inj in E2.
    injection E2 as E2. clear Hq.
    assert (Hnm : n = m).
    { pose proof (proj1 (Hs _ _ (or_introl eq_refl))) as S1. pose proof (proj1 (Hs m u (or_intror Hin))) as S2.
      destruct D1 as [->|(a & ->)], D2 as [->|(b & ->)]; rewrite ?append_nil_r in E2.
      - exact E2.
      - destruct (no_slash_end n m b S1 E2).
      - symmetry in E2. destruct (no_slash_end m n a S2 E2).
      - exact (no_slash_split n m a b S1 S2 E2). }
    subst. apply Hnot. apply in_map_iff. exists (m, u). auto.
Qed.

(** ** The search *)

Lemma find_in root t pattern path : no_wild pattern ->
  In path (find_files_with_pattern root t pattern) <->
  exists name is_dir, entry t root path name is_dir /\ substring_of pattern name.
Proof.
  intro Hp. unfold find_files_with_pattern. rewrite sorted_in, rglob_in.
  split; intros (n & d & H & Hg); exists n, d; (split; [exact H|]); apply (glob_substring pattern n Hp); exact Hg.
Qed.

Lemma find_nodup root t pattern : proper t -> NoDup (find_files_with_pattern root t pattern).
Proof.
  intro H. unfold find_files_with_pattern. apply (Permutation_NoDup (l := rglob (append "*" (append pattern "*")) root t)).
  - symmetry. apply sorted_perm.
  - apply rglob_nodup, H.
Qed.

(** ** The script *)

Lemma prefix_iff a : forall b, prefix a b = true <-> exists v, b = append a v.
Proof.
  induction a as [|c a IH]; intros [|d b]; cbn; try (split; eauto; fail); [split; [discriminate|intros (v & E); discriminate]|].
  destruct (ascii_dec c d) as [->|Hd].
  - rewrite IH. split; intros (v & E); exists v; [rewrite E; reflexivity|injection E as E; exact E].
  - split; [discriminate|]. intros (v & E). injection E as E _. congruence.
Qed.

Lemma contains_iff a b : contains a b = true <-> substring_of a b.
Proof.
  unfold substring_of. induction b as [|c b IH]; cbn [contains]; rewrite orb_true_iff, prefix_iff.
  - split.
    + intros [(v & E)|H]; [|discriminate]. exists "", v. exact E.
    + intros (u & v & E). destruct u; [|discriminate]. left. exists v. exact E.
  - rewrite IH. split.
    + intros [(v & E)|(u & v & E)]; [exists "", v; exact E|]. exists (String c u), v. cbn. f_equal. exact E.
    + intros (u & v & E). destruct u as [|d u]; [left; exists v; exact E|]. right. cbn in E. injection E as -> E. exists u, v. exact E.
Qed.

Lemma is_nil_sorted (f : string -> bool) l : is_nil (sorted (filter f l)) = true <-> forall p, In p l -> f p = false.
Proof.
  split.
  - intros H p Hp. destruct (f p) eqn:E; [|reflexivity].
    assert (Hin : In p (sorted (filter f l))) by (apply sorted_in, filter_In; auto).
    destruct (sorted (filter f l)); [destruct Hin|discriminate].
  - intro H. destruct (sorted (filter f l)) as [|x m] eqn:E; [reflexivity|]. exfalso.
    assert (Hin : In x (sorted (filter f l))) by (rewrite E; left; reflexivity).
    apply sorted_in, filter_In in Hin as [Hx Hf]. rewrite (H x Hx) in Hf. discriminate.
Qed.

Lemma is_nil_none word l : is_nil (sorted (filter (contains word) l)) = true <-> ~ exists p, In p l /\ substring_of word p.
Proof.
  rewrite is_nil_sorted. split.
  - intros H (p & Hp & Hs). apply contains_iff in Hs. rewrite (H p Hp) in Hs. discriminate.
  - intros H p Hp. destruct (contains word p) eqn:E; [|reflexivity]. exfalso. apply H. exists p. split; [exact Hp|]. apply contains_iff, E.
Qed.

Lemma warnings_in l w : In w (fst (create_list l)) <->
  match w with
  | No_velocity => ~ exists p, In p l /\ substring_of "velocities" p
  | No_coordinate | No_particle => ~ exists p, In p l /\ substring_of "coordinate" p
  end.
Proof.
  pose proof (is_nil_none "velocities" l) as H1. pose proof (is_nil_none "coordinate" l) as H2.
  unfold create_list. cbv zeta. cbn [fst].
  destruct (is_nil (sorted (filter (contains "velocities") l))), (is_nil (sorted (filter (contains "coordinate") l)));
    destruct w; rewrite <- ?H1, <- ?H2; cbn; intuition congruence.
Qed.

Lemma list_in word l p : In p (sorted (filter (contains word) l)) <-> In p l /\ substring_of word p.
Proof. rewrite sorted_in, filter_In, contains_iff. reflexivity. Qed.

(** ** Statements used by PropFileUtils.v *)

Lemma find_entries root t pattern path :
  (forall c, In c ["*"; "?"; "["; "/"]%char -> ~ occurs c pattern) -> pattern <> "" ->
  In path (find_files_with_pattern root t pattern) <->
  exists name is_dir, entry t root path name is_dir /\ substring_of pattern name.
Proof. intros H _. apply find_in. split; apply H; cbn; auto. Qed.

Lemma find_order root t pattern : proper t ->
  ascending (find_files_with_pattern root t pattern) /\ NoDup (find_files_with_pattern root t pattern).
Proof. intro H. split; [apply sorted_ascending|apply find_nodup, H]. Qed.

Lemma find_files_only root t pattern path :
  (forall c, In c ["*"; "?"; "["; "/"]%char -> ~ occurs c pattern) -> pattern <> "" ->
  (forall path name, entry t root path name true -> ~ substring_of pattern name) ->
  In path (find_files_with_pattern root t pattern) <->
  exists name, entry t root path name false /\ substring_of pattern name.
Proof.
  intros H Hp Hd. rewrite (find_entries root t pattern path H Hp). split.
  - intros (n & [|] & He & Hs); [destruct (Hd _ _ He Hs)|]. exists n. auto.
  - intros (n & He & Hs). exists n, false. auto.
Qed.

(** A tree with a directory whose name matches. *)
Definition tree : node :=
  Dir [("b.mat", File); ("run.mats", Dir [("c.mat", File); ("notes.txt", File)]); ("a.mat", File)].
Definition small_tree : node :=
  Dir [("b.mat", File); ("run", Dir [("c.mat", File); ("notes.txt", File)]); ("a.mat", File)].

Lemma dot_mat_plain : (forall c, In c ["*"; "?"; "["; "/"]%char -> ~ occurs c ".mat") /\ ".mat" <> "".
Proof.
  split; [|discriminate]. intros c Hc H. repeat (apply occurs_cons in H as [->|H]; [cbn in Hc; intuition discriminate|]).
  exact (occurs_nil _ H).
Qed.

Lemma tree_proper : proper tree.
Proof.
  assert (Hs : forall n, forallb (fun c => negb (Ascii.eqb c "/")) (list_ascii_of_string n) = true -> ~ occurs "/" n).
  { intros n H (u & v & ->). rewrite forallb_forall in H.
    specialize (H "/"%char). assert (Hi : In "/"%char (list_ascii_of_string (append u (String "/" v)))).
    { clear H. induction u as [|c u IH]; cbn; auto. } specialize (H Hi). discriminate. }
  unfold tree. constructor.
  - cbn. repeat constructor; cbn; intuition discriminate.
  - intros n t H. cbn in H. destruct H as [E|[E|[E|[]]]]; injection E as <- <-;
      (split; [apply Hs; reflexivity|]; split; [discriminate|]); try constructor.
    + cbn. repeat constructor; cbn; intuition discriminate.
    + intros n t H. cbn in H. destruct H as [E|[E|[]]]; injection E as <- <-;
        (split; [apply Hs; reflexivity|]; split; [discriminate|constructor]).
Qed.

Lemma tree_search : find_files_with_pattern "/data" tree ".mat" =
  ["/data/a.mat"; "/data/b.mat"; "/data/run.mats"; "/data/run.mats/c.mat"].
Proof. reflexivity. Qed.

Lemma find_refuted : exists root t pattern path,
  proper t /\ (forall c, In c ["*"; "?"; "["; "/"]%char -> ~ occurs c pattern) /\ pattern <> "" /\
  In path (find_files_with_pattern root t pattern) /\ forall name, ~ entry t root path name false.
Proof.
  exists "/data", tree, ".mat", "/data/run.mats". split; [exact tree_proper|]. split; [exact (proj1 dot_mat_plain)|].
  split; [discriminate|]. split; [rewrite tree_search; cbn; auto|].
  intros name H. assert (H' : entry tree "/data" "/data/run.mats" "run.mats" true).
  { refine (entry_here "/data" _ "run.mats" (Dir [("c.mat", File); ("notes.txt", File)]) _). cbn. auto. }
  destruct (entry_unique _ _ _ _ _ H tree_proper _ _ H') as [_ E]. discriminate.
Qed.

Lemma small_tree_entries path name d : entry small_tree "/data" path name d -> d = negb (contains ".mat" name || contains ".txt" name).
Proof.
  intro H. unfold small_tree in H. inversion H as [r es n t Hin Er Ep En Et|r es dir t p n d' Hin H' Er Ep En]; subst.
  - cbn in Hin. destruct Hin as [E|[E|[E|[]]]]; injection E as <- <-; reflexivity.
  - clear H. cbn in Hin. destruct Hin as [E|[E|[E|[]]]]; injection E as <- <-;
      inversion H' as [r' es' n' t' Hin' Er' Ep' Enn Ett|r' es' dir' t' p' n' d'' Hin' H'']; subst;
      cbn in Hin'; destruct Hin' as [E|[E|[]]]; injection E as <- <-; first [reflexivity|inversion H''].
Qed.
Lemma small_tree_dirs path name : entry small_tree "/data" path name true -> ~ substring_of ".mat" name.
Proof.
  intros H Hs. apply contains_iff in Hs. apply small_tree_entries in H. rewrite Hs in H. discriminate.
Qed.

Lemma small_search : find_files_with_pattern "/data" small_tree ".mat" = ["/data/a.mat"; "/data/b.mat"; "/data/run/c.mat"].
Proof. reflexivity. Qed.

Lemma script_lists l : let '(v, c, p) := snd (create_list l) in
  (ascending v /\ forall f, In f v <-> In f l /\ substring_of "velocities" f) /\
  (ascending c /\ forall f, In f c <-> In f l /\ substring_of "coordinate" f) /\
  (ascending p /\ forall f, In f p <-> In f l /\ substring_of "particles" f).
Proof. cbn. repeat split; try apply sorted_ascending; try (apply list_in; assumption); apply list_in in H; tauto. Qed.

Lemma script_refuted : exists l, (~ exists p, In p l /\ substring_of "particles" p) /\ ~ In No_particle (fst (create_list l)).
Proof.
  exists ["/d/velocities.mat"; "/d/coordinate.mat"]. split; [|cbn; tauto].
  intros (p & Hp & Hs). apply contains_iff in Hs. cbn in Hp. destruct Hp as [<-|[<-|[]]]; discriminate.
Qed.

Lemma script_right l :
  (In No_velocity (fst (create_list l)) <-> ~ exists p, In p l /\ substring_of "velocities" p) /\
  (In No_coordinate (fst (create_list l)) <-> ~ exists p, In p l /\ substring_of "coordinate" p).
Proof. split; apply warnings_in. Qed.
Lemma script_particle l : In No_particle (fst (create_list l)) <-> ~ exists p, In p l /\ substring_of "coordinate" p.
Proof. apply warnings_in. Qed.

Lemma comma_path : get_files_list (Some (list_text ["run,1.mat"])) = Ok [Some "run"].
Proof. reflexivity. Qed.
Lemma list_refuted : exists l, get_files_list (Some (list_text l)) <> Ok (map Some l).
Proof. exists ["run,1.mat"]. rewrite comma_path. discriminate. Qed.
Lemma list_empty : get_files_list (Some (list_text [])) = Err EmptyDataError.
Proof. reflexivity. Qed.
Lemma list_case : let l := ["/data/velocity 1.mat"; "/data/x""y"""] in l <> [] /\ (forall p, In p l -> plain p) /\
  get_files_list (Some (list_text l)) = Ok (map Some l).
Proof.
  cbv zeta. split; [discriminate|]. split; [|reflexivity]. intros p Hp. apply plain_spec.
  cbn in Hp. destruct Hp as [<-|[<-|[]]]; vm_compute; auto.
Qed.
