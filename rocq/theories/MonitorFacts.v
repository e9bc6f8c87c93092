(** The progress monitor on all interleavings. *)
From Coq Require Import Lia Permutation.
From Verif Require Import Base Num Particles Solver Monitor Executor SpecExecutor ExecutorFacts.

Lemma Forall2_length {A B} {P : A -> B -> Prop} {l m} : Forall2 P l m -> length l = length m.
Proof. induction 1; cbn; auto. Qed.

(** Every bar belongs to one of [names]; bars have distinct ids; rows are shared out between bars and
    free slots. *)
Record minv (n : Z) (m : monitor) (names : list (option string)) : Prop := {
  mi_ids : NoDup (map b_id (m_bars m));
  mi_names : forall b, In b (m_bars m) -> In (Some (b_id b)) names;
  mi_rows : Permutation (rows m ++ map Z.abs (m_free m)) (map Z.of_nat (seq 1 (Z.to_nat n)))
}.

Lemma minv_start n names : minv n (monitor_start n) names.
Proof.
  constructor; cbn; try constructor; try tauto.
  unfold rows. cbn. rewrite map_map. erewrite map_ext; [apply Permutation_refl|]. intro x. cbn. lia.
Qed.

Lemma minv_tidy n m names : minv n m names -> tidy n m.
Proof.
  intros [A B C].
  assert (Hd : NoDup (rows m ++ map Z.abs (m_free m))).
  { apply (Permutation_NoDup (Permutation_sym C)). apply FinFun.Injective_map_NoDup; [|apply seq_NoDup].
    intros x y. lia. }
  assert (Hr : forall r, In r (rows m) -> (1 <= r <= n)%Z).
  { intros r Hr. assert (Hi : In r (map Z.of_nat (seq 1 (Z.to_nat n)))).
    { apply (Permutation_in _ C). apply in_app_iff. auto. }
    apply in_map_iff in Hi as (k & <- & Hk). apply in_seq in Hk. lia. }
  split; [|split]; auto.
  - pose proof (Permutation_length C) as H. rewrite app_length, !map_length, seq_length in H. unfold rows in H.
    rewrite map_length in H. lia.
  - clear -Hd. revert Hd. generalize (map Z.abs (m_free m)). intro l.
    induction (rows m) as [|r rs IH]; cbn; intro H; [constructor|]. inversion H; subst. constructor; auto.
    intro Hx. apply H2, in_app_iff. auto.
Qed.

Lemma find_bar_none id bars : find_bar id bars = None <-> ~ In id (map b_id bars).
Proof.
  unfold find_bar. induction bars as [|b bars IH]; cbn; [tauto|].
  destruct (String.eqb_spec (b_id b) id) as [E|E].
  - split; [discriminate|]. intro H. tauto.
  - rewrite IH. tauto.
Qed.

Lemma find_bar_some id bars b : find_bar id bars = Some b -> In b bars /\ b_id b = id.
Proof.
  intro H. unfold find_bar in H. apply find_some in H as [H1 H2]. apply String.eqb_eq in H2. auto.
Qed.

Lemma drop_bar_permutation id bars b :
  NoDup (map b_id bars) -> find_bar id bars = Some b -> Permutation bars (b :: drop_bar id bars).
Proof.
  unfold find_bar, drop_bar. induction bars as [|a bars IH]; cbn; [discriminate|]. intros Hd Hf.
  inversion Hd as [|x l Hx Hl]; subst. destruct (String.eqb_spec (b_id a) id) as [E|E]; cbn.
  - injection Hf as ->. constructor. subst id.
    assert (Hn : forall x, In x bars -> negb (String.eqb (b_id x) (b_id b)) = true).
    { intros x Hi. apply negb_true_iff, String.eqb_neq. intro Hc. apply Hx. rewrite <- Hc. now apply in_map. }
    clear -Hn. induction bars as [|a bars IH]; cbn; [constructor|]. rewrite Hn by (cbn; auto).
    constructor. apply IH. intros x Hx. apply Hn. cbn. auto.
  - apply Permutation_trans with (a :: b :: filter (fun b0 => negb (String.eqb (b_id b0) id)) bars).
    + constructor. apply IH; assumption.
    + constructor.
Qed.

Lemma show_ids id k bars : map b_id (show id k bars) = map b_id bars.
Proof.
  unfold show. rewrite map_map. apply map_ext. intro b. now destruct (String.eqb (b_id b) id).
Qed.

Lemma show_positions id k bars : map b_position (show id k bars) = map b_position bars.
Proof.
  unfold show. rewrite map_map. apply map_ext. intro b. now destruct (String.eqb (b_id b) id).
Qed.

Lemma rows_positions m : rows m = map Z.abs (map b_position (m_bars m)).
Proof. unfold rows. now rewrite map_map. Qed.

Lemma minv_length n m names : minv n m names -> length (m_bars m) + length (m_free m) = Z.to_nat n.
Proof.
  intros [_ _ C]. pose proof (Permutation_length C) as H. rewrite app_length, !map_length, seq_length in H.
  unfold rows in H. rewrite map_length in H. exact H.
Qed.

Lemma minv_show n m names id k :
  minv n m names -> minv n (Monitor (show id k (m_bars m)) (m_free m) (m_finished m)) names.
Proof.
  intros [A B C]. constructor; cbn [m_bars m_free].
  - now rewrite show_ids.
  - intros b Hb. assert (Hi : In (b_id b) (map b_id (show id k (m_bars m)))) by (now apply in_map).
    rewrite show_ids in Hi. apply in_map_iff in Hi as (b' & <- & Hb'). auto.
  - rewrite rows_positions in *. cbn [m_bars m_free]. now rewrite show_positions.
Qed.

(** One message of a worker in the middle of task [id], or about to begin it. *)
Lemma read_progress n m l1 c l2 id k :
  minv n m (l1 ++ c :: l2) -> length (l1 ++ c :: l2) <= Z.to_nat n -> c = None \/ c = Some id ->
  exists m', monitor_read m (Progress id k) = Ok m' /\ minv n m' (l1 ++ Some id :: l2) /\
    m_finished m' = m_finished m.
Proof.
  intros I Hl Hc. pose proof (minv_length _ _ _ I) as Hlen. destruct I as [A B C].
  assert (Hw : forall b, In b (m_bars m) -> In (Some (b_id b)) (l1 ++ Some id :: l2)).
  { intros b Hb. apply B in Hb. rewrite in_app_iff in *. cbn in *. destruct Hc as [->| ->]; intuition discriminate. }
  unfold monitor_read. destruct (find_bar id (m_bars m)) as [b|] eqn:Ef.
  - rewrite Ef. eexists. split; [reflexivity|]. split; [|reflexivity]. apply minv_show. constructor; auto.
  - assert (Hnone := proj1 (find_bar_none _ _) Ef).
    assert (Hshort : length (m_bars m) <= length (l1 ++ l2)).
    { rewrite <- (map_length (fun b => Some (b_id b)) (m_bars m)). apply NoDup_incl_length.
      - rewrite <- (map_map b_id Some). apply FinFun.Injective_map_NoDup; [|exact A]. intros x y H. congruence.
      - intros x Hx. apply in_map_iff in Hx as (b & <- & Hb). pose proof (B b Hb) as Hi.
        rewrite in_app_iff in *. cbn in Hi. destruct Hi as [Hi|[Hi|Hi]]; auto. exfalso.
        destruct Hc as [->| ->]; [discriminate|]. injection Hi as Hi. apply Hnone. rewrite Hi. now apply in_map. }
    rewrite app_length in *. cbn in Hl. destruct (m_free m) as [|pos rest] eqn:Er; [cbn in Hlen; lia|].
    cbn [m_bars m_free m_finished].
    assert (Hfind : find_bar id (m_bars m ++ [Bar id pos 0]) = Some (Bar id pos 0)).
    { clear -Hnone. unfold find_bar. induction (m_bars m) as [|b bs IH]; cbn.
      - now rewrite String.eqb_refl.
      - destruct (String.eqb_spec (b_id b) id) as [E|E]; [exfalso; apply Hnone; cbn; auto|].
        apply IH. intro H. apply Hnone. cbn. auto. }
    rewrite Hfind. eexists. split; [reflexivity|]. split; [|reflexivity].
    apply (minv_show n (Monitor (m_bars m ++ [Bar id pos 0]) rest (m_finished m))). constructor; cbn.
    + rewrite map_app. cbn. apply NoDup_mid. rewrite app_nil_r. constructor; auto.
    + intros b Hb. apply in_app_iff in Hb as [Hb|[<-|[]]]; auto. cbn. rewrite in_app_iff. cbn. auto.
    + unfold rows in *. cbn. rewrite map_app. cbn. rewrite <- app_assoc. cbn. exact C.
Qed.

Lemma read_done n m l1 c l2 id :
  minv n m (l1 ++ c :: l2) -> c = None \/ c = Some id ->
  exists m', monitor_read m (Done id) = Ok m' /\ minv n m' (l1 ++ None :: l2) /\
    m_finished m' = 1 + m_finished m.
Proof.
  intros [A B C] Hc. unfold monitor_read. destruct (find_bar id (m_bars m)) as [b|] eqn:Ef.
  - eexists. split; [reflexivity|]. split; [|reflexivity].
    pose proof (drop_bar_permutation _ _ _ A Ef) as Hp. pose proof (find_bar_some _ _ _ Ef) as [Hb Hid].
    constructor; cbn.
    + apply (Permutation_map b_id) in Hp. apply (Permutation_NoDup Hp) in A. cbn in A. now inversion A.
    + intros x Hx. unfold drop_bar in Hx. apply filter_In in Hx as [Hx Hn]. apply B in Hx.
      rewrite in_app_iff in *. cbn in *. destruct Hx as [Hx|[Hx|Hx]]; auto.
      destruct Hc as [->| ->]; [discriminate|]. injection Hx as Hx. rewrite <- Hx, String.eqb_refl in Hn. discriminate.
    + apply Permutation_trans with (2 := C). unfold rows. cbn.
      apply (Permutation_map (fun b => Z.abs (b_position b))) in Hp. cbn in Hp.
      rewrite Hp, map_app. cbn. rewrite Z.abs_opp. rewrite app_assoc.
      apply Permutation_sym, Permutation_cons_append.
  - eexists. split; [reflexivity|]. split; [|reflexivity].
    assert (Hnone := proj1 (find_bar_none _ _) Ef). constructor; cbn; auto.
    intros b Hb. pose proof (B b Hb) as Hi. rewrite in_app_iff in *. cbn in *.
    destruct Hi as [Hi|[Hi|Hi]]; auto. exfalso. destruct Hc as [->| ->]; [discriminate|].
    injection Hi as Hi. apply Hnone. rewrite Hi. now apply in_map.
Qed.

(** Any messages at all, as long as there are not more ids than rows. *)
Lemma read_few n m names msg :
  minv n m (map Some names) -> length names <= Z.to_nat n -> In (message_id msg) names ->
  exists m', monitor_read m msg = Ok m' /\ minv n m' (map Some names).
Proof.
  intros I Hl Hi. destruct msg as [id k|id]; cbn in Hi.
  - apply in_split in Hi as (l1 & l2 & ->). rewrite map_app in *. cbn in *.
    destruct (read_progress n m (map Some l1) (Some id) (map Some l2) id k I) as (m' & H1 & H2 & _); eauto.
    rewrite !app_length in *. cbn in *. now rewrite !map_length.
  - destruct I as [A B C]. unfold monitor_read. destruct (find_bar id (m_bars m)) as [b|] eqn:Ef.
    + pose proof (drop_bar_permutation _ _ _ A Ef) as Hp.
      eexists. split; [reflexivity|]. constructor; cbn.
      * apply (Permutation_map b_id) in Hp. apply (Permutation_NoDup Hp) in A. cbn in A. now inversion A.
      * intros x Hx. unfold drop_bar in Hx. apply filter_In in Hx as [Hx Hn]. auto.
      * apply Permutation_trans with (2 := C). unfold rows. cbn.
        apply (Permutation_map (fun b => Z.abs (b_position b))) in Hp. cbn in Hp.
        rewrite Hp, map_app. cbn. rewrite Z.abs_opp. rewrite app_assoc.
        apply Permutation_sym, Permutation_cons_append.
    + eexists. split; [reflexivity|]. constructor; auto.
Qed.

Lemma reads_app m l1 l2 :
  monitor_reads m (l1 ++ l2) = let* m' := monitor_reads m l1 in monitor_reads m' l2.
Proof.
  revert m. induction l1 as [|msg l1 IH]; intro m; cbn; auto.
  destruct (monitor_read m msg); cbn; auto.
Qed.

(** Whatever the messages, the display stays tidy as long as there is no error. *)
Definition own (m : monitor) : list (option string) := map (fun b => Some (b_id b)) (m_bars m).

Lemma read_tidy n m msg m' : minv n m (own m) -> monitor_read m msg = Ok m' -> minv n m' (own m').
Proof.
  assert (Hown : forall x b, In b (m_bars x) -> In (Some (b_id b)) (own x)).
  { intros x b Hb. unfold own. apply in_map_iff. exists b. auto. }
  intros [A _ C] H. destruct msg as [id k|id]; unfold monitor_read in H.
  - destruct (find_bar id (m_bars m)) as [b|] eqn:Ef.
    + rewrite Ef in H. injection H as <-.
      assert (I : minv n (Monitor (show id k (m_bars m)) (m_free m) (m_finished m)) (own m)).
      { apply minv_show. constructor; auto. }
      destruct I as [A' _ C']. constructor; auto.
    + destruct (m_free m) as [|pos rest] eqn:Er; [rewrite Ef in H; discriminate|].
      cbn [m_bars m_free m_finished] in H.
      destruct (find_bar id (m_bars m ++ [Bar id pos 0])) as [b|] eqn:Ef2; [|discriminate]. injection H as <-.
      assert (I : minv n (Monitor (show id k (m_bars m ++ [Bar id pos 0])) rest (m_finished m))
                    (own (Monitor (m_bars m ++ [Bar id pos 0]) rest (m_finished m)))).
      { apply (minv_show n (Monitor (m_bars m ++ [Bar id pos 0]) rest (m_finished m))). constructor; auto.
        - cbn. rewrite map_app. cbn. apply NoDup_mid. rewrite app_nil_r. constructor; auto.
          now apply find_bar_none.
        - unfold rows in *. cbn. rewrite map_app. cbn. rewrite <- app_assoc. cbn. exact C. }
      destruct I as [A' _ C']. constructor; auto.
  - destruct (find_bar id (m_bars m)) as [b|] eqn:Ef; injection H as <-.
    + pose proof (drop_bar_permutation _ _ _ A Ef) as Hp. constructor; auto.
      * cbn. apply (Permutation_map b_id) in Hp. apply (Permutation_NoDup Hp) in A. cbn in A. now inversion A.
      * apply Permutation_trans with (2 := C). unfold rows. cbn.
        apply (Permutation_map (fun b => Z.abs (b_position b))) in Hp. cbn in Hp.
        rewrite Hp, map_app. cbn. rewrite Z.abs_opp. rewrite app_assoc.
        apply Permutation_sym, Permutation_cons_append.
    + constructor; auto.
Qed.

Lemma reads_own n log : forall m m', minv n m (own m) -> monitor_reads m log = Ok m' -> minv n m' (own m').
Proof.
  induction log as [|msg log IH]; intros m m' I H; cbn in H.
  - injection H as <-. exact I.
  - destruct (monitor_read m msg) as [m1|] eqn:E; [|discriminate]. exact (IH m1 m' (read_tidy n m msg m1 I E) H).
Qed.

Lemma reads_tidy n log m : monitor_reads (monitor_start n) log = Ok m -> tidy n m.
Proof.
  intro H. exact (minv_tidy _ _ _ (reads_own n log _ _ (minv_start n _) H)).
Qed.

Lemma reads_snoc m0 log m msg m1 :
  monitor_reads m0 log = Ok m -> monitor_read m msg = Ok m1 -> monitor_reads m0 (log ++ [msg]) = Ok m1.
Proof. intros H H1. rewrite reads_app, H. cbn [bind monitor_reads]. now rewrite H1. Qed.

Lemma reads_few n m names log :
  minv n m (map Some names) -> length names <= Z.to_nat n -> (forall msg, In msg log -> In (message_id msg) names) ->
  exists m', monitor_reads m log = Ok m' /\ minv n m' (map Some names).
Proof.
  intros I Hl. revert m I. induction log as [|msg log IH]; intros m I Hi; cbn; [eauto|].
  destruct (read_few n m names msg I Hl) as (m1 & H1 & I1); [apply Hi; cbn; auto|].
  rewrite H1. cbn. apply IH; auto. intros x Hx. apply Hi. cbn. auto.
Qed.

(** ** All interleavings *)

(** The messages to come from a worker in the middle of task [c]. *)
Inductive flow : option string -> list message -> Prop :=
| flow_end c : flow c []
| flow_progress c id k s : c = None \/ c = Some id -> flow (Some id) s -> flow c (Progress id k :: s)
| flow_done c id s : c = None \/ c = Some id -> flow None s -> flow c (Done id :: s).

Lemma flow_chat c id ks s : c = None \/ c = Some id -> flow None s -> flow c (chat (id, ks) ++ s).
Proof.
  intros Hc Hs. unfold chat. cbn [fst snd]. revert c Hc. induction ks as [|k ks IH]; intros c Hc; cbn.
  - now apply flow_done.
  - apply flow_progress; auto.
Qed.

Lemma flow_chats ts s : flow None s -> flow None (worker_chat ts ++ s).
Proof.
  intro Hs. induction ts as [|[id ks] ts IH]; cbn [worker_chat flat_map app]; auto.
  fold (worker_chat ts). rewrite <- app_assoc. apply flow_chat; auto.
Qed.

Lemma flow_cut id ks : forall c, c = None \/ c = Some id -> flow c (map (Progress id) ks).
Proof. induction ks; intros c Hc; cbn; constructor; auto. Qed.

Definition dones (log : list message) : nat := length (filter is_done log).

Lemma flows_ok n streams log :
  interleaves streams log -> forall m cs,
  Forall2 flow cs streams -> length streams <= Z.to_nat n -> minv n m cs ->
  exists m' cs', monitor_reads m log = Ok m' /\ length cs' = length cs /\ minv n m' cs' /\
    m_finished m' = m_finished m + dones log.
Proof.
  induction 1 as [streams He|l1 a s l2 log Hi IH]; intros m cs Hf Hl I; cbn [monitor_reads].
  - exists m, cs. unfold dones. cbn. repeat split; auto; apply I.
  - apply Forall2_app_inv_r in Hf as (c1 & c2 & Hf1 & Hf2 & ->).
    inversion Hf2 as [|c x c2' y Hfl Hf2']; subst.
    assert (Hlen : length (c1 ++ c :: c2') <= Z.to_nat n).
    { apply Forall2_length in Hf1. apply Forall2_length in Hf2'. rewrite app_length in *. cbn in *. lia. }
    assert (Hl' : length (l1 ++ s :: l2) <= Z.to_nat n) by (rewrite app_length in *; cbn in *; lia).
    inversion Hfl as [|c' id k s' Hc Hn|c' id s' Hc Hn]; subst.
    + destruct (read_progress n m c1 c c2' id k I Hlen Hc) as (m1 & H1 & I1 & F1). rewrite H1. cbn.
      destruct (IH m1 (c1 ++ Some id :: c2')) as (m' & cs' & H2 & H3 & I2 & F2); auto.
      { apply Forall2_app; auto. }
      exists m', cs'. repeat split; auto; try apply I2.
      * rewrite !app_length in *. cbn in *. lia.
      * rewrite F2, F1. reflexivity.
    + destruct (read_done n m c1 c c2' id I Hc) as (m1 & H1 & I1 & F1). rewrite H1. cbn.
      destruct (IH m1 (c1 ++ None :: c2')) as (m' & cs' & H2 & H3 & I2 & F2); auto.
      { apply Forall2_app; auto. }
      exists m', cs'. repeat split; auto; try apply I2.
      * rewrite !app_length in *. cbn in *. lia.
      * rewrite F2, F1. unfold dones. cbn. lia.
Qed.

(** A prefix of an interleaving is an interleaving of prefixes. *)
Lemma flow_prefix c l1 l2 : flow c (l1 ++ l2) -> flow c l1.
Proof.
  revert c. induction l1 as [|a l1 IH]; intros c H; cbn in *; [constructor|].
  inversion H; subst; constructor; auto.
Qed.

Lemma interleaves_prefix {A} (streams : list (list A)) log :
  interleaves streams log -> forall l1 l2, log = l1 ++ l2 ->
  exists ps, interleaves ps l1 /\ Forall2 (fun p s => exists q, s = p ++ q) ps streams.
Proof.
  induction 1 as [streams He|x1 a s x2 log Hi IH]; intros l1 l2 E.
  - destruct l1; [|discriminate]. exists (map (fun _ => []) streams). split.
    + constructor. intros s Hs. apply in_map_iff in Hs as (x & <- & _). reflexivity.
    + clear. induction streams; cbn; constructor; auto. eexists. reflexivity.
  - destruct l1 as [|b l1].
    + exists (map (fun _ => []) (x1 ++ (a :: s) :: x2)). split.
      * constructor. intros x Hx. apply in_map_iff in Hx as (y & <- & _). reflexivity.
      * generalize (x1 ++ (a :: s) :: x2). clear. induction l; cbn; constructor; auto. eexists. reflexivity.
    + cbn in E. injection E as <- E. destruct (IH l1 l2 E) as (ps & Hps & Hf).
      apply Forall2_app_inv_r in Hf as (p1 & p2 & Hf1 & Hf2 & ->).
      inversion Hf2 as [|p y p2' x2' [q ->] Hf2']; subst.
      exists (p1 ++ (a :: p) :: p2'). split; [now constructor|].
      apply Forall2_app; auto. constructor; auto. exists q. reflexivity.
Qed.

Lemma dones_cons a l : dones (a :: l) = (if is_done a then 1 else 0) + dones l.
Proof. unfold dones. cbn. now destruct (is_done a). Qed.

Lemma interleaves_dones streams log :
  interleaves streams log -> dones log = fold_right (fun s k => dones s + k) 0 streams.
Proof.
  induction 1 as [streams He|x1 a s x2 log Hi IH].
  - unfold dones at 1. cbn. induction streams as [|s ss IH]; cbn; auto.
    rewrite (He s) by (cbn; auto). apply IH. intros x Hx. apply He. cbn. auto.
  - rewrite dones_cons, IH, !fold_right_app. cbn [fold_right]. rewrite dones_cons.
    set (k := if is_done a then 1 else 0). set (r := fold_right _ 0 x2). clearbody k r. clear.
    induction x1 as [|y x1 IHx]; cbn [fold_right]; lia.
Qed.

Lemma dones_app l1 l2 : dones (l1 ++ l2) = dones l1 + dones l2.
Proof. unfold dones. now rewrite filter_app, app_length. Qed.

Lemma dones_chats ts : dones (worker_chat ts) = length ts.
Proof.
  induction ts as [|[id ks] ts IH]; [reflexivity|]. cbn [worker_chat flat_map]. rewrite dones_app.
  fold (worker_chat ts). rewrite IH. unfold chat. cbn [fst snd]. rewrite dones_app.
  assert (H : dones (map (Progress id) ks) = 0) by (induction ks; cbn; auto).
  rewrite H. reflexivity.
Qed.

(** The monitor in a run in which no task fails before its last message. *)
Theorem monitor_ok n (workers : list (list (string * list nat))) log seen rest :
  length workers <= Z.to_nat n -> interleaves (map worker_chat workers) log -> log = seen ++ rest ->
  exists m, monitor_reads (monitor_start n) seen = Ok m /\ tidy n m /\ m_finished m = dones seen.
Proof.
  intros Hl Hi Hs. destruct (interleaves_prefix _ _ Hi _ _ Hs) as (ps & Hps & Hf).
  pose proof (Forall2_length Hf) as Hlen. rewrite map_length in Hlen.
  destruct (flows_ok n ps seen Hps (monitor_start n) (repeat None (length ps))) as (m & cs & H1 & _ & I & F).
  - clear -Hf. revert ps Hf. induction workers as [|w ws IH]; intros ps Hf; cbn in Hf; inversion Hf as [|p y ps' ss [q Hq] Hf']; subst; cbn; constructor; auto.
    apply (flow_prefix None p q). rewrite <- Hq. rewrite <- (app_nil_r (worker_chat w)). apply flow_chats. constructor.
  - lia.
  - apply minv_start.
  - exists m. split; auto. split; [exact (minv_tidy _ _ _ I)|exact F].
Qed.

Theorem monitor_complete n (workers : list (list (string * list nat))) log :
  length workers <= Z.to_nat n -> interleaves (map worker_chat workers) log ->
  exists m, monitor_reads (monitor_start n) log = Ok m /\ m_finished m = length (concat workers).
Proof.
  intros Hl Hi. destruct (monitor_ok n workers log log [] Hl Hi) as (m & H1 & _ & F); [now rewrite app_nil_r|].
  exists m. split; auto. rewrite F, (interleaves_dones _ _ Hi). clear.
  induction workers as [|w ws IH]; cbn; auto. rewrite IH, dones_chats, app_length. reflexivity.
Qed.

(** A worker may also be cut short in its last task. *)
Theorem monitor_cut n (workers : list (list (string * list nat) * (string * list nat))) log :
  length workers <= Z.to_nat n ->
  interleaves (map (fun w => worker_chat (fst w) ++ map (Progress (fst (snd w))) (snd (snd w))) workers) log ->
  exists m, monitor_reads (monitor_start n) log = Ok m /\ tidy n m.
Proof.
  intros Hl Hi.
  destruct (flows_ok n _ log Hi (monitor_start n) (repeat None (length workers))) as (m & cs & H1 & _ & I & F).
  - clear. induction workers as [|[ts [id ks]] ws IH]; cbn [map repeat length]; constructor; auto.
    apply flow_chats. cbn. apply flow_cut. auto.
  - now rewrite map_length.
  - apply minv_start.
  - exists m. split; auto. exact (minv_tidy _ _ _ I).
Qed.

Theorem monitor_few n names log :
  length names <= Z.to_nat n -> (forall msg, In msg log -> In (message_id msg) names) ->
  exists m, monitor_reads (monitor_start n) log = Ok m /\ tidy n m.
Proof.
  intros Hl Hi. destruct (reads_few n (monitor_start n) names log (minv_start n _) Hl Hi) as (m & H & I).
  exists m. split; auto. exact (minv_tidy _ _ _ I).
Qed.

(** What the bars show. *)
Lemma monitor_reads_snoc m l msg :
  monitor_reads m (l ++ [msg]) = let* m' := monitor_reads m l in monitor_read m' msg.
Proof.
  revert m. induction l as [|a l IH]; intro m; cbn.
  - destruct (monitor_read m msg); reflexivity.
  - destruct (monitor_read m a) as [m'|e]; cbn; [apply IH|reflexivity].
Qed.

Lemma reached_snoc id l msg k :
  reached id (l ++ [msg]) k <->
  (msg = Progress id k \/ (message_id msg <> id /\ reached id l k)).
Proof.
  split.
  - intros (b & a & E & H). destruct a as [|x a] using rev_ind.
    + apply app_inj_tail in E as [_ ->]. auto.
    + change (b ++ Progress id k :: a ++ [x]) with (b ++ (Progress id k :: a) ++ [x]) in E.
      rewrite app_assoc in E. apply app_inj_tail in E as [-> ->]. right. split.
      * apply H, in_app_iff. cbn. auto.
      * exists b, a. split; [reflexivity|]. intros y Hy. apply H, in_app_iff. auto.
  - intros [->|[Hn (b & a & -> & H)]].
    + exists l, []. split; [reflexivity|]. intros ? [].
    + exists b, (a ++ [msg]). split; [now rewrite <- app_assoc|]. intros y Hy.
      apply in_app_iff in Hy as [Hy|[<-|[]]]; auto.
Qed.

Definition shown (m : monitor) (id : string) (k : nat) : Prop := exists b, In b (m_bars m) /\ b_id b = id /\ b_n b = k.

Lemma show_shown id k bars fr fi id' k' (Hin : In id (map b_id bars)) :
  shown (Monitor (show id k bars) fr fi) id' k' <->
  ((id' = id /\ k' = k) \/ (id' <> id /\ shown (Monitor bars fr fi) id' k')).
Proof.
  unfold shown, show. cbn [m_bars]. split.
  - intros (b & Hb & <- & <-). apply in_map_iff in Hb as (c & <- & Hc).
    destruct (String.eqb_spec (b_id c) id) as [E|E]; cbn; [left; auto|right]. split; [exact E|]. exists c. auto.
  - intros [[-> ->]|[Hn (b & Hb & <- & <-)]].
    + apply in_map_iff in Hin as (b & Hi & Hb). exists (Bar (b_id b) (b_position b) k). split; [|cbn; auto].
      apply in_map_iff. exists b. split; [|exact Hb]. rewrite Hi, String.eqb_refl. reflexivity.
    + exists b. split; [|auto]. apply in_map_iff. exists b. split; [|exact Hb].
      destruct (String.eqb_spec (b_id b) id) as [E|E]; [contradiction|reflexivity].
Qed.

Lemma find_bar_in id bars b : find_bar id bars = Some b -> In id (map b_id bars).
Proof. intro H. apply find_bar_some in H as [H <-]. now apply in_map. Qed.

Lemma bars_show n seen m :
  monitor_reads (monitor_start n) seen = Ok m ->
  NoDup (map b_id (m_bars m)) /\ forall id k, shown m id k <-> reached id seen k.
Proof.
  revert m. induction seen as [|msg seen IH] using rev_ind; intros m H.
  - cbn in H. injection H as <-. split; [constructor|]. intros id k. split.
    + intros (b & [] & _).
    + intros ([|? ?] & a & E & _); discriminate.
  - rewrite monitor_reads_snoc in H. destruct (monitor_reads (monitor_start n) seen) as [m'|e] eqn:E; [|discriminate].
    cbn in H. destruct (IH m' eq_refl) as [Hd Hs]. clear IH. destruct msg as [id k|id]; cbn in H.
    + set (m1 := match find_bar id (m_bars m') with
                 | None => match m_free m' with pos :: rest => Monitor (m_bars m' ++ [Bar id pos 0]) rest (m_finished m') | [] => m' end
                 | Some _ => m' end) in *.
      assert (H1 : NoDup (map b_id (m_bars m1)) /\ forall id' k', id' <> id -> (shown m1 id' k' <-> shown m' id' k')).
      { unfold m1. destruct (find_bar id (m_bars m')) eqn:Ef; [split; [exact Hd|tauto]|].
        destruct (m_free m') as [|pos rest]; [split; [exact Hd|tauto]|]. cbn [m_bars]. split.
        - rewrite map_app. cbn. apply NoDup_mid. rewrite app_nil_r. constructor; [|exact Hd]. now apply find_bar_none.
        - intros id' k' Hn. unfold shown. cbn. split; intros (b & Hb & Hi & Hk); exists b; split; auto.
          + apply in_app_iff in Hb as [Hb|[<-|[]]]; auto. cbn in Hi. congruence.
          + apply in_app_iff. auto. }
      destruct H1 as [H1d H1s]. destruct (find_bar id (m_bars m1)) as [b1|] eqn:Ef1.
      * assert (Hm : m = Monitor (show id k (m_bars m1)) (m_free m1) (m_finished m1)) by congruence.
        subst m. split; [cbn [m_bars]; now rewrite show_ids|]. intros id' k'.
        rewrite show_shown by (now apply find_bar_in in Ef1). rewrite reached_snoc. cbn [message_id]. split.
        -- intros [[-> ->]|[Hn Hx]]; [auto|]. right. split; [congruence|]. apply Hs, (H1s _ _ Hn), Hx.
        -- intros [Hq|[Hn Hx]]; [injection Hq as -> ->; auto|]. right. split; [congruence|].
           apply Hs in Hx. apply (H1s id' k' (not_eq_sym Hn)) in Hx. exact Hx.
      * discriminate.
    + assert (Hm : NoDup (map b_id (m_bars m)) /\
                   forall b, In b (m_bars m) <-> (In b (m_bars m') /\ b_id b <> id)).
      { destruct (find_bar id (m_bars m')) as [b|] eqn:Ef; injection H as <-; cbn [m_bars].
        - split.
          + apply (drop_bar_permutation _ _ _ Hd) in Ef as Hp. apply (Permutation_map b_id) in Hp.
            apply (Permutation_NoDup Hp) in Hd. cbn in Hd. now inversion Hd.
          + intro x. unfold drop_bar. rewrite filter_In, negb_true_iff, String.eqb_neq. tauto.
        - split; [exact Hd|]. intro x. apply find_bar_none in Ef. split; [|tauto]. intro Hx. split; [exact Hx|].
          intros <-. apply Ef. now apply in_map. }
      destruct Hm as [Hm1 Hm2]. split; [exact Hm1|]. intros id' k'. rewrite reached_snoc. cbn [message_id].
      rewrite <- Hs. unfold shown. split.
      * intros (b & Hb & <- & <-). right. apply Hm2 in Hb as [Hb Hn]. split; [congruence|]. exists b. auto.
      * intros [Hq|[Hn (b & Hb & <- & <-)]]; [discriminate|]. exists b. split; [|auto]. apply Hm2. split; congruence.
Qed.

Lemma bars_case : exists m,
  monitor_reads (monitor_start 2) [Progress "a" 0; Progress "b" 4; Progress "a" 3; Done "b"]%string = Ok m /\
  reached "a" [Progress "a" 0; Progress "b" 4; Progress "a" 3; Done "b"]%string 3 /\
  map b_n (m_bars m) = [3].
Proof.
  eexists. split; [reflexivity|]. split; [|reflexivity].
  exists [Progress "a" 0; Progress "b" 4]%string, [Done "b"%string]. split; [reflexivity|].
  intros msg [<-|[]]. discriminate.
Qed.
