(** The monitor, cancellation and exit paths in the transition system of Executor.v. *)
From Coq Require Import Lia Permutation.
From Verif Require Import Base Num NdArray NdFacts Particles Solver Monitor Executor SpecExecutor ExecutorFacts ExecutorMain
  MonitorFacts.

(** The messages to come from a worker that will report the end of its task. *)
Inductive closed : option string -> list message -> Prop :=
| closed_end : closed None []
| closed_progress c id k s : c = None \/ c = Some id -> closed (Some id) s -> closed c (Progress id k :: s)
| closed_done c id s : c = None \/ c = Some id -> closed None s -> closed c (Done id :: s).

Lemma closed_chat c id ks : c = None \/ c = Some id -> closed c (chat (id, ks)).
Proof.
  unfold chat. cbn [fst snd]. revert c. induction ks as [|k ks IH]; intros c Hc; cbn.
  - apply closed_done; auto. constructor.
  - apply closed_progress; auto.
Qed.

Definition slot_closed (c : option string) (s : slot) : Prop :=
  match s with Busy _ rest => closed c rest | _ => c = None end.

Section Watch.
  Context {R W : Type} (tasks : list (task R W)) (n : Z).
  Notation state := (Executor.state R W).
  Notation step := (Executor.step tasks n).
  Notation steps := (Executor.steps tasks n).

  (** ** The monitor when every task reports its end *)

  Definition early (c : control R) : bool := match c with Calling | Watched => true | _ => false end.

  Definition displayed (e : bool) (slots : list slot) (q : list message) (v : watch) (log : list message) : Prop :=
    (e = true -> log = []) /\ (forall x, v <> Crashed x) /\
    exists seen cs m, log = seen ++ q /\
      monitor_reads (monitor_start n) log = Ok m /\ minv n m cs /\
      Forall2 slot_closed cs slots /\ length slots <= Z.to_nat n /\
      (forall m', v = Watching m' -> monitor_reads (monitor_start n) seen = Ok m').

  Lemma displayed_later e slots q v log : displayed e slots q v log -> displayed false slots q v log.
  Proof. intros (H1 & H2). split; [discriminate|exact H2]. Qed.

  Lemma displayed_watch e slots q v v' log :
    (forall x, v' <> Crashed x) -> (forall m, v' = Watching m -> v = Watching m) ->
    displayed e slots q v log -> displayed e slots q v' log.
  Proof.
    intros Hx Hw (H1 & H2 & seen & cs & m & H3 & H4 & H5 & H6 & H7 & H8).
    split; [exact H1|]. split; [exact Hx|]. exists seen, cs, m. repeat split; auto; apply H5.
  Qed.

  Lemma displayed_terminate e slots q v log : displayed e slots q v log -> displayed e slots q (terminate v) log.
  Proof.
    intro H. assert (Hx := proj1 (proj2 H)). apply (displayed_watch e slots q v); auto.
    - intro x. destruct v; cbn; try discriminate. apply Hx.
    - intro m. destruct v; cbn; congruence.
  Qed.

  Definition display (s : state) : Prop :=
    p_killed (st_pool s) = false ->
    displayed (early (st_main s)) (p_slots (st_pool s)) (b_queue (st_board s)) (b_watch (st_board s)) (b_log (st_board s)).

  Lemma display_main s s' :
    main_step tasks n s s' -> (st_main s = Calling \/ st_main s = Watched -> st_pool s = no_pool) ->
    display s -> display s'.
  Proof.
    intros Hs He H Ki. unfold display in *.
    destruct Hs; cbn [st_main st_pool st_board early p_killed p_slots shut set_watch b_queue b_watch b_log] in *;
      try exact (displayed_later _ _ _ _ _ (H Ki)); try exact (H Ki); try exact (displayed_terminate _ _ _ _ _ (H Ki)).
    - (* the monitor starts *)
      destruct (H Ki) as (H1 & H2 & seen & cs & m & H3 & H4 & H5 & H6 & H7 & H8).
      rewrite H1 in * by auto. split; [auto|]. split; [discriminate|].
      assert (seen = []) by (destruct seen; [reflexivity|discriminate]). subst.
      exists [], cs, m. repeat split; auto; try apply H5. intros m' E. injection E as <-. reflexivity.
    - (* the pool is created *)
      specialize (He (or_intror eq_refl)). subst.
      destruct (H eq_refl) as (H1 & H2 & seen & cs & m & H3 & H4 & H5 & H6 & H7 & H8).
      rewrite H1 in * by auto. split; [discriminate|]. split; [exact H2|].
      injection H4 as <-. exists seen, (repeat None (Z.to_nat n)), (monitor_start n).
      split; [exact H3|]. split; [reflexivity|]. split; [apply minv_start|]. split; [|split; [|exact H8]].
      + cbn. generalize (Z.to_nat n). intro k. clear. induction k; cbn; constructor; auto. reflexivity.
      + cbn. now rewrite repeat_length.
  Qed.

  Hypothesis talks : forall t, In t tasks -> exists id ks, t_talk t = chat (id, ks).

  Lemma display_worker e p b w p' b' w' :
    worker_step tasks p b w p' b' w' ->
    (e = true -> p = no_pool) ->
    (p_killed p = false -> displayed e (p_slots p) (b_queue b) (b_watch b) (b_log b)) ->
    (p_killed p' = false -> displayed e (p_slots p') (b_queue b') (b_watch b') (b_log b')).
  Proof.
    intros Hs He H Ki. destruct e; [specialize (He eq_refl); subst; inversion Hs; destruct l1; discriminate|]. clear He.
    destruct Hs; cbn in *; specialize (H Ki);
      destruct H as (H1 & H2 & seen & cs & m & H3 & H4 & H5 & H6 & H7 & H8);
      apply Forall2_app_inv_r in H6 as (c1 & c2 & Hf1 & Hf2 & ->); inversion Hf2 as [|c x c2' y Hc Hf2']; subst.
    - split; [discriminate|]. split; [exact H2|]. cbn in Hc. subst.
      exists seen, (c1 ++ None :: c2'), m. repeat split; auto; try apply H5.
      + apply Forall2_app; auto. constructor; auto. cbn.
        destruct (talks t) as (id & ks & ->); [eapply nth_error_In; eassumption|]. apply closed_chat. auto.
      + rewrite app_length in *. cbn in *. exact H7.
    - split; [discriminate|]. split; [exact H2|]. cbn in Hc.
      assert (Hlen : length (c1 ++ c :: c2') <= Z.to_nat n).
      { apply Forall2_length in Hf1. apply Forall2_length in Hf2'. rewrite app_length in *. cbn in *. lia. }
      inversion Hc as [|c' id k s Hcc Hn|c' id s Hcc Hn]; subst.
      + destruct (read_progress n m c1 c c2' id k H5 Hlen Hcc) as (m1 & R1 & I1 & _).
        exists seen, (c1 ++ Some id :: c2'), m1. repeat split; auto; try apply I1.
        * now rewrite app_assoc.
        * exact (reads_snoc _ _ _ _ _ H4 R1).
        * apply Forall2_app; auto.
        * rewrite app_length in *. cbn in *. exact H7.
      + destruct (read_done n m c1 c c2' id H5 Hcc) as (m1 & R1 & I1 & _).
        exists seen, (c1 ++ None :: c2'), m1. repeat split; auto; try apply I1.
        * now rewrite app_assoc.
        * exact (reads_snoc _ _ _ _ _ H4 R1).
        * apply Forall2_app; auto.
        * rewrite app_length in *. cbn in *. exact H7.
    - split; [discriminate|]. split; [exact H2|]. cbn in Hc. inversion Hc; subst.
      exists seen, (c1 ++ None :: c2'), m. repeat split; auto; try apply H5.
      + apply Forall2_app; auto. constructor; auto. reflexivity.
      + rewrite app_length in *. cbn in *. exact H7.
    - split; [discriminate|]. split; [exact H2|]. cbn in Hc. subst.
      exists seen, (c1 ++ None :: c2'), m. repeat split; auto; try apply H5.
      + apply Forall2_app; auto. constructor; auto. reflexivity.
      + rewrite app_length in *. cbn in *. exact H7.
    - split; [discriminate|]. split; [exact H2|]. cbn in Hc. subst.
      exists seen, (c1 ++ None :: c2'), m. repeat split; auto; try apply H5.
      + apply Forall2_app; auto. constructor; auto. reflexivity.
      + rewrite app_length in *. cbn in *. exact H7.
  Qed.

  Lemma display_monitor e slots b b' :
    monitor_step tasks b b' ->
    displayed e slots (b_queue b) (b_watch b) (b_log b) -> displayed e slots (b_queue b') (b_watch b') (b_log b').
  Proof.
    intros Hs (H1 & H2 & seen & cs & m0 & H3 & H4 & H5 & H6 & H7 & H8). destruct Hs; cbn in *.
    - specialize (H8 m eq_refl). pose proof H4 as H4'. rewrite H3, reads_app, H8 in H4'. cbn [bind monitor_reads] in H4'.
      destruct (monitor_read m msg) as [m'|x] eqn:Er; cbn in H4'; [|discriminate].
      split; [exact H1|]. split; [discriminate|]. exists (seen ++ [msg]), cs, m0.
      repeat split; auto; try apply H5.
      + rewrite <- app_assoc. exact H3.
      + intros m2 E. injection E as <-. exact (reads_snoc _ _ _ _ _ H8 Er).
    - split; [exact H1|]. split; [discriminate|]. exists seen, cs, m0. repeat split; auto; try apply H5. discriminate.
  Qed.

  Lemma display_reachable stop w0 s : steps (start [] stop w0) s -> display s.
  Proof.
    revert s. apply (invariant tasks n display).
    - intros _. cbn. split; [auto|]. split; [discriminate|]. exists [], [], (monitor_start n).
      split; [reflexivity|]. split; [reflexivity|]. split; [apply minv_start|]. split; [constructor|].
      split; [cbn; lia|discriminate].
    - intros s s' Hr IH Hs. pose proof (early_reachable tasks n [] stop w0 s Hr) as He.
      pose proof (placed_reachable tasks n [] stop w0 s Hr) as P.
      destruct Hs as [? ? [s1 s2 H|c rs p p' b w H|c rs p p' b b' w w' H|c rs p b b' w H]|c rs p p' b w H].
      + exact (display_main _ _ H He IH).
      + unfold display in *. cbn in *.
        destruct H; cbn in *; try exact IH. intro Ki. destruct (pl_alive _ _ P Ki). contradiction.
      + unfold display in *. cbn in *. apply (display_worker (early c) _ _ _ _ _ _ H); auto.
        intro Hc. apply He. destruct c; try discriminate; auto.
      + unfold display in *. cbn in *. intro Ki. exact (display_monitor _ _ _ _ H (IH Ki)).
      + unfold display in *. cbn in *. destruct H. discriminate.
  Qed.

  Lemma monitor_safe stop w0 s :
    steps (start [] stop w0) s -> ~ killed s ->
    (forall e, b_watch (st_board s) <> Crashed e) /\
    (forall m, b_watch (st_board s) = Watching m -> tidy n m).
  Proof.
    intros Hr Hk. pose proof (display_reachable stop w0 s Hr) as H. unfold display, killed in *.
    destruct (p_killed (st_pool s)); [contradiction|].
    destruct (H eq_refl) as (H1 & H2 & seen & cs & m & H3 & H4 & H5 & H6 & H7 & H8). split; auto.
    intros m' Hm. exact (reads_tidy n seen m' (H8 m' Hm)).
  Qed.
End Watch.

(** The monitor when at most [n] different ids occur. *)
Section Few.
  Context {R W : Type} (tasks : list (task R W)) (n : Z).
  Notation state := (Executor.state R W).
  Notation step := (Executor.step tasks n).
  Notation steps := (Executor.steps tasks n).

  Variable names : list string.
  Hypothesis few : length names <= Z.to_nat n.
  Hypothesis talks : forall t msg, In t tasks -> In msg (t_talk t) -> In (message_id msg) names.

  Definition named (l : list message) : Prop := forall msg, In msg l -> In (message_id msg) names.
  Definition board_ok (b : board) : Prop :=
    named (b_queue b) /\
    match b_watch b with
    | Crashed _ => False
    | Watching m => exists seen, named seen /\ monitor_reads (monitor_start n) seen = Ok m
    | _ => True
    end.
  Definition slots_ok (l : list slot) : Prop := forall i rest, In (Busy i rest) l -> named rest.
  Definition few_inv (s : state) : Prop := board_ok (st_board s) /\ slots_ok (p_slots (st_pool s)).

  Lemma few_main s s' : main_step tasks n s s' -> few_inv s -> few_inv s'.
  Proof.
    intros Hs [[B1 B2] S]. destruct Hs; cbn in *; split; try split; cbn; auto.
    - exists []. split; [intros ? []|reflexivity].
    - intros i rest Hi. apply repeat_spec in Hi. discriminate.
    - destruct (b_watch b); cbn; auto.
    - destruct (b_watch b); cbn; auto.
  Qed.

  Lemma slots_sub l l' : (forall i rest, In (Busy i rest) l' -> In (Busy i rest) l) -> slots_ok l -> slots_ok l'.
  Proof. intros H S i rest Hi. exact (S i rest (H i rest Hi)). Qed.

  Lemma few_manager p p' : manager_step tasks n p p' -> slots_ok (p_slots p) -> slots_ok (p_slots p').
  Proof.
    intros Hs. destruct Hs; cbn; auto. intros _ i rest Hi. apply in_map_iff in Hi as (? & ? & _). discriminate.
  Qed.

  Lemma few_worker p b w p' b' w' :
    worker_step tasks p b w p' b' w' -> board_ok b -> slots_ok (p_slots p) -> board_ok b' /\ slots_ok (p_slots p').
  Proof.
    intros Hs [B1 B2] S. destruct Hs; cbn in *.
    - split; [split; auto|]. intros j rest Hj. apply in_app_iff in Hj as [Hj|[Hj|Hj]].
      + apply (S j). apply in_app_iff. auto.
      + injection Hj as <- <-. intros msg Hm. apply (talks t); auto. eapply nth_error_In; eassumption.
      + apply (S j). apply in_app_iff. cbn. auto.
    - assert (Hr : named (msg :: rest)) by (apply (S i); apply in_app_iff; cbn; auto).
      split; [split; cbn; auto|].
      + intros x Hx. apply in_app_iff in Hx as [Hx|[<-|[]]]; [auto|]. apply Hr. left. reflexivity.
      + intros j r Hj. apply in_app_iff in Hj as [Hj|[Hj|Hj]].
        * apply (S j). apply in_app_iff. auto.
        * injection Hj as <- <-. intros x Hx. apply Hr. right. exact Hx.
        * apply (S j). apply in_app_iff. cbn. auto.
    - split; [split; auto|]. revert S. apply slots_sub. intros j r Hj. rewrite in_app_iff in *. cbn in *.
      destruct Hj as [Hj|[Hj|Hj]]; [auto|discriminate|auto].
    - split; [split; auto|]. revert S. apply slots_sub. intros j r Hj. rewrite in_app_iff in *. cbn in *.
      destruct Hj as [Hj|[Hj|Hj]]; [auto|discriminate|auto].
    - split; [split; auto|]. revert S. apply slots_sub. intros j r Hj. rewrite in_app_iff in *. cbn in *.
      destruct Hj as [Hj|[Hj|Hj]]; [auto|discriminate|auto].
  Qed.

  Lemma few_monitor b b' : monitor_step tasks b b' -> board_ok b -> board_ok b'.
  Proof.
    intros Hs [B1 B2]. destruct Hs; cbn in *.
    - destruct B2 as (seen & Hn & Hr).
      assert (Hn' : named (seen ++ [msg])).
      { intros x Hx. apply in_app_iff in Hx as [Hx|[<-|[]]]; auto. apply B1. left. reflexivity. }
      destruct (monitor_few n names (seen ++ [msg]) few Hn') as (m' & Hm & _).
      rewrite reads_app, Hr in Hm. cbn [bind monitor_reads] in Hm.
      split; cbn; [intros x Hx; apply B1; right; exact Hx|].
      destruct (monitor_read m msg) as [m1|e] eqn:E; cbn in Hm; [|discriminate].
      exists (seen ++ [msg]). split; auto. exact (reads_snoc _ _ _ _ _ Hr E).
    - split; cbn; auto.
  Qed.

  Lemma few_safe q stop w0 s :
    named q -> steps (start q stop w0) s ->
    (forall e, b_watch (st_board s) <> Crashed e) /\
    (forall m, b_watch (st_board s) = Watching m -> tidy n m).
  Proof.
    intros Hq Hr. assert (H : few_inv s).
    { revert s Hr. apply (invariant tasks n few_inv).
      - split; [split; cbn; auto|]. intros i rest [].
      - intros s s' _ IH Hs.
        destruct Hs as [? ? [s1 s2 H|c rs p p' b w H|c rs p p' b b' w w' H|c rs p b b' w H]|c rs p p' b w H].
        + exact (few_main _ _ H IH).
        + split; [apply IH|]. exact (few_manager _ _ H (proj2 IH)).
        + exact (few_worker _ _ _ _ _ _ H (proj1 IH) (proj2 IH)).
        + split; [|apply IH]. exact (few_monitor _ _ H (proj1 IH)).
        + split; [apply IH|]. destruct IH as [_ IH]. destruct H. cbn in *. revert IH. apply slots_sub.
          intros j r Hj. rewrite in_app_iff in *. cbn in *. destruct Hj as [Hj|[Hj|Hj]]; [auto|discriminate|auto]. }
    destruct H as [[_ Hb] _]. split.
    - intros e E. rewrite E in Hb. exact Hb.
    - intros m E. rewrite E in Hb. destruct Hb as (seen & _ & Hs). exact (reads_tidy n seen m Hs).
  Qed.
End Few.
