(** What run returns or raises, and termination, for the transition system of Executor.v. *)
From Coq Require Import Lia Permutation.
From Verif Require Import Base Num NdArray NdFacts Particles Solver Monitor Executor ExecutorFacts.

Section Results.
  Context {R W : Type} (tasks : list (task R W)) (n : Z).
  Notation state := (Executor.state R W).
  Notation step := (Executor.step tasks n).
  Notation steps := (Executor.steps tasks n).

  (** Every task outside [waiting] has finished well, and its result is at its place in [rs]. *)
  Definition right (p : pool R) (waiting : list nat) (rs : list (option R)) : Prop :=
    length rs = length tasks /\
    forall i t, nth_error tasks i = Some t -> ~ In i waiting ->
      In i (p_written p) /\ exists r, t_outcome t = Ok r /\ nth_error rs i = Some (Some r).

  (** [e] is the exception of a task that has run, or a worker was killed. *)
  Definition blame (p : pool R) (e : exn) : Prop :=
    (exists i t, nth_error tasks i = Some t /\ t_outcome t = Err e /\ In i (p_written p))
    \/ (p_killed p = true /\ e = BrokenProcessPool).

  Definition main_inv (s : state) : Prop :=
    let p := st_pool s in
    match st_main s with
    | Calling => True
    | Watched => tasks <> []
    | Submitting => st_results s = repeat None (length tasks)
    | Collecting waiting => right p waiting (st_results s)
    | Joining (Ok rs) | Closing rs | Exited (Ok rs) => right p [] rs
    | Caught e | Stopped e | CancelAsked e | Reraised e | Joining (Err e) => blame p e
    | Exited (Err e) =>
        blame p e \/ (tasks = [] /\ e = IndexError) \/ (tasks <> [] /\ (n <= 0)%Z /\ e = ValueError)
    end.

  (** History only grows. *)
  Definition grows (p p' : pool R) : Prop :=
    incl (p_written p) (p_written p') /\ (p_killed p = true -> p_killed p' = true).

  Lemma grows_refl p : grows p p.
  Proof. split; auto using incl_refl. Qed.

  Lemma grows_manager p p' : manager_step tasks n p p' -> grows p p'.
  Proof. intros []; split; cbn; auto using incl_refl. Qed.

  Lemma grows_worker p b w p' b' w' : worker_step tasks p b w p' b' w' -> grows p p'.
  Proof. intros []; split; cbn; auto using incl_refl, incl_appl. Qed.

  Lemma grows_kill (p p' : pool R) : kill_step p p' -> grows p p'.
  Proof. intros []; split; cbn; auto using incl_refl. Qed.

  Lemma right_grows p p' waiting rs : grows p p' -> right p waiting rs -> right p' waiting rs.
  Proof.
    intros [H _] [Hl Hr]. split; auto. intros i t Ht Hi. destruct (Hr i t Ht Hi) as [H1 H2]. auto.
  Qed.

  Lemma blame_grows p p' e : grows p p' -> blame p e -> blame p' e.
  Proof.
    intros [H K] [(i & t & Ht & He & Hi)|[Hk He]]; [left|right]; eauto 10.
  Qed.

  Lemma main_inv_grows c rs p p' b b' w w' :
    grows p p' -> main_inv (State c rs p b w) -> main_inv (State c rs p' b' w').
  Proof.
    intros G. unfold main_inv. cbn. destruct c as [| | |wt|e|e|e|e|[x|e]|x|[x|e]]; auto;
      try (apply right_grows; exact G); try (apply blame_grows; exact G).
    intros [H|H]; [left; apply (blame_grows p); assumption|auto].
  Qed.

  Lemma main_inv_step s s' : step s s' -> placed tasks (st_pool s) -> main_inv s -> main_inv s'.
  Proof.
    intros Hs P. destruct Hs as [? ? [s1 s2 H|c rs p p' b w H|c rs p p' b b' w w' H|c rs p b b' w H]|c rs p p' b w H].
    - pose proof (pl_done tasks _ P) as D. pose proof (pl_alive tasks _ P) as K.
      destruct H; unfold main_inv; cbn in *; auto. all: unfold blame; cbn.
      + (* submit on a broken pool *)
        intros _. right. split; auto. destruct (p_killed p); auto. destruct (K eq_refl). congruence.
      + (* all submitted *)
        intros ->. split; [apply repeat_length|]. intros i t Ht Hi. exfalso. apply Hi, in_seq.
        assert (i < length tasks) by (apply nth_error_Some; congruence). lia.
      + (* a result is collected *)
        intros [Hl Hr]. split; [now rewrite set_nth_length|]. intros j t Ht Hj.
        assert (Hjl : j < length tasks) by (apply nth_error_Some; congruence).
        apply D in H as [[Hw (t' & Ht' & Ho)]|[_ Ho]]; [|discriminate].
        destruct (Nat.eq_dec j i) as [->|Hn].
        * split; auto. exists r. rewrite Ht' in Ht. injection Ht as <-. split; auto.
          apply set_nth_same. lia.
        * rewrite set_nth_other by exact Hn. apply Hr; auto.
          intro Hx. apply Hj. rewrite in_app_iff in *. cbn in Hx. destruct Hx as [Hx|[Hx|Hx]]; auto. congruence.
      + (* an exception is caught *)
        intros _. apply D in H as [[Hw (t & Ht & Ho)]|[Hb Ho]].
        * left. exists i, t. auto.
        * right. injection Ho as ->. split; auto. destruct (p_killed p); auto. destruct (K eq_refl). congruence.
      + (* an exception escapes *)
        intros _. apply D in H as [[Hw (t & Ht & Ho)]|[Hb Ho]].
        * left. exists i, t. auto.
        * injection Ho as ->. discriminate.
    - apply main_inv_grows, grows_manager, H.
    - apply main_inv_grows. exact (grows_worker _ _ _ _ _ _ H).
    - apply main_inv_grows, grows_refl.
    - apply main_inv_grows, grows_kill, H.
  Qed.

  Lemma main_inv_reachable q stop w0 s : steps (start q stop w0) s -> main_inv s.
  Proof.
    revert s. apply (invariant tasks n main_inv); [exact I|].
    intros s s' Hr IH Hs. apply (main_inv_step s s' Hs); auto.
    exact (placed_reachable tasks n q stop w0 s Hr).
  Qed.

  (** A normal return: every task has run exactly once and has succeeded, and the results are in order. *)
  Lemma returned q stop w0 s rs :
    steps (start q stop w0) s -> st_main s = Exited (Ok rs) ->
    Forall2 (fun t r => exists x, t_outcome t = Ok x /\ r = Some x) tasks rs /\
    Permutation (p_written (st_pool s)) (seq 0 (length tasks)).
  Proof.
    intros Hr Hm. pose proof (main_inv_reachable q stop w0 s Hr) as H.
    pose proof (placed_reachable tasks n q stop w0 s Hr) as P.
    unfold main_inv in H. rewrite Hm in H. destruct H as [Hl Hw]. split.
    - clear Hm. revert rs Hl Hw. generalize (p_written (st_pool s)). clear.
      intros wr rs Hl Hw.
      assert (Hw' : forall i t, nth_error tasks i = Some t -> exists r, t_outcome t = Ok r /\ nth_error rs i = Some (Some r)).
      { intros i t Ht. destruct (Hw i t Ht (fun x => x)) as [_ H]. exact H. }
      clear Hw. revert rs Hl Hw'. induction tasks as [|t ts IH]; intros [|r rs] Hl Hw; cbn in Hl; try discriminate; constructor.
      + destruct (Hw 0 t eq_refl) as (x & Hx & He). cbn in He. exists x. split; auto. congruence.
      + apply IH; [lia|]. intros i t' Ht. exact (Hw (S i) t' Ht).
    - apply NoDup_Permutation; [|apply seq_NoDup|].
      + exact (NoDup_app_remove_l _ _ (pl_busy tasks _ P)).
      + intro i. rewrite in_seq. split.
        * intro Hi. assert (In i (p_started (st_pool s))) by (apply (pl_begun tasks _ P), in_app_iff; auto).
          pose proof (pl_len tasks _ P). enough (i < length (p_futures (st_pool s))) by lia.
          apply (pl_bound tasks _ P). rewrite !in_app_iff. auto.
        * intros [_ Hi]. destruct (nth_error tasks i) as [t|] eqn:Ht.
          -- exact (proj1 (Hw i t Ht (fun x => x))).
          -- apply nth_error_None in Ht. lia.
  Qed.

  Lemma raised q stop w0 s e :
    steps (start q stop w0) s -> st_main s = Exited (Err e) ->
    blame (st_pool s) e \/ (tasks = [] /\ e = IndexError) \/ (tasks <> [] /\ (n <= 0)%Z /\ e = ValueError).
  Proof.
    intros Hr Hm. pose proof (main_inv_reachable q stop w0 s Hr) as H.
    unfold main_inv in H. now rewrite Hm in H.
  Qed.

  (** ** Termination *)

  Definition b2n (b : bool) : nat := if b then 1 else 0.
  Fixpoint sum (l : list nat) : nat := match l with [] => 0 | a :: l' => a + sum l' end.
  Definition talk (i : nat) : nat :=
    match nth_error tasks i with Some t => 2 * length (t_talk t) | None => 0 end.
  Definition slot_weight (s : slot) : nat :=
    match s with
    | Idle => 1
    | Busy _ rest => 2 * length rest + 7
    | Writing _ => 6
    | Wrote _ => 5
    | Dead => 0
    end.
  Definition pool_weight (p : pool R) : nat :=
    sum (map (fun t => 2 * length (t_talk t) + 11) (skipn (length (p_futures p)) tasks))
    + sum (map (fun i => talk i + 9) (p_work_ids p))
    + sum (map (fun i => talk i + 7) (p_calls p))
    + sum (map slot_weight (p_slots p))
    + 2 * length (p_returned p) + b2n (p_cancel p) + b2n (p_alive p).
  Definition board_weight (b : board) : nat :=
    length (b_queue b) + match b_watch b with Watching _ => 1 | _ => 0 end.
  Definition main_weight (c : control R) : nat :=
    match c with
    | Calling => 20 + length tasks + Z.to_nat n
    | Watched => 17 + length tasks + Z.to_nat n
    | Submitting => 14 + length tasks
    | Collecting waiting => 13 + length waiting
    | Caught _ => 12
    | Stopped _ => 11
    | CancelAsked _ => 8
    | Reraised _ => 7
    | Joining _ => 6
    | Closing _ => 4
    | Exited _ => 0
    end.
  Definition weight (s : state) : nat :=
    main_weight (st_main s) + pool_weight (st_pool s) + board_weight (st_board s).

  Lemma sum_app l m : sum (l ++ m) = sum l + sum m.
  Proof. induction l; cbn; auto. lia. Qed.

  Lemma sum_repeat k : sum (map slot_weight (repeat Idle k)) = k.
  Proof. induction k; cbn; auto. Qed.

  Lemma sum_dead (l : list slot) : sum (map slot_weight (map (fun _ => Dead) l)) = 0.
  Proof. induction l; cbn; auto. Qed.

  Lemma skipn_nth {A} (l : list A) k x : nth_error l k = Some x -> skipn k l = x :: skipn (S k) l.
  Proof.
    revert k. induction l as [|a l IH]; intros [|k] H; cbn in *; try discriminate.
    - congruence.
    - now apply IH.
  Qed.

  Lemma shut_weight c p : pool_weight (shut c p) <= pool_weight p + b2n c.
  Proof. unfold pool_weight, shut. cbn. lia. Qed.

  Lemma weight_main s s' :
    main_step tasks n s s' ->
    (st_main s = Calling \/ st_main s = Watched -> st_pool s = no_pool) ->
    weight s' < weight s.
  Proof.
    intros Hs He. destruct Hs; unfold weight; cbn [st_main st_pool st_board main_weight] in *.
    - lia.
    - unfold board_weight. cbn [b_queue b_watch set_watch]. destruct (b_watch b); lia.
    - lia.
    - rewrite He by auto. unfold pool_weight. cbn [p_futures p_work_ids p_calls p_slots p_returned p_cancel p_alive no_pool new_pool map sum b2n length].
      rewrite sum_repeat. lia.
    - unfold pool_weight. cbn [p_futures p_work_ids p_calls p_slots p_returned p_cancel p_alive].
      rewrite app_length. cbn [length]. rewrite Nat.add_1_r.
      destruct (nth_error tasks (length (p_futures p))) as [t|] eqn:Ht; [|apply nth_error_None in Ht; lia].
      rewrite (skipn_nth _ _ _ Ht). rewrite map_app, sum_app. cbn [map sum].
      unfold talk at 2. rewrite Ht. lia.
    - pose proof (shut_weight false p). cbn [b2n] in *. lia.
    - rewrite seq_length. lia.
    - rewrite !app_length. cbn. lia.
    - rewrite !app_length. cbn. lia.
    - pose proof (shut_weight false p). rewrite !app_length. cbn [b2n length] in *. lia.
    - unfold board_weight. cbn. lia.
    - pose proof (shut_weight true p). cbn [b2n] in *. lia.
    - unfold board_weight. cbn. destruct (b_watch b); cbn; lia.
    - pose proof (shut_weight false p). cbn [b2n] in *. lia.
    - pose proof (shut_weight false p). cbn [b2n length] in *. lia.
    - lia.
    - lia.
    - unfold board_weight. cbn. destruct (b_watch b); cbn; lia.
  Qed.

  Lemma weight_manager p p' : manager_step tasks n p p' -> pool_weight p' < pool_weight p.
  Proof.
    intros Hs. destruct Hs; unfold pool_weight; cbn [p_futures p_work_ids p_calls p_slots p_returned p_cancel p_alive];
      rewrite ?set_nth_length, ?map_length.
    - rewrite map_app, sum_app. cbn [map sum].  cbn. lia.
    - cbn [length]. lia.
    - cbn [map sum b2n]. lia.
    - cbn [b2n]. lia.
    - rewrite sum_dead. cbn [b2n]. lia.
  Qed.

  Lemma weight_worker p b w p' b' w' :
    worker_step tasks p b w p' b' w' -> pool_weight p' + board_weight b' < pool_weight p + board_weight b.
  Proof.
    intros Hs. destruct Hs; unfold pool_weight, board_weight;
      cbn [p_futures p_work_ids p_calls p_slots p_returned p_cancel p_alive b_queue b_watch];
      rewrite ?map_app, ?sum_app, ?app_length; cbn [map sum slot_weight length].
    - assert (talk i = 2 * length (t_talk t)) by (unfold talk; now rewrite H). lia.
    - lia.
    - lia.
    - lia.
    - lia.
  Qed.

  Lemma weight_kill (p p' : pool R) : kill_step p p' -> pool_weight p' < pool_weight p.
  Proof.
    intros Hs. destruct Hs; unfold pool_weight;
      cbn [p_futures p_work_ids p_calls p_slots p_returned p_cancel p_alive];
      rewrite ?map_app, ?sum_app; cbn [map sum slot_weight].
    destruct s; [| | | |contradiction]; cbn [slot_weight]; lia.
  Qed.

  Lemma weight_monitor b b' : monitor_step tasks b b' -> board_weight b' < board_weight b.
  Proof.
    intros Hs. destruct Hs; unfold board_weight; cbn.
    - destruct (monitor_read m msg); lia.
    - lia.
  Qed.

  Lemma weight_step s s' :
    step s s' -> (st_main s = Calling \/ st_main s = Watched -> st_pool s = no_pool) -> weight s' < weight s.
  Proof.
    intros Hs He. destruct Hs as [? ? [s1 s2 H|c rs p p' b w H|c rs p p' b b' w w' H|c rs p b b' w H]|c rs p p' b w H].
    - exact (weight_main _ _ H He).
    - unfold weight. cbn. pose proof (weight_manager _ _ H). lia.
    - unfold weight. cbn. pose proof (weight_worker _ _ _ _ _ _ H). lia.
    - unfold weight. cbn. pose proof (weight_monitor _ _ H). lia.
    - unfold weight. cbn. pose proof (weight_kill _ _ H). lia.
  Qed.

  (** No infinite execution. *)
  Lemma terminating q stop w0 (f : nat -> state) :
    f 0 = start q stop w0 -> ~ (forall k, step (f k) (f (S k))).
  Proof.
    intros H0 Hf.
    assert (Hr : forall k, steps (start q stop w0) (f k)).
    { induction k; [rewrite H0; constructor|]. exact (steps_next tasks n _ _ _ IHk (Hf k)). }
    assert (Hw : forall k, weight (f k) + k <= weight (f 0)).
    { induction k; [lia|].
      pose proof (weight_step _ _ (Hf k) (early_reachable tasks n q stop w0 _ (Hr k))). lia. }
    specialize (Hw (S (weight (f 0)))). lia.
  Qed.

  (** ** No deadlock *)

  (** Where an unfinished task is. *)
  Definition located (p : pool R) : Prop :=
    (p_alive p = true -> forall i,
        (In i (p_work_ids p) <-> nth_error (p_futures p) i = Some Pending) /\
        (nth_error (p_futures p) i = Some Running ->
         In i (p_calls p ++ busy (p_slots p) ++ wrote (p_slots p) ++ p_returned p) \/ In Dead (p_slots p))) /\
    (p_alive p = false -> forallb settled (p_futures p) = true).

  Lemma located_no_pool : located no_pool.
  Proof. split; cbn; auto. discriminate. Qed.

  Lemma located_new_pool : located (new_pool n).
  Proof. split; cbn; [|discriminate]. intros _ i. split; [|destruct i; discriminate]. split; [tauto|destruct i; discriminate]. Qed.

  Lemma located_shut c p : located p -> located (shut c p).
  Proof. intros [A B]. split; auto. Qed.

  Lemma settled_break (fs : list (future R)) : forallb settled (map break_future fs) = true.
  Proof. induction fs as [|f fs IH]; cbn; auto. rewrite IH. now destruct f. Qed.

  Lemma located_manager p p' : manager_step tasks n p p' -> placed tasks p -> located p -> located p'.
  Proof.
    intros Hs [A B C D E F G H] [L M].
    destruct Hs as [i fs ids calls slots ret sh ca br st wr ki H1 H2
      |i t fs ids calls slots ret sh ca br st wr ki H1
      |fs ids calls slots ret br st wr ki |fs ids calls slots ret ca br st wr ki H1
      |fs ids calls slots ret sh ca br st wr ki H1]; cbn in *; split; cbn; try discriminate.
    - intros _ j. specialize (L eq_refl). split.
      + assert (Hi : ~ In i ids). { inversion A as [|x l Hx Hy]; subst. intro Hi. apply Hx, in_app_iff. auto. }
        destruct (Nat.eq_dec j i) as [->|Hn].
        * split; [contradiction|]. intro Hj.
          rewrite set_nth_same in Hj by (apply nth_error_Some; congruence). discriminate.
        * rewrite set_nth_other by exact Hn. destruct (L j) as [L1 _]. rewrite <- L1. split; auto.
          intros [Hx|Hx]; auto. congruence.
      + intro Hj. apply nth_error_set_inv in Hj as [[-> _]|Hj]; [left; rewrite !in_app_iff; cbn; auto|].
        destruct (L j) as [_ L2]. destruct (L2 Hj) as [Hx|Hx]; auto. left. rewrite !in_app_iff in *. tauto.
    - intros _ j. specialize (L eq_refl). destruct (L j) as [L1 L2].
      assert (Hw : In i wr) by (apply F; rewrite in_app_iff; cbn; auto).
      assert (Hst : In i st) by (apply E; rewrite in_app_iff; auto).
      assert (Hi : ~ In i ids).
      { intro Hi. apply (NoDup_app_disjoint A i Hi). rewrite in_app_iff. auto. }
      assert (Hil : i < length fs) by (apply B; rewrite !in_app_iff; auto).
      split.
      + destruct (Nat.eq_dec j i) as [->|Hn].
        * rewrite set_nth_same by exact Hil. split; [contradiction|discriminate].
        * now rewrite set_nth_other by exact Hn.
      + intro Hj. destruct (Nat.eq_dec j i) as [->|Hn].
        * rewrite set_nth_same in Hj by exact Hil. discriminate.
        * rewrite set_nth_other in Hj by exact Hn. destruct (L2 Hj) as [Hx|Hx]; auto.
          left. rewrite !in_app_iff in *. cbn in Hx. destruct Hx as [Hx|[Hx|[Hx|[Hx|Hx]]]]; auto. congruence.
    - intros _ j. specialize (L eq_refl). destruct (L j) as [L1 L2]. split.
      + split; [intros []|]. intro Hj. apply nth_error_map_inv in Hj as (f & Hf & Hj).
        destruct f; discriminate.
      + intro Hj. apply nth_error_map_inv in Hj as (f & Hf & Hj). destruct f; try discriminate. auto.
    - auto.
    - intros _. apply settled_break.
  Qed.

  Lemma located_worker p b w p' b' w' :
    worker_step tasks p b w p' b' w' -> located p -> located p'.
  Proof.
    intros Hs [L M]. destruct Hs; cbn in *; split; cbn; auto; intros Hal j; specialize (L Hal j) as [L1 L2];
      split; auto; intro Hj; destruct (L2 Hj) as [Hx|Hx];
      rewrite ?busy_app, ?wrote_app in *; cbn in *; rewrite ?in_app_iff in *; cbn in *;
      rewrite ?in_app_iff in *; try tauto.
    - destruct Hx as [Hx|[Hx|Hx]]; try tauto. discriminate.
    - destruct Hx as [Hx|[Hx|Hx]]; try tauto. discriminate.
    - destruct Hx as [Hx|[Hx|Hx]]; try tauto. discriminate.
    - destruct Hx as [Hx|[Hx|Hx]]; try tauto. discriminate.
    - destruct Hx as [Hx|[Hx|Hx]]; try tauto. discriminate.
  Qed.

  Lemma located_kill (p p' : pool R) : kill_step p p' -> located p -> located p'.
  Proof.
    intros Hs [L M]. destruct Hs; cbn in *; split; cbn; auto. intros Hal j. specialize (L Hal j) as [L1 L2].
    split; auto. intros _. right. rewrite in_app_iff. cbn. auto.
  Qed.

  (** What the main thread can rely on. *)
  Definition live (s : state) : Prop :=
    let p := st_pool s in
    let working := (0 < n)%Z /\ length (p_slots p) = Z.to_nat n in
    let open := (p_alive p = true \/ p_broken p = true) /\ (p_shutdown p = true -> p_broken p = true) /\ p_cancel p = false
                /\ ~ In Cancelled (p_futures p) in
    match st_main s with
    | Calling | Watched => True
    | Submitting => working /\ open
    | Collecting waiting =>
        working /\ open /\ length (p_futures p) = length tasks /\ (forall i, In i waiting -> i < length tasks)
    | Caught _ | Stopped _ | CancelAsked _ | Reraised _ => True
    | Joining _ => working /\ p_shutdown p = true
    | Closing _ | Exited _ => True
    end.

  Lemma manager_keeps p p' :
    manager_step tasks n p p' ->
    length (p_slots p') = length (p_slots p) /\ length (p_futures p') = length (p_futures p) /\
    (p_shutdown p = true -> p_shutdown p' = true) /\
    ((p_alive p = true \/ p_broken p = true) /\ (p_shutdown p = true -> p_broken p = true) /\ p_cancel p = false
      /\ ~ In Cancelled (p_futures p) ->
     (p_alive p' = true \/ p_broken p' = true) /\ (p_shutdown p' = true -> p_broken p' = true) /\ p_cancel p' = false
      /\ ~ In Cancelled (p_futures p')).
  Proof.
    intros []; cbn; rewrite ?set_nth_length, ?map_length; repeat split; auto; try tauto; try (intro; tauto);
      try (intros Hx; apply In_nth_error in Hx as [k Hk]).
    - apply nth_error_set_inv in Hk as [[_ Hk]|Hk]; [discriminate|]. apply nth_error_In in Hk. tauto.
    - apply nth_error_set_inv in Hk as [[_ Hk]|Hk]; [discriminate|]. apply nth_error_In in Hk. tauto.
    - destruct H as (_ & _ & H & _). discriminate.
    - apply nth_error_map_inv in Hk as (f & Hf & Hk). destruct f; try discriminate.
      apply nth_error_In in Hf. tauto.
  Qed.

  Lemma worker_keeps p b w p' b' w' :
    worker_step tasks p b w p' b' w' ->
    length (p_slots p') = length (p_slots p) /\ p_futures p' = p_futures p /\
    p_shutdown p' = p_shutdown p /\ p_alive p' = p_alive p /\ p_broken p' = p_broken p /\ p_cancel p' = p_cancel p.
  Proof. intros []; cbn; rewrite ?app_length; cbn; auto 10. Qed.

  Lemma kill_keeps (p p' : pool R) :
    kill_step p p' ->
    length (p_slots p') = length (p_slots p) /\ p_futures p' = p_futures p /\
    p_shutdown p' = p_shutdown p /\ p_alive p' = p_alive p /\ p_broken p' = p_broken p /\ p_cancel p' = p_cancel p.
  Proof. intros []; cbn; rewrite ?app_length; cbn; auto 10. Qed.

  Lemma live_step s s' :
    step s s' -> located (st_pool s) -> live s -> live s'.
  Proof.
    intros Hs Hloc. destruct Hs as [? ? [s1 s2 H|c rs p p' b w H|c rs p p' b b' w w' H|c rs p b b' w H]|c rs p p' b w H].
    - destruct H; unfold live; cbn in *; auto.
      + intros _. rewrite repeat_length. repeat split; auto.
      + intros [Hw (Ha & Hb & Hc & Hd)]. repeat split; try tauto.
        rewrite in_app_iff. cbn. intros [Hx|[Hx|[]]]; [tauto|discriminate].
      + intros [Hw _]. tauto.
      + intros [Hw Ho]. repeat split; try tauto. intros i Hi. apply in_seq in Hi. lia.
      + intros (Hw & Ho & Hl & Hx). repeat split; try tauto. intros j Hj. apply Hx. rewrite in_app_iff in *. cbn. tauto.
      + tauto.
      + tauto.
    - apply manager_keeps in H as (H1 & H2 & H3 & H4). unfold live. cbn. rewrite H1, H2.
      destruct c; auto; tauto.
    - apply worker_keeps in H as (H1 & H2 & H3 & H4 & H5 & H6). unfold live. cbn. rewrite H1, H2, H3, H4, H5, H6. auto.
    - auto.
    - apply kill_keeps in H as (H1 & H2 & H3 & H4 & H5 & H6). unfold live. cbn. rewrite H1, H2, H3, H4, H5, H6. auto.
  Qed.

  Lemma located_main s s' : main_step tasks n s s' -> live s -> located (st_pool s) -> located (st_pool s').
  Proof.
    intros Hs Hl L. destruct Hs; cbn in *; auto using located_new_pool, located_shut.
    destruct Hl as [_ (Ha & Hb & Hc & Hd)]. cbn in *. destruct Ha as [Ha|Ha]; [|congruence].
    destruct L as [L M]. split; cbn; [|congruence]. intros Hal i. destruct (L Hal i) as [L1 L2].
    destruct (Nat.lt_total i (length (p_futures p))) as [Hi|[->|Hi]].
    - rewrite nth_error_app1 by exact Hi. split; auto. rewrite <- L1, in_app_iff. cbn. split; [|tauto].
      intros [Hx|[Hx|[]]]; auto. lia.
    - rewrite nth_error_app2, Nat.sub_diag by lia. cbn. split; [|discriminate].
      rewrite in_app_iff. cbn. tauto.
    - assert (Hx : nth_error (p_futures p ++ [Pending]) i = None) by (apply nth_error_None; rewrite app_length; cbn; lia).
      assert (Hy : nth_error (p_futures p) i = None) by (apply nth_error_None; lia).
      rewrite Hx. split; [|discriminate]. rewrite in_app_iff, L1, Hy. cbn. split; [|discriminate].
      intros [Hz|[Hz|[]]]; [discriminate|lia].
  Qed.

  Lemma live_reachable q stop w0 s : steps (start q stop w0) s -> live s /\ located (st_pool s).
  Proof.
    revert s. apply (invariant tasks n (fun s => live s /\ located (st_pool s))).
    - split; [exact I|exact located_no_pool].
    - intros s s' Hr [IH L] Hs. split; [exact (live_step s s' Hs L IH)|].
      pose proof (placed_reachable tasks n q stop w0 s Hr) as P.
      destruct Hs as [? ? [s1 s2 H|c rs p p' b w H|c rs p p' b b' w w' H|c rs p b b' w H]|c rs p p' b w H]; cbn in *; auto.
      + exact (located_main _ _ H IH L).
      + exact (located_manager _ _ H P L).
      + exact (located_worker _ _ _ _ _ _ H L).
      + exact (located_kill _ _ H L).
  Qed.

  Lemma slots_cases (l : list slot) :
    In Dead l \/ (exists l1 i rest l2, l = l1 ++ Busy i rest :: l2) \/ (exists l1 i l2, l = l1 ++ Writing i :: l2 \/ l = l1 ++ Wrote i :: l2)
    \/ l = repeat Idle (length l).
  Proof.
    induction l as [|s l IH]; [cbn; auto|].
    destruct s as [|i rest|i|i|].
    - destruct IH as [IH|[(l1 & i & rest & l2 & ->)|[(l1 & i & l2 & [-> | ->])|IH]]].
      + left. right. exact IH.
      + right. left. exists (Idle :: l1), i, rest, l2. reflexivity.
      + right. right. left. exists (Idle :: l1), i, l2. left. reflexivity.
      + right. right. left. exists (Idle :: l1), i, l2. right. reflexivity.
      + right. right. right. cbn. now rewrite <- IH.
    - right. left. exists [], i, rest, l. reflexivity.
    - right. right. left. exists [], i, l. left. reflexivity.
    - right. right. left. exists [], i, l. right. reflexivity.
    - left. left. reflexivity.
  Qed.

  (** While a future is unfinished the pool can move. *)
  Lemma pool_moves c rs p b w :
    placed tasks p -> located p -> p_alive p = true -> p_slots p <> [] -> (0 < n)%Z ->
    forallb settled (p_futures p) = false ->
    exists s', move tasks n (State c rs p b w) s'.
  Proof.
    intros P L Hal Hs Hn Hf. destruct p as [fs ids calls slots ret sh ca al br st wr ki]. cbn in *. subst al.
    destruct L as [L _]. specialize (L eq_refl). cbn in L.
    destruct (slots_cases slots) as [Hd|[(l1 & i & rest & l2 & ->)|[(l1 & i & l2 & [-> | ->])|Hi]]].
    - eexists. apply s_manager. apply g_broken. exact Hd.
    - assert (Hil : i < length tasks).
      { pose proof (pl_len _ _ P) as H1. cbn in H1. enough (i < length fs) by lia. apply (pl_bound _ _ P). cbn.
        rewrite !in_app_iff. right. right. apply (pl_begun _ _ P). cbn. rewrite busy_app. cbn. rewrite !in_app_iff. cbn. auto. }
      destruct (nth_error tasks i) as [t|] eqn:Ht; [|apply nth_error_None in Ht; lia].
      destruct rest as [|msg rest].
      + eexists. apply s_worker. apply w_open. exact Ht.
      + destruct b as [q stop v log]. eexists. apply s_worker. apply w_talk.
    - assert (Hil : i < length tasks).
      { pose proof (pl_len _ _ P) as H1. cbn in H1. enough (i < length fs) by lia. apply (pl_bound _ _ P). cbn.
        rewrite !in_app_iff. right. right. apply (pl_begun _ _ P). cbn. rewrite busy_app. cbn. rewrite !in_app_iff. cbn. auto. }
      destruct (nth_error tasks i) as [t|] eqn:Ht; [|apply nth_error_None in Ht; lia].
      eexists. apply s_worker. apply w_write. exact Ht.
    - eexists. apply s_worker. apply w_return.
    - destruct ret as [|i ret].
      + destruct calls as [|i calls].
        * destruct ids as [|i ids].
          -- exfalso. assert (Hx : forallb settled fs = true); [|congruence].
             apply forallb_forall. intros f Hin. apply In_nth_error in Hin as [k Hk].
             destruct (L k) as [L1 L2]. destruct f; auto.
             ++ destruct (proj2 L1 Hk).
             ++ destruct (L2 Hk) as [Hx|Hx]; rewrite Hi in Hx.
                ** rewrite busy_repeat, wrote_repeat in Hx. destruct Hx.
                ** apply repeat_spec in Hx. discriminate.
          -- eexists. apply s_manager. apply g_hand; [cbn; lia|]. apply L. cbn. auto.
        * destruct slots as [|s slots]; [contradiction|]. cbn in Hi. injection Hi as -> Hi.
          assert (Hil : i < length tasks).
          { pose proof (pl_len _ _ P) as H1. cbn in H1. enough (i < length fs) by lia. apply (pl_bound _ _ P). cbn.
            rewrite !in_app_iff. cbn. auto. }
          destruct (nth_error tasks i) as [t|] eqn:Ht; [|apply nth_error_None in Ht; lia].
          eexists. apply s_worker. apply (w_take tasks i t [] slots). exact Ht.
      + assert (Hil : i < length tasks).
        { pose proof (pl_len _ _ P) as H1. cbn in H1. enough (i < length fs) by lia. apply (pl_bound _ _ P). cbn.
          rewrite !in_app_iff. right. right. apply (pl_begun _ _ P). cbn. rewrite in_app_iff. right.
          apply (pl_back _ _ P). cbn. rewrite in_app_iff. cbn. auto. }
        destruct (nth_error tasks i) as [t|] eqn:Ht; [|apply nth_error_None in Ht; lia].
        eexists. apply s_manager. eapply g_receive. exact Ht.
  Qed.

  (** No deadlock: an execution that cannot go on has left run. *)
  Lemma no_deadlock q stop w0 s :
    steps (start q stop w0) s -> (forall s', ~ move tasks n s s') -> exists o, st_main s = Exited o.
  Proof.
    intros Hr Hstuck. pose proof (live_reachable q stop w0 s Hr) as [Hl L].
    pose proof (placed_reachable tasks n q stop w0 s Hr) as P.
    destruct s as [c rs p b w]. cbn in *.
    destruct c as [| | |waiting|e|e|e|e|[x|e]|x|o]; [exfalso ..|eauto].
    - destruct tasks as [|t ts] eqn:E; eapply Hstuck; apply s_main; [now apply m_empty|now apply m_watch].
    - destruct (Z_lt_le_dec 0 n) as [Hn|Hn]; eapply Hstuck; apply s_main; [now apply m_pool|now apply m_no_pool].
    - pose proof (pl_len _ _ P) as H1. destruct (Nat.eq_dec (length (p_futures p)) (length tasks)) as [H|H].
      + eapply Hstuck. apply s_main. now apply m_submitted.
      + destruct (p_broken p) eqn:Hb; eapply Hstuck; apply s_main;
          [apply m_submit_broken; [lia|exact Hb]|apply m_submit; [lia|exact Hb]].
    - destruct Hl as ((Hn & Hs) & (Ha & Hb & Hc & Hd) & Hlen & Hw). cbn in *. destruct waiting as [|i waiting].
      + eapply Hstuck. apply s_main. apply m_collected.
      + destruct (p_alive p) eqn:Hal.
        * destruct (forallb settled (p_futures p)) eqn:Hf.
          -- assert (Hi : i < length (p_futures p)) by (rewrite Hlen; apply Hw; cbn; auto).
             destruct (nth_error (p_futures p) i) as [f|] eqn:He; [|apply nth_error_None in He; lia].
             pose proof (nth_error_In _ _ He) as Hin. rewrite forallb_forall in Hf. specialize (Hf f Hin).
             destruct f as [| | |[r|e]]; try discriminate; [contradiction| |].
             ++ eapply Hstuck. apply s_main. eapply (m_collect tasks n [] i). exact He.
             ++ destruct (is_exception e) eqn:Hex; eapply Hstuck; apply s_main.
                ** eapply (m_catch tasks n [] i); eassumption.
                ** eapply (m_escape tasks n [] i); eassumption.
          -- assert (Hne : p_slots p <> []) by (intro Hx; rewrite Hx in Hs; cbn in Hs; lia).
             destruct (pool_moves (Collecting (i :: waiting)) rs p b w P L Hal Hne Hn Hf) as [s' Hs'].
             exact (Hstuck s' Hs').
        * destruct L as [_ L]. specialize (L Hal). rewrite forallb_forall in L.
          assert (Hi : i < length (p_futures p)) by (rewrite Hlen; apply Hw; cbn; auto).
          destruct (nth_error (p_futures p) i) as [f|] eqn:He; [|apply nth_error_None in He; lia].
          pose proof (nth_error_In _ _ He) as Hin. specialize (L f Hin).
          destruct f as [| | |[r|e]]; try discriminate; [contradiction| |].
          -- eapply Hstuck. apply s_main. eapply (m_collect tasks n [] i). exact He.
          -- destruct (is_exception e) eqn:Hex; eapply Hstuck; apply s_main.
             ++ eapply (m_catch tasks n [] i); eassumption.
             ++ eapply (m_escape tasks n [] i); eassumption.
    - eapply Hstuck. apply s_main. apply m_stop.
    - eapply Hstuck. apply s_main. apply m_cancel.
    - eapply Hstuck. apply s_main. apply m_terminate.
    - eapply Hstuck. apply s_main. apply m_reraise.
    - destruct Hl as ((Hn & Hs) & Hsh). cbn in *.
      destruct (p_alive p) eqn:Hal.
      + destruct (forallb settled (p_futures p)) eqn:Hf.
        * destruct p as [fs ids calls slots ret sh ca al br st wr ki]. cbn in *. subst.
          eapply Hstuck. apply s_manager. apply g_exit. exact Hf.
        * assert (Hne : p_slots p <> []) by (intro Hx; rewrite Hx in Hs; cbn in Hs; lia).
          destruct (pool_moves (Joining (Ok x)) rs p b w P L Hal Hne Hn Hf) as [s' Hs']. exact (Hstuck s' Hs').
      + eapply Hstuck. apply s_main. apply m_joined. exact Hal.
    - destruct Hl as ((Hn & Hs) & Hsh). cbn in *.
      destruct (p_alive p) eqn:Hal.
      + destruct (forallb settled (p_futures p)) eqn:Hf.
        * destruct p as [fs ids calls slots ret sh ca al br st wr ki]. cbn in *. subst.
          eapply Hstuck. apply s_manager. apply g_exit. exact Hf.
        * assert (Hne : p_slots p <> []) by (intro Hx; rewrite Hx in Hs; cbn in Hs; lia).
          destruct (pool_moves (Joining (Err e)) rs p b w P L Hal Hne Hn Hf) as [s' Hs']. exact (Hstuck s' Hs').
      + eapply Hstuck. apply s_main. apply m_joined_raise. exact Hal.
    - eapply Hstuck. apply s_main. apply m_return.
  Qed.
End Results.
