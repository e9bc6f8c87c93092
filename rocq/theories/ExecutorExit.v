(** Exit paths of run: the monitor, cancelled tasks, and tasks still at work. *)
From Coq Require Import Lia Permutation.
From Verif Require Import Base Num NdArray NdFacts Particles Solver Monitor Executor SpecExecutor ExecutorFacts ExecutorMain.

Section Exit.
  Context {R W : Type} (tasks : list (task R W)) (n : Z).
  Notation state := (Executor.state R W).
  Notation step := (Executor.step tasks n).
  Notation steps := (Executor.steps tasks n).

  (** ** The monitor at the exit of run *)

  Definition gone (v : watch) : Prop := forall m, v <> Watching m.

  Lemma gone_terminate v : gone (terminate v).
  Proof. intro m. destruct v; discriminate. Qed.

  Lemma gone_monitor b b' : monitor_step tasks b b' -> gone (b_watch b) -> gone (b_watch b').
  Proof. intros Hs H. destruct Hs; cbn in *; destruct (H m eq_refl). Qed.

  Definition exit_inv (s : state) : Prop :=
    match st_main s with
    | Calling | Reraised _ | Exited (Ok _) => gone (b_watch (st_board s))
    | Exited (Err e) => gone (b_watch (st_board s)) \/ (n <= 0)%Z \/ is_exception e = false \/ killed s
    | Joining (Err e) => is_exception e = false \/ killed s
    | _ => True
    end.

  Lemma exit_inv_reachable q stop w0 s : steps (start q stop w0) s -> exit_inv s.
  Proof.
    revert s. apply (invariant tasks n exit_inv); [intro m; discriminate|].
    intros s s' Hr IH Hs. pose proof (placed_reachable tasks n q stop w0 s Hr) as P.
    destruct Hs as [? ? [s1 s2 H|c rs p p' b w H|c rs p p' b b' w w' H|c rs p b b' w H]|c rs p p' b w H]; unfold exit_inv, killed in *; cbn in *.
    - destruct H; cbn in *; auto using gone_terminate.
      + right. destruct (p_killed p) eqn:E; auto. destruct (pl_alive _ _ P E). congruence.
    - assert (Hk : p_killed p = true -> p_killed p' = true) by (destruct H; auto).
      destruct c as [| | |wt|e|e|e|e|[x|e]|x|[x|e]]; tauto.
    - assert (Hk : p_killed p = true -> p_killed p' = true) by (destruct H; auto).
      assert (Hw : b_watch b' = b_watch b) by (destruct H; auto). rewrite Hw.
      destruct c as [| | |wt|e|e|e|e|[x|e]|x|[x|e]]; tauto.
    - pose proof (gone_monitor _ _ H) as Hg. destruct c as [| | |wt|e|e|e|e|[x|e]|x|[x|e]]; tauto.
    - assert (Hk : p_killed p = true -> p_killed p' = true) by (destruct H; auto).
      destruct c as [| | |wt|e|e|e|e|[x|e]|x|[x|e]]; tauto.
  Qed.

  (** ** Cancelled tasks *)

  Definition quiet (p : pool R) : Prop :=
    forall i, nth_error (p_futures p) i = Some Cancelled -> ~ In i (p_work_ids p ++ p_calls p ++ p_started p).

  Lemma quiet_step s s' :
    step s s' -> placed tasks (st_pool s) -> located (st_pool s) -> quiet (st_pool s) -> quiet (st_pool s').
  Proof.
    intros Hs P L Q. destruct Hs as [? ? [s1 s2 H|c rs p p' b w H|c rs p p' b b' w w' H|c rs p b b' w H]|c rs p p' b w H]; cbn in *.
    - destruct H; cbn in *; auto.
      + intros i Hi. destruct i; discriminate.
      + intros i Hi. cbn in *. destruct (Nat.lt_ge_cases i (length (p_futures p))) as [Hl|Hl].
        * rewrite nth_error_app1 in Hi by exact Hl. specialize (Q i Hi). rewrite !in_app_iff in *. cbn.
          intros [[Hx|[Hx|[]]]|Hx]; [tauto|lia|tauto].
        * rewrite nth_error_app2 in Hi by exact Hl. destruct (i - length (p_futures p)) as [|k]; [discriminate|destruct k; discriminate].
    - destruct P as [A B C D E F G I]. destruct L as [L _]. destruct H; unfold quiet in *; cbn in *.
      + intros j Hj Hx. apply nth_error_set_inv in Hj as [[_ Hj]|Hj]; [discriminate|].
        apply (Q j Hj). rewrite ?in_app_iff in *. cbn in *. rewrite ?in_app_iff in *. cbn in *. tauto.
      + intros j Hj. apply nth_error_set_inv in Hj as [[_ Hj]|Hj]; [discriminate|]. apply Q, Hj.
      + intros j Hj Hx. apply nth_error_map_inv in Hj as (f & Hf & Hj).
        assert (Hy : In j (ids ++ calls ++ st)) by (apply in_app_iff; auto).
        destruct f; try discriminate.
        * apply (L eq_refl j) in Hf. exact (NoDup_app_disjoint A j Hf Hx).
        * exact (Q j Hf Hy).
      + exact Q.
      + intros j Hj. apply nth_error_map_inv in Hj as (f & Hf & Hj). destruct f; try discriminate. apply Q, Hf.
    - destruct H; unfold quiet in *; cbn in *; auto.
      intros j Hj Hx. apply (Q j Hj). rewrite ?in_app_iff in *. cbn in *. rewrite ?in_app_iff in *. cbn in *. tauto.
    - exact Q.
    - destruct H; exact Q.
  Qed.

  Lemma quiet_reachable q stop w0 s : steps (start q stop w0) s -> quiet (st_pool s).
  Proof.
    revert s. apply (invariant tasks n (fun s => quiet (st_pool s))).
    - intros i Hi. destruct i; discriminate.
    - intros s s' Hr IH Hs. apply (quiet_step s s' Hs); auto.
      + exact (placed_reachable tasks n q stop w0 s Hr).
      + exact (proj2 (live_reachable tasks n q stop w0 s Hr)).
  Qed.

  Lemma cancelled_step q stop w0 s s' i :
    steps (start q stop w0) s -> step s s' ->
    nth_error (p_futures (st_pool s)) i = Some Cancelled -> nth_error (p_futures (st_pool s')) i = Some Cancelled.
  Proof.
    intros Hr Hs Hi. pose proof (placed_reachable tasks n q stop w0 s Hr) as P.
    pose proof (quiet_reachable q stop w0 s Hr i Hi) as Q. pose proof (early_reachable tasks n q stop w0 s Hr) as He.
    destruct Hs as [? ? [s1 s2 H|c rs p p' b w H|c rs p p' b b' w w' H|c rs p b b' w H]|c rs p p' b w H]; cbn in *.
    - destruct H; cbn in *; auto.
      + rewrite (He (or_intror eq_refl)) in Hi. destruct i; discriminate.
      + rewrite nth_error_app1; auto. apply nth_error_Some. congruence.
    - destruct H; cbn in *; auto.
      + rewrite set_nth_other; [exact Hi|]. intros ->. congruence.
      + rewrite set_nth_other; [exact Hi|]. intros ->. apply Q. rewrite !in_app_iff. right. right.
        apply (pl_begun _ _ P). cbn. rewrite in_app_iff. right. apply (pl_back _ _ P). cbn. rewrite in_app_iff. cbn. auto.
      + rewrite nth_error_map, Hi. reflexivity.
      + rewrite nth_error_map, Hi. reflexivity.
    - destruct H; cbn in *; auto.
    - exact Hi.
    - destruct H; exact Hi.
  Qed.

  (** A cancelled task is never begun. *)
  Lemma cancelled_never q stop w0 s s' i :
    steps (start q stop w0) s -> steps s s' -> nth_error (p_futures (st_pool s)) i = Some Cancelled ->
    ~ begun s i /\ ~ begun s' i.
  Proof.
    intros Hr Hs Hi. split.
    - intro Hb. apply (quiet_reachable q stop w0 s Hr i Hi). rewrite !in_app_iff. auto.
    - assert (Hi' : nth_error (p_futures (st_pool s')) i = Some Cancelled).
      { induction Hs as [s|a b c Hab IH Hbc]; auto. specialize (IH Hr Hi).
        exact (cancelled_step q stop w0 b c i (steps_trans tasks n _ _ _ Hr Hab) Hbc IH). }
      intro Hb. apply (quiet_reachable q stop w0 s' (steps_trans tasks n _ _ _ Hr Hs) i Hi').
      rewrite !in_app_iff. auto.
  Qed.

  (** The request to cancel, once seen by the manager thread, removes all tasks not handed over. *)
  Lemma cancel_all p p' i :
    manager_step tasks n p p' -> p_cancel p = true -> p_cancel p' = false -> In i (p_work_ids p) -> located p ->
    nth_error (p_futures p') i = Some Cancelled.
  Proof.
    intros H Hc Hc' Hi [L _]. destruct H; cbn in *; try congruence.
    apply (L eq_refl) in Hi. rewrite nth_error_map, Hi. reflexivity.
  Qed.

  (** ** The end of everything *)

  Definition opened (s : state) : Prop :=
    let p := st_pool s in
    let full := length (p_futures p) = length tasks /\ length (p_slots p) = Z.to_nat n /\ (0 < n)%Z in
    match st_main s with
    | Calling | Watched => True
    | Submitting => length (p_slots p) = Z.to_nat n /\ (0 < n)%Z
    | Exited _ => (tasks = [] /\ p = no_pool) \/ ((n <= 0)%Z /\ p = no_pool) \/ killed s \/ full
    | _ => killed s \/ full
    end.

  Lemma opened_reachable q stop w0 s : steps (start q stop w0) s -> opened s.
  Proof.
    revert s. apply (invariant tasks n opened); [exact I|].
    intros s s' Hr IH Hs. pose proof (placed_reachable tasks n q stop w0 s Hr) as P.
    pose proof (early_reachable tasks n q stop w0 s Hr) as He.
    destruct Hs as [? ? [s1 s2 H|c rs p p' b w H|c rs p p' b b' w w' H|c rs p b b' w H]|c rs p p' b w H]; unfold opened, killed in *; cbn in *.
    - destruct H; cbn in *; auto; try tauto.
      + rewrite repeat_length. auto.
      + left. destruct (p_killed p) eqn:E; auto. destruct (pl_alive _ _ P E). congruence.
    - destruct c; auto; try (destruct (He (or_introl eq_refl)); fail);
        pose proof (manager_keeps tasks n _ _ H) as (K1 & K2 & _ & _); rewrite ?K1, ?K2;
        assert (Hk : p_killed p = true -> p_killed p' = true) by (destruct H; auto); try tauto.
      destruct IH as [[Ht Hp]|[[Hn Hp]|IH]]; [subst; inversion H..|tauto].
    - destruct c; auto;
        pose proof (worker_keeps tasks _ _ _ _ _ _ H) as (K1 & K2 & _); rewrite ?K1, ?K2;
        assert (Hk : p_killed p = true -> p_killed p' = true) by (destruct H; auto); try tauto.
      destruct IH as [[Ht Hp]|[[Hn Hp]|IH]]; [subst; inversion H; destruct l1; discriminate..|tauto].
    - exact IH.
    - destruct c; auto; pose proof (kill_keeps _ _ H) as (K1 & K2 & _); rewrite ?K1, ?K2;
        assert (Hk : p_killed p = true -> p_killed p' = true) by (destruct H; auto); try tauto.
      destruct IH as [[Ht Hp]|[[Hn Hp]|IH]]; [subst; inversion H; destruct l1; discriminate..|tauto].
  Qed.

  (** When nothing can happen any more, every task that was begun has been completed. *)
  Lemma all_settled q stop w0 s :
    steps (start q stop w0) s -> final tasks n s -> ~ killed s ->
    forallb settled (p_futures (st_pool s)) = true.
  Proof.
    intros Hr Hf Hk. pose proof (opened_reachable q stop w0 s Hr) as Ho.
    pose proof (live_reachable tasks n q stop w0 s Hr) as [_ L].
    pose proof (placed_reachable tasks n q stop w0 s Hr) as P.
    destruct (no_deadlock tasks n q stop w0 s Hr Hf) as [o Hm]. unfold opened in Ho. rewrite Hm in Ho.
    destruct Ho as [[_ Hp]|[[_ Hp]|[Hx|(H1 & H2 & H3)]]]; try (rewrite Hp; reflexivity); [contradiction|].
    destruct (p_alive (st_pool s)) eqn:Ha; [|exact (proj2 L Ha)].
    destruct (forallb settled (p_futures (st_pool s))) eqn:Hs; auto. exfalso.
    destruct s as [c rs p b w]. cbn in *.
    destruct (pool_moves tasks n c rs p b w P L Ha) as [s' Hs']; auto.
    - intro E. rewrite E in H2. cbn in H2. lia.
    - exact (Hf s' Hs').
  Qed.

  Lemma begun_completed q stop w0 s i :
    steps (start q stop w0) s -> final tasks n s -> ~ killed s -> begun s i -> completed s i.
  Proof.
    intros Hr Hf Hk Hb. pose proof (all_settled q stop w0 s Hr Hf Hk) as Hs.
    pose proof (placed_reachable tasks n q stop w0 s Hr) as P.
    assert (Hi : i < length (p_futures (st_pool s))) by (apply (pl_bound _ _ P); rewrite !in_app_iff; auto).
    destruct (nth_error (p_futures (st_pool s)) i) as [f|] eqn:Ef; [|apply nth_error_None in Ef; lia].
    rewrite forallb_forall in Hs. pose proof (Hs f (nth_error_In _ _ Ef)) as Hset.
    destruct f as [| | |r]; try discriminate.
    - exfalso. apply (quiet_reachable q stop w0 s Hr i Ef). rewrite !in_app_iff. auto.
    - destruct (pl_done _ _ P i r Ef) as [[Hw _]|[Hbr _]]; auto. exfalso. unfold killed in Hk.
      destruct (p_killed (st_pool s)) eqn:E; [congruence|]. destruct (pl_alive _ _ P E). congruence.
  Qed.

  (** Every task has been completed or was cancelled. *)
  Lemma completed_or_cancelled q stop w0 s i :
    steps (start q stop w0) s -> final tasks n s -> ~ killed s -> (0 < n)%Z -> i < length tasks ->
    completed s i \/ nth_error (p_futures (st_pool s)) i = Some Cancelled.
  Proof.
    intros Hr Hf Hk Hn Hi. pose proof (all_settled q stop w0 s Hr Hf Hk) as Hs.
    pose proof (placed_reachable tasks n q stop w0 s Hr) as P.
    pose proof (opened_reachable q stop w0 s Hr) as Ho.
    destruct (no_deadlock tasks n q stop w0 s Hr Hf) as [o Hm]. unfold opened in Ho. rewrite Hm in Ho.
    destruct Ho as [[Ht _]|[[Hx _]|[Hx|(H1 & H2 & H3)]]]; [rewrite Ht in Hi; cbn in Hi; lia|lia|contradiction|].
    destruct (nth_error (p_futures (st_pool s)) i) as [f|] eqn:Ef; [|apply nth_error_None in Ef; lia].
    rewrite forallb_forall in Hs. pose proof (Hs f (nth_error_In _ _ Ef)) as Hset.
    destruct f as [| | |r]; try discriminate; auto. left.
    destruct (pl_done _ _ P i r Ef) as [[Hw _]|[Hbr _]]; auto. exfalso. unfold killed in Hk.
    destruct (p_killed (st_pool s)) eqn:E; [congruence|]. destruct (pl_alive _ _ P E). congruence.
  Qed.

  (** No task at all. *)
  Lemma no_task q stop w0 s :
    tasks = [] -> steps (start q stop w0) s ->
    (s = start q stop w0 \/ s = State (Exited (Err IndexError)) [] no_pool (Board q stop NotStarted q) w0).
  Proof.
    intros Ht. revert s.
    apply (invariant tasks n (fun s => s = start q stop w0 \/ s = State (Exited (Err IndexError)) [] no_pool (Board q stop NotStarted q) w0)); [auto|].
    intros s s' _ IH Hs. unfold start in *.
    assert (Hk : forall q, ~ kill_step (@no_pool R) q) by (intros q' H; inversion H; destruct l1; discriminate).
    destruct IH as [-> | ->]; inversion Hs as [a b Hm|c rs p p' b w Hm]; subst;
      try (exfalso; exact (Hk _ Hm));
      inversion Hm as [a b H|c rs p p' b w H|c rs p p' b b' w w' H|c rs p b b' w H]; subst;
      inversion H; subst; auto; try contradiction; destruct l1; discriminate.
  Qed.
End Exit.
