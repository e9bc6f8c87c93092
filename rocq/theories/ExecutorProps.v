(** Lemmas behind PropExecutor.v: combinations of the invariants. *)
From Coq Require Import Lia Permutation.
From Verif Require Import Base Num NdArray NdFacts DataSource Batches BatchFacts Particles Solver Monitor Executor SpecExecutor ManagerRun
  ExecutorFacts ExecutorMain MonitorFacts ExecutorWatch ExecutorExit Schedule ExecutorCases.

(** C43 *)
Lemma no_output {T} (O : ops T) {R W} velocities coordinates particle_files period h (work : file_source T -> task R W) n q stop w s :
  (o_eqb O (o_abs O h) (o_zero O) = true \/
   exists p, window_length O period h = Ok p /\ ((p <= 0)%Z \/ (Z.of_nat (length velocities) < p)%Z)) ->
  run_states (file_tasks O velocities coordinates particle_files period h) work n q stop w s ->
  st_world s = w /\ (forall i, ~ begun s i) /\ (forall rs, st_main s <> Exited (Ok rs)) /\
  (final (match file_tasks O velocities coordinates particle_files period h with Ok l => map work l | Err _ => [] end) n s ->
   exists e, st_main s = Exited (Err e)).
Proof.
  intros Hb Hs.
  assert (Hr : (exists e, file_tasks O velocities coordinates particle_files period h = Err e) \/
               file_tasks O velocities coordinates particle_files period h = Ok []).
  { destruct Hb as [Hb|(p & Hw & [Hp|Hp])].
    - left. eexists. now apply zero_timestep.
    - left. now apply (bad_window O _ _ _ _ _ p).
    - right. now apply (too_few O _ _ _ _ _ p). }
  unfold run_states in Hs. destruct Hr as [[e He]|Hr].
  - rewrite He in *. subst s. cbn. repeat split; eauto; discriminate.
  - rewrite Hr in *. cbn in Hs. pose proof Hs as Hs'. apply no_task in Hs; [|reflexivity].
    split; [destruct Hs; subst; reflexivity|]. split; [intros i; destruct Hs; subst; intros []|].
    split; [intros rs; destruct Hs; subst; discriminate|]. intro Hf. cbn in Hf.
    destruct (no_deadlock _ _ _ _ _ _ Hs' Hf) as [o Ho]. destruct Hs; subst; cbn in *; [discriminate|].
    eexists. reflexivity.
Qed.

Section Props.
  Context {R W : Type} (tasks : list (task R W)) (n : Z) (q : list message) (stop : bool) (w0 : W).

  (** C60 *)
  Lemma results_in_order results s :
    map t_outcome tasks = map Ok results -> tasks <> [] -> (0 < n)%Z ->
    steps tasks n (start q stop w0) s -> final tasks n s -> ~ killed s -> st_main s = Exited (Ok (map Some results)).
  Proof.
    intros Ho Ht Hn Hs Hf Hk. destruct (no_deadlock tasks n q stop w0 s Hs Hf) as [[rs|e] Hm].
    - destruct (returned tasks n q stop w0 s rs Hs Hm) as [H1 _]. rewrite Hm. do 2 f_equal. clear - H1 Ho.
      revert results Ho. induction H1 as [|t r ts rs (x & Hx & ->) _ IH]; intros [|y ys] Ho; try discriminate; [reflexivity|].
      cbn in *. injection Ho as Hy Ho. rewrite Hx in Hy. injection Hy as ->. f_equal. auto.
    - exfalso. destruct (raised tasks n q stop w0 s e Hs Hm) as [[(i & t & Hi & He & _)|[Hx _]]|[[Hx _]|(_ & Hx & _)]];
        [|contradiction|contradiction|lia].
      assert (Hin : In (Err e) (map Ok results)) by (rewrite <- Ho, <- He; apply in_map; exact (nth_error_In _ _ Hi)).
      apply in_map_iff in Hin as (x & Hx & _). discriminate.
  Qed.

  Lemma any_return results s rs :
    map t_outcome tasks = map Ok results -> steps tasks n (start q stop w0) s -> st_main s = Exited (Ok rs) ->
    rs = map Some results.
  Proof.
    intros Ho Hs Hm. destruct (returned tasks n q stop w0 s rs Hs Hm) as [H1 _]. clear - H1 Ho.
    revert results Ho. induction H1 as [|t r ts rs (x & Hx & ->) _ IH]; intros [|y ys] Ho; try discriminate; [reflexivity|].
    cbn in *. injection Ho as Hy Ho. rewrite Hx in Hy. injection Hy as ->. f_equal. auto.
  Qed.

  (** C61 *)
  Lemma fails s t e :
    In t tasks -> t_outcome t = Err e -> steps tasks n (start q stop w0) s -> forall rs, st_main s <> Exited (Ok rs).
  Proof.
    intros Hin He Hs rs Hm. destruct (returned tasks n q stop w0 s rs Hs Hm) as [H1 _].
    revert Hin. clear - H1 He. induction H1 as [|t' r ts rs (x & Hx & ->) _ IH]; [intros []|].
    intros [->|Hin]; [congruence|auto].
  Qed.

  Lemma failure_raised s e :
    tasks <> [] -> (0 < n)%Z -> ~ killed s -> steps tasks n (start q stop w0) s -> st_main s = Exited (Err e) ->
    exists i t, nth_error tasks i = Some t /\ t_outcome t = Err e /\ completed s i.
  Proof.
    intros Ht Hn Hk Hs Hm.
    destruct (raised tasks n q stop w0 s e Hs Hm) as [[H|[Hx _]]|[[Hx _]|(_ & Hx & _)]];
      [exact H|contradiction|contradiction|lia].
  Qed.

  Lemma error_kinds s e :
    steps tasks n (start q stop w0) s -> st_main s = Exited (Err e) ->
    (exists i t, nth_error tasks i = Some t /\ t_outcome t = Err e /\ completed s i) \/
    (killed s /\ e = BrokenProcessPool) \/ (tasks = [] /\ e = IndexError) \/ ((n <= 0)%Z /\ e = ValueError).
  Proof.
    intros Hs Hm. destruct (raised tasks n q stop w0 s e Hs Hm) as [[H|[Hx ?]]|[[Hx ?]|(_ & Hx & ?)]]; auto 10.
  Qed.

  Lemma ends_with_failure s t e :
    In t tasks -> t_outcome t = Err e -> (0 < n)%Z -> steps tasks n (start q stop w0) s -> final tasks n s -> ~ killed s ->
    exists i t' e', nth_error tasks i = Some t' /\ t_outcome t' = Err e' /\ completed s i /\ st_main s = Exited (Err e').
  Proof.
    intros Hin He Hn Hs Hf Hk. destruct (no_deadlock tasks n q stop w0 s Hs Hf) as [[rs|e'] Hm].
    - exfalso. exact (fails s t e Hin He Hs rs Hm).
    - assert (Ht : tasks <> []) by (intros ->; destruct Hin).
      destruct (failure_raised s e' Ht Hn Hk Hs Hm) as (i & t' & H1 & H2 & H3). exists i, t', e'. auto.
  Qed.

  (** C63 *)
  Lemma cancel_honoured s s' s'' i :
    steps tasks n (start q stop w0) s -> manager_step tasks n (st_pool s) (st_pool s') -> step tasks n s s' ->
    p_cancel (st_pool s) = true -> p_cancel (st_pool s') = false -> waits s i ->
    steps tasks n s' s'' -> ~ begun s'' i.
  Proof.
    intros Hs Hm Hstep H1 H2 Hi Hs'. pose proof (steps_next _ _ _ _ _ Hs Hstep) as Hr.
    pose proof (placed_reachable tasks n q stop w0 s Hs) as P.
    pose proof (proj2 (live_reachable tasks n q stop w0 s Hs)) as L.
    exact (proj2 (cancelled_never tasks n q stop w0 s' s'' i Hr Hs' (cancel_all tasks n _ _ i Hm H1 H2 Hi L))).
  Qed.

  (** C66 *)
  Lemma stopped s o :
    (0 < n)%Z -> (forall t e, In t tasks -> t_outcome t = Err e -> is_exception e = true) ->
    steps tasks n (start q stop w0) s -> st_main s = Exited o -> ~ killed s -> ~ watching s.
  Proof.
    intros Hn Hx Hs Hm Hk [m Hw]. pose proof (exit_inv_reachable tasks n q stop w0 s Hs) as H. unfold exit_inv in H.
    rewrite Hm in H. destruct o as [rs|e]; [exact (H m Hw)|].
    destruct H as [H|[H|[H|H]]]; [exact (H m Hw)|lia| |contradiction].
    destruct (error_kinds s e Hs Hm) as [(i & t & Hi & He & _)|[[? _]|[[_ ->]|[? _]]]]; try contradiction; try lia; try discriminate.
    rewrite (Hx t e (nth_error_In _ _ Hi) He) in H. discriminate.
  Qed.
End Props.

Lemma NoDup_app' {A} (l m : list A) : NoDup l -> NoDup m -> (forall x, In x l -> ~ In x m) -> NoDup (l ++ m).
Proof.
  induction 1 as [|a l Ha Hl IH]; intros Hm Hd; [exact Hm|]. cbn. constructor.
  - rewrite in_app_iff. intros [H|H]; [auto|]. exact (Hd a (or_introl eq_refl) H).
  - apply IH; [exact Hm|]. intros x Hx. apply Hd. right. exact Hx.
Qed.

Section Props2.
  Context {R W : Type} (tasks : list (task R W)) (n : Z).

  Lemma each_once q stop w s rs :
    steps tasks n (start q stop w) s -> st_main s = Exited (Ok rs) ->
    exists evs, Permutation evs (map Opens (seq 0 (length tasks)) ++ map Closes (seq 0 (length tasks))) /\ orderly evs /\
      st_world s = effects tasks evs w.
  Proof.
    intros Hs Hm. pose proof (proj2 (returned tasks n q stop w s rs Hs Hm)) as Hp.
    destruct (world_reachable tasks n q stop w s Hs) as (evs & Hw & Ho & Hc & Hb). exists evs. split; [|auto].
    assert (Hcl : forall i, In (Closes i) evs <-> i < length tasks).
    { intro i. rewrite Hc. unfold completed. split.
      - intro H. apply (Permutation_in _ Hp), in_seq in H. lia.
      - intro H. apply (Permutation_in _ (Permutation_sym Hp)), in_seq. lia. }
    apply NoDup_Permutation; [exact (proj1 Ho)| |].
    - apply NoDup_app'; [apply FinFun.Injective_map_NoDup; [intros x y E; congruence|apply seq_NoDup]
        |apply FinFun.Injective_map_NoDup; [intros x y E; congruence|apply seq_NoDup]|].
      intros e H1 H2. apply in_map_iff in H1 as (x & <- & _). apply in_map_iff in H2 as (y & D & _). discriminate.
    - intros [i|i]; rewrite in_app_iff, !in_map_iff.
      + split.
        * intro H. left. exists i. split; [reflexivity|]. apply in_seq.
          pose proof (placed_reachable tasks n q stop w s Hs) as P. pose proof (pl_len tasks _ P).
          enough (i < length (p_futures (st_pool s))) by lia.
          apply (pl_bound tasks _ P). rewrite !in_app_iff. right. right. exact (Hb i H).
        * intros [(x & E & Hx)|(x & E & _)]; [|discriminate]. injection E as ->. apply in_seq in Hx.
          assert (H : In (Closes i) evs) by (apply Hcl; lia). apply in_split in H as (l1 & l2 & E).
          rewrite E. apply in_app_iff. left. exact (proj2 Ho l1 i l2 E).
      + rewrite Hcl. split.
        * intro H. right. exists i. split; [reflexivity|]. apply in_seq. lia.
        * intros [(x & E & _)|(x & E & Hx)]; [discriminate|]. injection E as ->. apply in_seq in Hx. lia.
  Qed.

  Lemma runtime_errors q stop w s e :
    tasks <> [] -> (0 < n)%Z ->
    (forall t x, In t tasks -> t_outcome t = Err x -> is_runtime_error x = true) ->
    steps tasks n (start q stop w) s -> st_main s = Exited (Err e) -> is_runtime_error e = true.
  Proof.
    intros Ht Hn Hx Hs Hm. destruct (error_kinds tasks n q stop w s e Hs Hm) as [(i & t & Hi & He & _)|[[_ ->]|[[? _]|[? _]]]];
      try contradiction; try lia; try reflexivity.
    exact (Hx t e (nth_error_In _ _ Hi) He).
  Qed.

  Lemma monitor_run stop w s :
    (forall t, In t tasks -> exists id ks, t_talk t = chat (id, ks)) ->
    steps tasks n (start [] stop w) s -> ~ killed s ->
    (forall e, b_watch (st_board s) <> Crashed e) /\ (forall m, b_watch (st_board s) = Watching m -> tidy n m).
  Proof. intro H. exact (monitor_safe tasks n H stop w s). Qed.

  Lemma few_run names q stop w s :
    length names <= Z.to_nat n ->
    (forall t msg, In t tasks -> In msg (t_talk t) -> In (message_id msg) names) ->
    (forall msg, In msg q -> In (message_id msg) names) ->
    steps tasks n (start q stop w) s ->
    (forall e, b_watch (st_board s) <> Crashed e) /\ (forall m, b_watch (st_board s) = Watching m -> tidy n m).
  Proof. intros H1 H2 H3. exact (few_safe tasks n names H1 H2 q stop w s H3). Qed.
End Props2.

Lemma other_exception : exists (tasks : list (task nat (list nat))) n s e,
  steps tasks n (start [] false []) s /\ ~ killed s /\ st_main s = Exited (Err e) /\ is_runtime_error e = false.
Proof.
  destruct five_final as (s & H1 & _ & H2 & _ & _ & H3). exists five_tasks, 1%Z, s, ValueError. auto.
Qed.

Lemma runtime_case : exists s, steps [bad "a" RuntimeError] 1 (start [] false []) s /\
  st_main s = Exited (Err RuntimeError).
Proof.
  by_actions [Main; Main; Main; Main; Hand; Take 0; Talk 0; Open 0; Write 0; Return 0; Receive; Collect 0; Main; Main; Main; Main].
  reflexivity.
Qed.

Lemma interleaving_case : interleaves (map worker_chat [[("a", [0; 1]); ("b", [0])]; [("a", [5])]]%string)
  [Progress "a" 0; Progress "a" 5; Progress "a" 1; Done "a"; Done "a"; Progress "b" 0; Done "b"]%string.
Proof.
  cbn. apply (interleaves_next []). apply (interleaves_next [_]). apply (interleaves_next []). apply (interleaves_next []).
  apply (interleaves_next [_]). apply (interleaves_next []). apply (interleaves_next []).
  apply interleaves_end. intros s [<-|[<-|[]]]; reflexivity.
Qed.

Lemma cut_case : interleaves (map (fun w => worker_chat (fst w) ++ map (Progress (fst (snd w))) (snd (snd w)))
  [([("a", [0])], ("b", [0; 1]))]%string) [Progress "a" 0; Done "a"; Progress "b" 0; Progress "b" 1]%string.
Proof.
  cbn. do 4 apply (interleaves_next []). apply interleaves_end. intros s [<-|[]]; reflexivity.
Qed.

Lemma two_talks : forall t, In t two_tasks -> exists id ks, t_talk t = chat (id, ks).
Proof. intros t [<-|[<-|[]]]; eexists; eexists; reflexivity. Qed.

Lemma few_case : length ["a"; "b"]%string <= Z.to_nat 2 /\
  forall t msg, In t fail_then -> In msg (t_talk t) -> In (message_id msg) ["a"; "b"]%string.
Proof.
  split; [cbn; lia|]. intros t msg Ht Hm. repeat destruct Ht as [<-|Ht]; try contradiction; cbn in *;
    repeat destruct Hm as [<-|Hm]; try contradiction; auto.
Qed.
