(** Two lists of tasks that do the same things up to a translation of their results and of the files: their executions are the same up
    to this translation. *)
From Coq Require Import Lia.
From Verif Require Import Base Num NdArray Particles Solver Monitor Executor ManagerRun TimescaleFacts.

Section Map.
  Context {R R' W W' : Type} (g : R -> R') (h : W -> W').

  (** The task [t'] does what [t] does. *)
  Definition like (t : task R W) (t' : task R' W') : Prop :=
    t_talk t' = t_talk t /\ t_outcome t' = rmap g (t_outcome t) /\
    (forall w, t_open t' (h w) = h (t_open t w)) /\ (forall w, t_effect t' (h w) = h (t_effect t w)).

  Definition gfuture (f : future R) : future R' :=
    match f with Pending => Pending | Running => Running | Cancelled => Cancelled | Finished r => Finished (rmap g r) end.
  Definition gresults (rs : list (option R)) : list (option R') := map (option_map g) rs.
  Definition gpool (p : pool R) : pool R' :=
    Pool (map gfuture (p_futures p)) (p_work_ids p) (p_calls p) (p_slots p) (p_returned p) (p_shutdown p) (p_cancel p) (p_alive p)
      (p_broken p) (p_started p) (p_written p) (p_killed p).
  Definition gcontrol (c : control R) : control R' :=
    match c with
    | Calling => Calling | Watched => Watched | Submitting => Submitting | Collecting l => Collecting l | Caught e => Caught e
    | Stopped e => Stopped e | CancelAsked e => CancelAsked e | Reraised e => Reraised e
    | Joining o => Joining (rmap gresults o) | Closing rs => Closing (gresults rs) | Exited o => Exited (rmap gresults o)
    end.
  Definition gstate (s : state R W) : state R' W' :=
    State (gcontrol (st_main s)) (gresults (st_results s)) (gpool (st_pool s)) (st_board s) (h (st_world s)).

  Lemma set_nth_map {A B} (f : A -> B) i x l : map f (set_nth i x l) = set_nth i (f x) (map f l).
  Proof. revert i. induction l as [|y l IH]; intros [|i]; cbn; try reflexivity. rewrite IH. reflexivity. Qed.
  Lemma nth_gfuture fs i f : nth_error fs i = Some f -> nth_error (map gfuture fs) i = Some (gfuture f).
  Proof. intro H. rewrite nth_error_map, H. reflexivity. Qed.

  Variables (tasks : list (task R W)) (tasks' : list (task R' W')) (n : Z).
  Hypothesis L : Forall2 like tasks tasks'.

  Lemma like_length : length tasks' = length tasks.
  Proof. clear n. revert tasks' L. induction tasks as [|x l IH]; intros l' H; inversion H; subst; cbn; [reflexivity|]. f_equal. auto. Qed.
  Lemma like_nth i t : nth_error tasks i = Some t -> exists t', nth_error tasks' i = Some t' /\ like t t'.
  Proof.
    clear n. revert tasks' L i. induction tasks as [|x l IH]; intros l' H [|i] E; try discriminate; inversion H; subst; cbn in *.
    - injection E as <-. eauto.
    - eauto.
  Qed.

  Lemma main_map s s' : main_step tasks n s s' -> main_step tasks' n (gstate s) (gstate s').
  Proof.
    intro H; destruct H; unfold gstate; cbn [st_main st_results st_pool st_board st_world gcontrol rmap].
    - apply m_empty. apply length_zero_iff_nil. rewrite like_length. subst. reflexivity.
    - apply m_watch. intro E. apply H. apply length_zero_iff_nil. rewrite <- like_length, E. reflexivity.
    - apply m_no_pool. assumption.
    - unfold gresults. replace (map (option_map g) (repeat None (length tasks))) with (repeat (@None R') (length tasks')) by (rewrite like_length; clear; induction (length tasks); cbn; congruence).
      apply m_pool. assumption.
    - unfold gpool at 2. cbn [p_futures p_work_ids p_calls p_slots p_returned p_shutdown p_cancel p_alive p_broken p_started p_written p_killed].
      rewrite map_app. cbn [map gfuture]. replace (length (p_futures p)) with (length (p_futures (gpool p))) by apply map_length.
      apply (m_submit tasks' n _ (gpool p)); [unfold gpool; cbn; rewrite map_length, like_length; assumption|assumption].
    - apply (m_submit_broken tasks' n _ (gpool p)); [unfold gpool; cbn; rewrite map_length, like_length; assumption|assumption].
    - rewrite <- like_length. apply m_submitted. unfold gpool; cbn; rewrite map_length, like_length; assumption.
    - unfold gresults. rewrite set_nth_map. cbn [option_map]. apply m_collect. exact (nth_gfuture _ _ _ H).
    - apply m_catch with (1 := nth_gfuture _ _ _ H). assumption.
    - apply (m_escape tasks' n l1 i l2 e _ (gpool p) b (h w) (nth_gfuture _ _ _ H)). assumption.
    - apply (m_stop tasks' n e).
    - apply (m_cancel tasks' n e _ (gpool p)).
    - apply (m_terminate tasks' n e).
    - apply (m_reraise tasks' n e _ (gpool p)).
    - apply (m_collected tasks' n _ (gpool p)).
    - apply m_joined_raise. assumption.
    - apply m_joined. assumption.
    - apply (m_return tasks' n).
  Qed.

  Lemma manager_map p p' : manager_step tasks n p p' -> manager_step tasks' n (gpool p) (gpool p').
  Proof.
    intro H; destruct H; unfold gpool; cbn [p_futures p_work_ids p_calls p_slots p_returned p_shutdown p_cancel p_alive p_broken p_started p_written p_killed].
    - rewrite set_nth_map. cbn [gfuture]. apply g_hand; [assumption|exact (nth_gfuture _ _ _ H0)].
    - rewrite set_nth_map. destruct (like_nth i t H) as (t' & E & _ & O & _). cbn [gfuture]. rewrite <- O. apply g_receive. exact E.
    - replace (map gfuture (map cancel_future fs)) with (map cancel_future (map gfuture fs)) by (rewrite !map_map; apply map_ext; intros []; reflexivity).
      apply g_cancel.
    - apply g_exit. rewrite forallb_forall in *. intros f I. apply in_map_iff in I as (f0 & <- & I). specialize (H f0 I). destruct f0; exact H.
    - replace (map gfuture (map break_future fs)) with (map break_future (map gfuture fs)) by (rewrite !map_map; apply map_ext; intros []; reflexivity).
      apply g_broken. assumption.
  Qed.

  Lemma worker_step_map p b w p' b' w' : worker_step tasks p b w p' b' w' -> worker_step tasks' (gpool p) b (h w) (gpool p') b' (h w').
  Proof.
    intro H; destruct H; unfold gpool; cbn [p_futures p_work_ids p_calls p_slots p_returned p_shutdown p_cancel p_alive p_broken p_started p_written p_killed].
    - destruct (like_nth i t H) as (t' & E & Q & _). rewrite <- Q. apply w_take. exact E.
    - apply w_talk.
    - destruct (like_nth i t H) as (t' & E & _ & _ & Q & _). rewrite <- Q. apply w_open. exact E.
    - destruct (like_nth i t H) as (t' & E & _ & _ & _ & Q). rewrite <- Q. apply w_write. exact E.
    - apply w_return.
  Qed.

  Lemma step_map s s' : step tasks n s s' -> step tasks' n (gstate s) (gstate s').
  Proof.
    intro H. destruct H as [s s' M|].
    - apply s_move. destruct M.
      + apply s_main, main_map. assumption.
      + apply (s_manager tasks' n (gcontrol c) (gresults rs) (gpool p) (gpool p') b (h w)), manager_map. assumption.
      + apply (s_worker tasks' n (gcontrol c) (gresults rs) (gpool p) (gpool p') b b' (h w) (h w')), worker_step_map. assumption.
      + apply (s_monitor tasks' n (gcontrol c) (gresults rs) (gpool p) b b' (h w)). destruct H; constructor. rewrite like_length. assumption.
    - apply (s_kill tasks' n (gcontrol c) (gresults rs) (gpool p) (gpool p') b (h w)). destruct H. unfold gpool. cbn. constructor. assumption.
  Qed.
  Lemma steps_map s s' : steps tasks n s s' -> steps tasks' n (gstate s) (gstate s').
  Proof. induction 1; [constructor|]. econstructor; [eassumption|]. apply step_map. assumption. Qed.
End Map.

Lemma run_states_map {A A' R R' W W'} (g : R -> R') (h : W -> W') (batches : res (list A)) (batches' : res (list A')) work work' (f : A -> A') n q stop w s :
  batches' = rmap (map f) batches -> (forall x, like g h (work x) (work' (f x))) ->
  run_states batches work n q stop w s -> run_states batches' work' n q stop (h w) (gstate g h s).
Proof.
  intros -> H. destruct batches as [bs|]; cbn [rmap run_states].
  - intro S. apply (steps_map g h (map work bs) (map work' (map f bs)) n) with (s := start q stop w); [|exact S]. clear S. induction bs; cbn; constructor; auto.
  - intros ->. reflexivity.
Qed.
