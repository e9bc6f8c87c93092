(** Invariants of the transition system of Executor.v. *)
From Coq Require Import Lia Permutation.
From Verif Require Import Base Num NdArray NdFacts Particles Solver Monitor Executor SpecExecutor.

(** Tasks in the hands of the workers. *)
Definition busy1 (s : slot) : list nat := match s with Busy i _ | Writing i => [i] | _ => [] end.
Definition wrote1 (s : slot) : list nat := match s with Wrote i => [i] | _ => [] end.
Definition busy (l : list slot) : list nat := flat_map busy1 l.
Definition wrote (l : list slot) : list nat := flat_map wrote1 l.

Lemma NoDup_app_remove_l {A} (l m : list A) : NoDup (l ++ m) -> NoDup m.
Proof. induction l as [|a l IH]; cbn; auto. intro H. inversion H; auto. Qed.

Lemma NoDup_app_disjoint {A} {l m : list A} : NoDup (l ++ m) -> forall x, In x l -> ~ In x m.
Proof.
  induction l as [|a l IH]; cbn; [tauto|]. intros H x [<-|Hx].
  - inversion H; subst. intro Hx. apply H2, in_app_iff. auto.
  - inversion H; subst. auto.
Qed.

Lemma busy_app l m : busy (l ++ m) = busy l ++ busy m.
Proof. exact (flat_map_app _ _ _). Qed.
Lemma wrote_app l m : wrote (l ++ m) = wrote l ++ wrote m.
Proof. exact (flat_map_app _ _ _). Qed.
Lemma busy_dead (l : list slot) : busy (map (fun _ => Dead) l) = [].
Proof. induction l; cbn; auto. Qed.
Lemma wrote_dead (l : list slot) : wrote (map (fun _ => Dead) l) = [].
Proof. induction l; cbn; auto. Qed.
Lemma busy_repeat k : busy (repeat Idle k) = [].
Proof. induction k; cbn; auto. Qed.
Lemma wrote_repeat k : wrote (repeat Idle k) = [].
Proof. induction k; cbn; auto. Qed.

Lemma effects_snoc {R W} (tasks : list (task R W)) l e w : effects tasks (l ++ [e]) w = happen tasks (effects tasks l w) e.
Proof. unfold effects. now rewrite fold_left_app. Qed.

Section Invariants.
  Context {R W : Type} (tasks : list (task R W)) (n : Z).
  Notation state := (Executor.state R W).
  Notation step := (Executor.step tasks n).
  Notation steps := (Executor.steps tasks n).

  (** Every property kept by each step holds in every reachable state. *)
  Lemma invariant (P : state -> Prop) s0 :
    P s0 -> (forall s s', steps s0 s -> P s -> step s s' -> P s') -> forall s, steps s0 s -> P s.
  Proof.
    intros H0 Hs s H. remember s0 as a eqn:Ea. revert Ea. induction H; intro Ea; subst; auto.
    apply (Hs s2); auto.
  Qed.

  Lemma steps_trans s1 s2 s3 : steps s1 s2 -> steps s2 s3 -> steps s1 s3.
  Proof.
    intros H1 H2. induction H2 as [s|a b c Hab IH Hbc]; [exact H1|].
    exact (steps_next tasks n s1 b c (IH H1) Hbc).
  Qed.

  (** Where the tasks are. *)
  Record placed (p : pool R) : Prop := {
    pl_nodup : NoDup (p_work_ids p ++ p_calls p ++ p_started p);
    pl_bound : forall i, In i (p_work_ids p ++ p_calls p ++ p_started p) -> i < length (p_futures p);
    pl_len : length (p_futures p) <= length tasks;
    pl_busy : NoDup (busy (p_slots p) ++ p_written p);
    pl_begun : incl (busy (p_slots p) ++ p_written p) (p_started p);
    pl_back : incl (wrote (p_slots p) ++ p_returned p) (p_written p);
    pl_done : forall i r, nth_error (p_futures p) i = Some (Finished r) ->
        (In i (p_written p) /\ exists t, nth_error tasks i = Some t /\ r = t_outcome t)
        \/ (p_broken p = true /\ r = Err BrokenProcessPool);
    pl_alive : p_killed p = false -> ~ In Dead (p_slots p) /\ p_broken p = false
  }.

  Lemma placed_no_pool : placed no_pool.
  Proof.
    constructor; cbn; auto using NoDup_nil; try lia; try tauto; try apply incl_refl.
    intros i r H. destruct i; discriminate.
  Qed.

  Lemma placed_new_pool : placed (new_pool n).
  Proof.
    constructor; cbn; rewrite ?busy_repeat, ?wrote_repeat; cbn; auto using NoDup_nil; try lia; try tauto; try apply incl_refl.
    - intros i r H. destruct i; discriminate.
    - intros _. split; auto. intro H. apply repeat_spec in H. discriminate.
  Qed.

  Lemma placed_shut c p : placed p -> placed (shut c p).
  Proof. intros [A B C D E F G H]. constructor; auto. Qed.

  Lemma nth_error_map_inv {A B} (f : A -> B) l i b :
    nth_error (map f l) i = Some b -> exists a, nth_error l i = Some a /\ b = f a.
  Proof.
    rewrite nth_error_map. destruct (nth_error l i) as [a|]; cbn; [|discriminate].
    intro H. injection H as <-. eauto.
  Qed.

  Lemma nth_error_set_inv {A} i j (v x : A) l :
    nth_error (set_nth j v l) i = Some x -> (i = j /\ x = v) \/ nth_error l i = Some x.
  Proof.
    intro H. destruct (Nat.eq_dec i j) as [->|Hn].
    - destruct (Nat.lt_ge_cases j (length l)) as [Hl|Hl].
      + rewrite set_nth_same in H by exact Hl. injection H as <-. auto.
      + assert (nth_error (set_nth j v l) j = None) as Hx by (apply nth_error_None; rewrite set_nth_length; lia).
        rewrite Hx in H. discriminate.
    - rewrite set_nth_other in H by exact Hn. auto.
  Qed.

  Lemma NoDup_mid {A} (x : A) l1 l2 : NoDup (l1 ++ x :: l2) <-> NoDup (x :: l1 ++ l2).
  Proof. split; apply Permutation_NoDup; [apply Permutation_sym|]; apply Permutation_middle. Qed.

  Lemma placed_manager p p' : manager_step tasks n p p' -> placed p -> placed p'.
  Proof.
    intros Hs [A B C D E F G H]. destruct Hs as [i fs ids calls slots ret sh ca br st wr ki H1 H2
      |i t fs ids calls slots ret sh ca br st wr ki H1
      |fs ids calls slots ret br st wr ki |fs ids calls slots ret ca br st wr ki H1
      |fs ids calls slots ret sh ca br st wr ki H1]; cbn in *.
    - constructor; cbn; rewrite ?set_nth_length; auto.
      + rewrite <- app_assoc. cbn. rewrite app_assoc. apply (proj2 (NoDup_mid i (ids ++ calls) st)).
        rewrite <- app_assoc. exact A.
      + intros j Hj. apply B. rewrite <- app_assoc in Hj. cbn in Hj.
        rewrite !in_app_iff in *. cbn in Hj |- *. rewrite ?in_app_iff in *. tauto.
      + intros j r Hj. apply nth_error_set_inv in Hj as [[-> Hj]|Hj]; [discriminate|auto].
    - assert (Hw : In i wr) by (apply F; rewrite in_app_iff; cbn; auto).
      constructor; cbn; rewrite ?set_nth_length; auto.
      + intros j Hj. apply F. rewrite in_app_iff in *. cbn. tauto.
      + intros j r Hj. apply nth_error_set_inv in Hj as [[-> Hj]|Hj]; [injection Hj as ->; left; split; eauto|auto].
    - constructor; cbn; rewrite ?map_length; auto.
      + apply NoDup_app_remove_l in A. exact A.
      + intros j Hj. apply B. rewrite in_app_iff. auto.
      + intros j r Hj. apply nth_error_map_inv in Hj as (f & Hf & Hj). apply G.
        destruct f; cbn in Hj; try discriminate. congruence.
    - constructor; auto.
    - constructor; cbn; rewrite ?map_length, ?busy_dead, ?wrote_dead; cbn; auto.
      + apply NoDup_app_remove_l in D. exact D.
      + intros j Hj. apply E. rewrite in_app_iff. auto.
      + intros j Hj. apply F. rewrite in_app_iff. auto.
      + intros j r Hj. apply nth_error_map_inv in Hj as (f & Hf & Hj).
        destruct f; cbn in Hj; try discriminate; injection Hj as Hj; subst; auto.
        apply G in Hf as [Hf|[Hf ->]]; auto.
      + intros ->. destruct (H eq_refl). contradiction.
  Qed.

  Lemma placed_worker p b w p' b' w' : worker_step tasks p b w p' b' w' -> placed p -> placed p'.
  Proof.
    intros Hs [A B C D E F G H].
    destruct Hs as [i t l1 l2 fs ids calls ret sh ca al br st wr ki b w H1
      |i msg rest l1 l2 fs ids calls ret sh ca al br st wr ki q stop v log w
      |i t l1 l2 fs ids calls ret sh ca al br st wr ki b w H1
      |i t l1 l2 fs ids calls ret sh ca al br st wr ki b w H1
      |i l1 l2 fs ids calls ret sh ca al br st wr ki b w]; cbn in *.
    - rewrite busy_app in D, E. rewrite wrote_app in F. cbn in D, E, F.
      assert (Hi : ~ In i st).
      { apply NoDup_app_remove_l in A. inversion A; subst. intro Hi. apply H3. rewrite in_app_iff. auto. }
      constructor; cbn; rewrite ?busy_app, ?wrote_app; cbn; auto.
      + rewrite app_assoc. rewrite app_assoc. apply (proj2 (NoDup_mid i ((ids ++ calls) ++ st) [])).
        rewrite app_nil_r. rewrite <- app_assoc. apply NoDup_mid in A. exact A.
      + intros j Hj. apply B. rewrite !in_app_iff in *. cbn in *. rewrite ?in_app_iff in *. tauto.
      + rewrite <- app_assoc. cbn. apply NoDup_mid. constructor.
        * intro Hj. apply Hi, E. rewrite !in_app_iff in *. tauto.
        * rewrite app_assoc. exact D.
      + intros j Hj. rewrite !in_app_iff in *. cbn in *. rewrite ?in_app_iff in *.
        destruct Hj as [[Hj|[Hj|Hj]]|Hj]; try (right; left; exact Hj); try (right; left; symmetry; assumption);
          try (left; apply E; rewrite !in_app_iff; tauto).
      + intro Hk. destruct (H Hk) as [H2 H3]. split; auto. intro Hx. apply H2.
        rewrite in_app_iff in *. cbn in *. destruct Hx as [Hx|[Hx|Hx]]; auto. discriminate.
    - rewrite busy_app in D, E. rewrite wrote_app in F. cbn in D, E, F.
      constructor; cbn; rewrite ?busy_app, ?wrote_app; cbn; auto.
      intro Hk. destruct (H Hk) as [H2 H3]. split; auto. intro Hx. apply H2.
      rewrite in_app_iff in *. cbn in *. destruct Hx as [Hx|[Hx|Hx]]; auto. discriminate.
    - rewrite busy_app in D, E. rewrite wrote_app in F. cbn in D, E, F.
      constructor; cbn; rewrite ?busy_app, ?wrote_app; cbn; auto.
      intro Hk. destruct (H Hk) as [H2 H3]. split; auto. intro Hx. apply H2.
      rewrite in_app_iff in *. cbn in *. destruct Hx as [Hx|[Hx|Hx]]; auto. discriminate.
    - rewrite busy_app in D, E. rewrite wrote_app in F. cbn in D, E, F.
      constructor; cbn; rewrite ?busy_app, ?wrote_app; cbn; auto.
      + rewrite app_assoc. apply (proj2 (NoDup_mid i ((busy l1 ++ busy l2) ++ wr) [])).
        rewrite app_nil_r. rewrite <- app_assoc in D. apply NoDup_mid in D. rewrite app_assoc in D. exact D.
      + intros j Hj. apply E. rewrite !in_app_iff in *. cbn in *. tauto.
      + intros j Hj. rewrite !in_app_iff in *. cbn in *. rewrite ?in_app_iff in Hj.
        destruct Hj as [[Hj|[Hj|Hj]]|Hj]; try (right; left; exact Hj); left; apply F; rewrite !in_app_iff; tauto.
      + intros j r Hj. apply G in Hj as [[Hj Hr]|Hj]; auto. left. rewrite in_app_iff. auto.
      + intro Hk. destruct (H Hk) as [H2 H3]. split; auto. intro Hx. apply H2.
        rewrite in_app_iff in *. cbn in *. destruct Hx as [Hx|[Hx|Hx]]; auto. discriminate.
    - rewrite busy_app in D, E. rewrite wrote_app in F. cbn in D, E, F.
      constructor; cbn; rewrite ?busy_app, ?wrote_app; cbn; auto.
      + intros j Hj. apply F. rewrite !in_app_iff in *. cbn in *. tauto.
      + intro Hk. destruct (H Hk) as [H2 H3]. split; auto. intro Hx. apply H2.
        rewrite in_app_iff in *. cbn in *. destruct Hx as [Hx|[Hx|Hx]]; auto. discriminate.
  Qed.

  Lemma placed_kill (p p' : pool R) : kill_step p p' -> placed p -> placed p'.
  Proof.
    intros Hs [A B C D E F G H]. destruct Hs as [s l1 l2 fs ids calls ret sh ca al br st wr ki H1]; cbn in *.
    - rewrite busy_app in D, E. rewrite wrote_app in F. cbn in D, E, F.
      constructor; cbn; rewrite ?busy_app, ?wrote_app; cbn; auto.
      + rewrite <- app_assoc in *. destruct s; cbn in D; auto; now apply NoDup_remove_1 in D.
      + intros j Hj. apply E. rewrite !in_app_iff in *. destruct s; cbn; tauto.
      + intros j Hj. apply F. rewrite !in_app_iff in *. destruct s; cbn; tauto.
      + discriminate.
  Qed.

  Lemma placed_main s s' : main_step tasks n s s' -> placed (st_pool s) -> placed (st_pool s').
  Proof.
    intros Hs P. destruct Hs; cbn in *; auto using placed_new_pool, placed_shut.
    destruct P as [A B C D E F G I]. constructor; cbn; auto.
    - rewrite <- app_assoc. cbn. apply NoDup_mid. constructor; auto.
      intro Hi. apply B in Hi. lia.
    - intros i Hi. rewrite app_length. cbn. rewrite !in_app_iff in *. cbn in Hi.
      destruct Hi as [[Hi|Hi]|Hi]; try (enough (i < length (p_futures p)) by lia; apply B; rewrite !in_app_iff; tauto).
      destruct Hi as [<-|[]]. lia.
    - rewrite app_length. cbn. lia.
    - intros i r Hi. destruct (Nat.lt_ge_cases i (length (p_futures p))) as [Hl|Hl].
      + rewrite nth_error_app1 in Hi by exact Hl. auto.
      + rewrite nth_error_app2 in Hi by exact Hl. destruct (i - length (p_futures p)) as [|k]; cbn in Hi; [discriminate|].
        destruct k; discriminate.
  Qed.

  Lemma placed_step s s' : step s s' -> placed (st_pool s) -> placed (st_pool s').
  Proof.
    intros [? ? [s1 s2 H|c rs p p' b w H|c rs p p' b b' w w' H|c rs p b b' w H]|c rs p p' b w H]; cbn.
    - apply placed_main; exact H.
    - apply placed_manager; exact H.
    - eapply placed_worker; exact H.
    - auto.
    - apply placed_kill; exact H.
  Qed.

  Lemma placed_reachable q stop w0 s : steps (start q stop w0) s -> placed (st_pool s).
  Proof.
    revert s. apply (invariant (fun s => placed (st_pool s))); [exact placed_no_pool|]. intros a b _ Ha Hab. exact (placed_step a b Hab Ha).
  Qed.

  (** Before the pool is created there is none. *)
  Lemma early_reachable q stop w0 s :
    steps (start q stop w0) s -> st_main s = Calling \/ st_main s = Watched -> st_pool s = no_pool.
  Proof.
    revert s. apply (invariant (fun s => st_main s = Calling \/ st_main s = Watched -> st_pool s = no_pool)); [reflexivity|].
    intros s s' _ IH Hs.
    destruct Hs as [? ? [s1 s2 H|c rs p p' b w H|c rs p p' b b' w w' H|c rs p b b' w H]|c rs p p' b w H]; cbn in *.
    - destruct H; cbn in *; intros [Hc|Hc]; try discriminate; auto.
    - intro Hc. rewrite (IH Hc) in H. inversion H.
    - intro Hc. rewrite (IH Hc) in H. inversion H; destruct l1; discriminate.
    - exact IH.
    - intro Hc. rewrite (IH Hc) in H. inversion H; destruct l1; discriminate.
  Qed.

  (** ** The files *)

  Definition writing1 (s : slot) : list nat := match s with Writing i => [i] | _ => [] end.
  Definition writing (l : list slot) : list nat := flat_map writing1 l.
  Definition talking1 (s : slot) : list nat := match s with Busy i _ => [i] | _ => [] end.
  Definition talking (l : list slot) : list nat := flat_map talking1 l.

  Lemma writing_app l m : writing (l ++ m) = writing l ++ writing m.
  Proof. exact (flat_map_app _ _ _). Qed.
  Lemma talking_app l m : talking (l ++ m) = talking l ++ talking m.
  Proof. exact (flat_map_app _ _ _). Qed.
  Lemma writing_dead (l : list slot) : writing (map (fun _ => Dead) l) = [].
  Proof. induction l; cbn; auto. Qed.
  Lemma talking_dead (l : list slot) : talking (map (fun _ => Dead) l) = [].
  Proof. induction l; cbn; auto. Qed.

  Lemma orderly_nil : orderly [].
  Proof. split; [constructor|]. intros [|a l1] i l2 H; discriminate. Qed.
  Lemma NoDup_snoc {A} (l : list A) a : NoDup l -> ~ In a l -> NoDup (l ++ [a]).
  Proof. intros H Ha. apply NoDup_mid. rewrite app_nil_r. constructor; assumption. Qed.
  Lemma orderly_open l i : orderly l -> ~ In (Opens i) l -> orderly (l ++ [Opens i]).
  Proof.
    intros [Hn Ho] Hi. split; [apply NoDup_snoc; assumption|]. intros l1 j l2 H.
    destruct l2 as [|a l2 _] using rev_ind; [apply app_inj_tail in H as [_ H]; discriminate|].
    rewrite app_comm_cons, app_assoc in H. apply app_inj_tail in H as [H _]. exact (Ho _ _ _ H).
  Qed.
  Lemma orderly_close l i : orderly l -> In (Opens i) l -> ~ In (Closes i) l -> orderly (l ++ [Closes i]).
  Proof.
    intros [Hn Ho] Hi Hc. split; [apply NoDup_snoc; assumption|]. intros l1 j l2 H.
    destruct l2 as [|a l2 _] using rev_ind; [apply app_inj_tail in H as [-> H]; injection H as ->; exact Hi|].
    rewrite app_comm_cons, app_assoc in H. apply app_inj_tail in H as [H _]. exact (Ho _ _ _ H).
  Qed.

  (** [evs]: the events so far. *)
  Definition history (w0 : W) (s : state) (evs : list event) : Prop :=
    st_world s = effects tasks evs w0 /\ orderly evs /\
    (forall i, In (Closes i) evs <-> In i (p_written (st_pool s))) /\
    (forall i, In (Opens i) evs -> In i (p_started (st_pool s)) /\ ~ In i (talking (p_slots (st_pool s)))) /\
    (forall i, In i (writing (p_slots (st_pool s))) -> In (Opens i) evs).

  (** The files are what the events made of them. *)
  Lemma history_reachable q stop w0 s : steps (start q stop w0) s -> exists evs, history w0 s evs.
  Proof.
    intro Hr. enough (H : exists evs, history w0 s evs) by exact H. revert s Hr.
    apply (invariant (fun s => exists evs, history w0 s evs)).
    { exists []. split; [reflexivity|]. split; [exact orderly_nil|]. cbn. tauto. }
    intros s s' Hr (evs & Hw & Ho & Hc & Hop & Hwr) Hs. pose proof (early_reachable q stop w0 s Hr) as He.
    pose proof (placed_reachable q stop w0 s Hr) as P.
    destruct Hs as [? ? [s1 s2 H|c rs p p' b w H|c rs p p' b b' w w' H|c rs p b b' w H]|c rs p p' b w H]; cbn in *.
    - exists evs. assert (Hw' : st_world s2 = st_world s1) by (destruct H; reflexivity). split; [congruence|]. split; [exact Ho|].
      destruct H; cbn in *; auto. rewrite He in Hc, Hop, Hwr by auto. cbn in *. split; [exact Hc|]. split; [|].
      + intros i Hi. destruct (Hop i Hi) as [[] _].
      + intros i Hi. exfalso. revert Hi. clear. induction (Z.to_nat n); cbn; auto.
    - exists evs. split; [exact Hw|]. split; [exact Ho|]. destruct H; cbn in *; auto.
      rewrite writing_dead, talking_dead. split; [exact Hc|]. split; [|intros i []]. intros i Hi. split; [exact (proj1 (Hop i Hi))|intros []].
    - destruct P as [A B C D E F G K]. destruct H as [i t l1 l2 fs ids calls ret sh ca al br st wr ki b w H1
      |i msg rest l1 l2 fs ids calls ret sh ca al br st wr ki q' stop' v log w
      |i t l1 l2 fs ids calls ret sh ca al br st wr ki b w H1
      |i t l1 l2 fs ids calls ret sh ca al br st wr ki b w H1
      |i l1 l2 fs ids calls ret sh ca al br st wr ki b w]; cbn in *; rewrite ?writing_app, ?talking_app, ?busy_app in *; cbn in *.
      + exists evs. split; [exact Hw|]. split; [exact Ho|]. split; [exact Hc|]. cbn. rewrite ?writing_app, ?talking_app. cbn. split; [|exact Hwr].
        intros j Hj. destruct (Hop j Hj) as [X Y]. split; [apply in_app_iff; auto|]. rewrite in_app_iff in *. cbn.
        intros [Z|[Z|Z]]; try (apply Y; tauto). subst j.
        apply NoDup_app_remove_l in A. inversion A as [|x y Hni _]. apply Hni. rewrite in_app_iff. auto.
      + exists evs. split; [exact Hw|]. split; [exact Ho|]. split; [exact Hc|]. cbn. rewrite ?writing_app, ?talking_app. cbn. auto.
      + assert (Hno : ~ In (Opens i) evs).
        { intro Hi. destruct (Hop i Hi) as [_ Y]. apply Y. rewrite in_app_iff. cbn. auto. }
        exists (evs ++ [Opens i]). unfold history. cbn. rewrite effects_snoc. cbn. rewrite H1, ?writing_app, ?talking_app. cbn. split; [congruence|].
        split; [apply orderly_open; assumption|]. split; [|split].
        * intro j. rewrite in_app_iff. cbn. rewrite <- Hc. split; [intros [X|[X|[]]]; [exact X|discriminate]|auto].
        * assert (Hi' : ~ In i (talking l1 ++ talking l2) /\ In i st).
          { rewrite <- app_assoc in D. cbn in D. split.
            - intro X. apply NoDup_remove_2 in D. apply D. rewrite !in_app_iff in *.
              assert (S : forall l, In i (talking l) -> In i (busy l)).
              { clear. intros l H. unfold talking, busy in *. rewrite in_flat_map in *. destruct H as (x & Hx & Hi). exists x. split; [exact Hx|].
                destruct x; cbn in *; auto. }
              destruct X as [X|X]; apply S in X; auto.
            - apply E. rewrite !in_app_iff. cbn. auto. }
          intros j Hj. rewrite in_app_iff in Hj. destruct Hj as [Hj|[Hj|[]]].
          -- destruct (Hop j Hj) as [X Y]. split; [exact X|]. intro Z. apply Y. rewrite in_app_iff in *. cbn. tauto.
          -- injection Hj as <-. split; tauto.
        * intros j Hj. rewrite in_app_iff in *. cbn in *. destruct Hj as [Hj|[Hj|Hj]]; [left; apply Hwr; rewrite in_app_iff; auto|subst; auto|].
          left. apply Hwr. rewrite in_app_iff. auto.
      + assert (Hno : ~ In (Closes i) evs).
        { intro Hi. apply Hc in Hi. rewrite <- app_assoc in D. apply NoDup_remove_2 in D. apply D. rewrite !in_app_iff. auto. }
        assert (Hin : In (Opens i) evs) by (apply Hwr; rewrite in_app_iff; cbn; auto).
        exists (evs ++ [Closes i]). unfold history. cbn. rewrite effects_snoc. cbn. rewrite H1, ?writing_app, ?talking_app. cbn. split; [congruence|].
        split; [apply orderly_close; assumption|]. split; [|split].
        * intro j. rewrite !in_app_iff. cbn. rewrite <- Hc. split; (intros [X|[X|[]]]; [auto|right; left; congruence]).
        * intros j Hj. rewrite in_app_iff in Hj. destruct Hj as [Hj|[Hj|[]]]; [|discriminate]. exact (Hop j Hj).
        * intros j Hj. rewrite in_app_iff. left. apply Hwr. rewrite in_app_iff in *. cbn. tauto.
      + exists evs. split; [exact Hw|]. split; [exact Ho|]. split; [exact Hc|]. cbn. rewrite ?writing_app, ?talking_app. cbn. auto.
    - exists evs. split; [exact Hw|]. split; [exact Ho|]. auto.
    - exists evs. split; [exact Hw|]. split; [exact Ho|]. destruct H as [s l1 l2 fs ids calls ret sh ca al br st wr ki H1]. cbn in *.
      rewrite ?writing_app, ?talking_app in *. cbn in *. split; [exact Hc|]. split.
      + intros i Hi. destruct (Hop i Hi) as [X Y]. split; [exact X|]. intro Z. apply Y. rewrite !in_app_iff in *. tauto.
      + intros i Hi. apply Hwr. rewrite !in_app_iff in *. tauto.
  Qed.

  Lemma world_reachable q stop w0 s : steps (start q stop w0) s ->
    exists evs, st_world s = effects tasks evs w0 /\ orderly evs /\
      (forall i, In (Closes i) evs <-> completed s i) /\ (forall i, In (Opens i) evs -> begun s i).
  Proof.
    intro Hs. destruct (history_reachable q stop w0 s Hs) as (evs & H1 & H2 & H3 & H4 & _). exists evs. split; [exact H1|].
    split; [exact H2|]. split; [exact H3|]. intros i Hi. exact (proj1 (H4 i Hi)).
  Qed.
End Invariants.
