(** The files left by AnalyticalSolver with a writer. *)
From Coq Require Import Lia Permutation Reals.
From Verif Require Import Base Num NdArray Particles Jacobian Integrate Interpolate Readers DataSource
  Solver SpecSolver SolverFacts Writers SpecWriters WriterMain Batches FileRun AnalyticalRun AnalyticalFacts BatchFacts PathFacts
  Monitor Executor SpecExecutor ExecutorFacts ExecutorMain ExecutorExit ExecutorProps Jobs JobFacts Manager SpecProgram FieldLength ApiFacts.

Section Disk.
  Context {T : Type} (O : ops T) (scp : scipy T) (format : T -> string).
  Variables imems mems : nat -> nat -> memory (T := T).
  Variable eigvals : m33 T -> res (T * T * T).
  Variable wr : writer.
  Variable w : world T (istate scp) (particles T) (@wstate T).
  Notation source := (source T (istate scp) (particles T)).
  Notation saving_task := (saving_task O scp imems mems eigvals wr w).
  Notation right := (analytical_right O scp imems mems eigvals wr w).
  Notation named id := (output_path wr (append "ftle_" id)).

  Definition path_of (it : nat * source) : string := match src_id (snd it) with Ok id => named id | Err _ => EmptyString end.
  Definition cont (it : nat * source) : option (content T) :=
    alone O (i_interpolate O scp (imems (fst it))) eigvals (mems (fst it)) wr (Solver (snd it) true true) w (path_of it).

  Lemma one it : one_file (fst it) (saving_task it) (path_of it) (cont it).
  Proof.
    unfold cont. apply (job_one_file O _ eigvals _ wr (fst it) (Solver (snd it) true true)). cbn [s_source].
    unfold path_of. intros id ->. reflexivity.
  Qed.

  Lemma saving_none it r : t_outcome (saving_task it) = Ok r -> r = None.
  Proof. apply (writer_none O _ eigvals _ wr (fst it) (Solver (snd it) true true)). reflexivity. Qed.

  Lemma saving_right i t id c : src_particles t (w_source w) = Ok (w_source w) -> src_id t = Ok id ->
    t_outcome (saving_task (i, t)) = Ok None -> cont (i, t) = Some c -> right i id t c.
  Proof.
    intros Hp Hid Ho. unfold cont, path_of, alone. cbn [fst snd]. rewrite Hid. unfold saving_task, job, analytical_worker in Ho. cbn [t_outcome fst snd] in Ho.
    destruct (run O (i_interpolate O scp (imems i)) eigvals (mems i) (write O wr) (Solver t true true) (with_files w no_files)) as [w' r] eqn:E.
    cbn in Ho. subst r. cbn [fst].
    destruct (outputs _ _ _ _ _ _ _ _ _ E) as [_ H].
    destruct (H eq_refl) as [(e & D & _)|(id' & p & b & g & rw & Hid' & Hp' & Ha & Hf & Hw & D)]; [discriminate|].
    destruct rw as [[]|e]; [|discriminate]. cbn [s_source] in Hid'. rewrite Hid in Hid'. injection Hid' as <-. intro Hc.
    cbn [s_source with_files w_source] in Hp'. rewrite Hp in Hp'. injection Hp' as <-.
    exists b, g, (w_writer w'). split; [exact Ha|]. split; [exact Hf|]. split; [exact Hw|]. exact Hc.
  Qed.

  Lemma saving_id i t : t_outcome (saving_task (i, t)) = Ok None -> exists id, src_id t = Ok id.
  Proof.
    intro Ho. pose proof (job_effect O (i_interpolate O scp (imems i)) eigvals (mems i) wr i (Solver t true true) w) as H.
    change (saving_task (i, t)) with (solver_job O (i_interpolate O scp (imems i)) eigvals (mems i) wr i (Solver t true true) w) in Ho.
    rewrite Ho in H. destruct H as (id & E & _). exists id. exact E.
  Qed.

  Notation sources m k h := (analytical_tasks O scp format m k h).

  Lemma nth_indexed {A} (ts : list A) i k f : nth_error (indexed ts) i = Some (k, f) -> k = i /\ nth_error ts i = Some f.
  Proof. rewrite indexed_nth. destruct (nth_error ts i) as [g|]; [|discriminate]. intro H. injection H as <- <-. auto. Qed.

  Lemma path_of_id i t id : src_id t = Ok id -> path_of (i, t) = named id.
  Proof. unfold path_of. cbn [snd]. intros ->. reflexivity. Qed.

  Lemma saving_any_file m k h n q stop fs s p : settled_files fs -> steps (map saving_task (indexed (sources m k h))) n (start q stop fs) s ->
    (st_world s p = fs p /\
       forall i t id, nth_error (sources m k h) i = Some t -> src_id t = Ok id -> completed s i ->
         t_outcome (saving_task (i, t)) = Ok None -> p <> named id) \/
    (exists i t id x, nth_error (sources m k h) i = Some t /\ src_id t = Ok id /\ completed s i /\
       t_outcome (saving_task (i, t)) = Ok None /\ p = named id /\ st_world s p = Some (Whole x) /\ right i id t x) \/
    (exists l, st_world s p = Some (Unfinished l) /\ l <> [] /\ NoDup l /\
       (forall i, In i l -> exists t id, nth_error (sources m k h) i = Some t /\ src_id t = Ok id /\ begun s i /\ p = named id) /\
       (forall i, l = [i] -> ~ completed s i)).
  Proof.
    intros Hset Hs. destruct (state_entry _ _ _ _ one (indexed (sources m k h)) (indexed_num _) n q stop fs s p Hset Hs)
      as [[E H]|[(i & [j t] & c & Hi & Hc & Ho & Hp & Hct & Hw)|(l & E & Hl & Hnd & H1 & H2)]].
    - left. split; [exact E|]. intros i t id Hi Hid Hc Ho. rewrite <- (path_of_id i t id Hid). apply (H i (i, t)); auto. rewrite indexed_nth, Hi. reflexivity.
    - right. left. apply nth_indexed in Hi as [-> Hi]. destruct (saving_id i t Ho) as (id & Hid). exists i, t, id, c.
      do 4 (split; [assumption|]). rewrite <- (path_of_id i t id Hid). do 2 (split; [assumption|]). apply saving_right; auto.
      apply (sources_particles O scp format m k h). exact (nth_error_In _ _ Hi).
    - right. right. exists l. do 3 (split; [assumption|]). split; [|exact H2]. intros i Hi.
      destruct (H1 i Hi) as ([j t] & Ht & Hb & Ho & Hp). apply nth_indexed in Ht as [-> Ht]. destruct (saving_id i t Ho) as (id & Hid).
      exists t, id. rewrite <- (path_of_id i t id Hid). auto.
  Qed.

  Lemma ids_distinct_paths ts : have_ids scp ts -> ids_differ scp ts -> distinct path_of (indexed ts).
  Proof.
    intros Hh Hd i j [i' a] [j' b] Ha Hb E. rewrite indexed_nth in Ha, Hb.
    destruct (nth_error ts i) as [a'|] eqn:Ea; [|discriminate]. destruct (nth_error ts j) as [b'|] eqn:Eb; [|discriminate].
    injection Ha as <- <-. injection Hb as <- <-. destruct (Nat.eq_dec i j) as [Eij|Eij]; [exact Eij|]. exfalso.
    apply (Hd i j a' b' Ea Eb Eij). destruct (Hh a' (nth_error_In _ _ Ea)) as (x & Hx). destruct (Hh b' (nth_error_In _ _ Eb)) as (y & Hy).
    unfold path_of in E. cbn [snd] in E. rewrite Hx, Hy in *. apply task_path_inj in E. congruence.
  Qed.

  Lemma saving_complete m k h n q stop fs s rs : have_ids scp (sources m k h) -> ids_differ scp (sources m k h) -> settled_files fs ->
    steps (map saving_task (indexed (sources m k h))) n (start q stop fs) s -> st_main s = Exited (Ok rs) ->
    (forall i t id, nth_error (sources m k h) i = Some t -> src_id t = Ok id ->
       exists x, st_world s (named id) = Some (Whole x) /\ right i id t x) /\
    (forall p, (forall t id, In t (sources m k h) -> src_id t = Ok id -> p <> named id) -> st_world s p = fs p).
  Proof.
    intros Hh Hd Hset Hs Hm. pose proof (ids_distinct_paths _ Hh Hd) as Hp.
    destruct (run_writes _ _ _ _ one (indexed (sources m k h)) (indexed_num _) n (fun f r _ => saving_none f r) q stop fs s rs Hp Hset Hs Hm) as [H1 H2]. split.
    - intros i t id Hi Hid. assert (Hin : In (i, t) (indexed (sources m k h))) by (apply indexed_in; exact Hi).
      destruct (H1 (i, t) Hin) as (x & Hx & Hw). rewrite (path_of_id i t id Hid) in Hw. exists x. split; [exact Hw|]. apply saving_right; auto.
      + apply (sources_particles O scp format m k h). exact (nth_error_In _ _ Hi).
      + assert (Hn : nth_error (indexed (sources m k h)) i = Some (i, t)) by (rewrite indexed_nth, Hi; reflexivity).
        destruct (all_completed _ (indexed (sources m k h)) n q stop fs s rs Hs Hm i (i, t) Hn) as (_ & r & Hr). rewrite (saving_none _ r Hr) in Hr. exact Hr.
    - intros p Hpp. apply H2. intros [i t] Hf. apply indexed_in in Hf. cbn [fst snd] in Hf. apply nth_error_In in Hf.
      destruct (Hh t Hf) as (id & Hid). rewrite (path_of_id i t id Hid). exact (Hpp t id Hf Hid).
  Qed.

  Lemma saving_independent m k h n n' q q' stop stop' fs s s' rs rs' : have_ids scp (sources m k h) -> ids_differ scp (sources m k h) -> settled_files fs ->
    steps (map saving_task (indexed (sources m k h))) n (start q stop fs) s -> st_main s = Exited (Ok rs) ->
    steps (map saving_task (indexed (sources m k h))) n' (start q' stop' fs) s' -> st_main s' = Exited (Ok rs') ->
    forall p, st_world s p = st_world s' p.
  Proof.
    intros Hh Hd Hset. apply (same_files saving_task saving_task _ _ _ _ (indexed (sources m k h)) n n' q q' stop stop' fs s s' rs rs' one one (indexed_num _)
      (fun f r _ => saving_none f r) (fun f r _ => saving_none f r) (ids_distinct_paths _ Hh Hd)); [reflexivity|exact Hset].
  Qed.
End Disk.

(** Over the real numbers, with a timestep of at least 1e-6. *)
Section Real.
  Variable scp : scipy R.
  Variables imems mems : nat -> nat -> memory (T := R).
  Variable eigvals : m33 R -> res (R * R * R).
  Variable wr : writer.
  Variable w : world R (istate scp) (particles R) (@wstate R).
  Notation sources m k h := (analytical_tasks Rops scp format6 (Z.of_nat m) (Z.of_nat k) h).
  Notation saving := (saving_task Rops scp imems mems eigvals wr w).

  Lemma real_ids m k h : (0 < k)%nat -> have_ids scp (sources m k h).
  Proof. intros Hk t Ht. destruct (In_nth_error _ _ Ht) as (i & Hi). rewrite (task_id scp m k h i t Hk Hi). eauto. Qed.
  Lemma real_differ m k h : (0 < k)%nat -> (1/1000000 <= Rabs h)%R -> ids_differ scp (sources m k h).
  Proof. intros Hk Hh i j a b Ha Hb Hij. exact (ids_distinct scp m k h i j a b Hk Hh Hij Ha Hb). Qed.

  Lemma real_complete m k h n q stop fs s rs : (0 < k)%nat -> (1/1000000 <= Rabs h)%R -> settled_files fs ->
    steps (map saving (indexed (sources m k h))) n (start q stop fs) s -> st_main s = Exited (Ok rs) ->
    (forall i t, nth_error (sources m k h) i = Some t ->
       let id := format6 (INR i * h) in
       exists x, st_world s (output_path wr (append "ftle_" id)) = Some (Whole x) /\ analytical_right Rops scp imems mems eigvals wr w i id t x) /\
    (forall p, (forall i, (i < m)%nat -> p <> output_path wr (append "ftle_" (format6 (INR i * h)))) -> st_world s p = fs p).
  Proof.
    intros Hk Hh Hset Hs Hm.
    destruct (saving_complete Rops scp format6 imems mems eigvals wr w (Z.of_nat m) (Z.of_nat k) h n q stop fs s rs (real_ids m k h Hk) (real_differ m k h Hk Hh) Hset Hs Hm) as [H1 H2]. split.
    - intros i t Hi id. apply H1; [exact Hi|]. exact (task_id scp m k h i t Hk Hi).
    - intros p Hp. apply H2. intros t id Ht Hid. destruct (In_nth_error _ _ Ht) as (i & Hi). rewrite (task_id scp m k h i t Hk Hi) in Hid.
      injection Hid as <-. apply Hp. rewrite <- (Nat2Z.id m), <- (sources_length Rops scp format6 (Z.of_nat m) (Z.of_nat k) h). apply nth_error_Some. congruence.
  Qed.

  Lemma real_independent m k h n n' q q' stop stop' fs s s' rs rs' : (0 < k)%nat -> (1/1000000 <= Rabs h)%R -> settled_files fs ->
    steps (map saving (indexed (sources m k h))) n (start q stop fs) s -> st_main s = Exited (Ok rs) ->
    steps (map saving (indexed (sources m k h))) n' (start q' stop' fs) s' -> st_main s' = Exited (Ok rs') ->
    forall p, st_world s p = st_world s' p.
  Proof.
    intros Hk Hh. exact (saving_independent Rops scp format6 imems mems eigvals wr w (Z.of_nat m) (Z.of_nat k) h n n' q q' stop stop' fs s s' rs rs' (real_ids m k h Hk) (real_differ m k h Hk Hh)).
  Qed.
End Real.
