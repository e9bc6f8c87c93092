(** Lemmas about Program.v. *)
From Coq Require Import Lia Permutation.
From Verif Require Import Base Num NdArray Particles Jacobian Integrate Interpolate Readers DataSource
  Solver SpecSolver SolverFacts Writers SpecWriters WriterMain Batches FileRun FileUtils Hyper
  Manager Monitor Executor SpecExecutor ManagerRun ExecutorFacts ExecutorMain ExecutorExit ExecutorProps Jobs JobFacts Decorators ManagerFacts Program SpecProgram SpecConfig.

Section Facts.
  Context {T : Type} (O : ops T) (scp : scipy T).
  Variable parse_float : string -> res T.
  Variables imems mems : nat -> nat -> memory (T := T).
  Variable eigvals : m33 T -> res (T * T * T).
  Variable texts : string -> option string.
  Variable inputs : filesystem T.
  Notation ends := (main_ends O scp parse_float imems mems eigvals texts inputs).
  Notation task_of := (manager_task O scp imems mems eigvals inputs).
  Notation path m f := (output_file scp m f).

  (** main never raises RuntimeError. *)
  Lemma never_runtime c fs b e fs' : ends c fs (b, Err e) fs' -> is_runtime_error e = false.
  Proof.
    intro H. inversion H as [e' Hi E1|m s r Hi Hs Hm E1]; subst.
    - unfold guarded in E1. destruct (is_runtime_error e') eqn:E; [discriminate|]. injection E1 as _ <-. exact E.
    - unfold guarded in E1. destruct r as [rs|e']; cbn in E1; [discriminate|].
      destruct (is_runtime_error e') eqn:E; [discriminate|]. injection E1 as _ <-. exact E.
  Qed.

  (** What it means that no failure was reported. *)
  Lemma clean c fs fs' : ends c fs (false, Ok tt) fs' ->
    exists a m ts s rs, parse_args parse_float c = Ok a /\ manager_init O scp texts a = Ok m /\ manager_batches O scp m = Ok ts /\
      steps (map (task_of m) (indexed ts)) (m_processes m) (start [] false fs) s /\ st_main s = Exited (Ok rs) /\ fs' = st_world s.
  Proof.
    intro H. inversion H as [e' Hi E1|m s r Hi Hs Hm E1]; subst.
    - unfold guarded in E1. destruct (is_runtime_error e'); discriminate.
    - destruct r as [rs|e']; [|unfold guarded in E1; cbn in E1; destruct (is_runtime_error e'); discriminate].
      destruct (parse_args parse_float c) as [a|] eqn:Ea; [|discriminate]. cbn [bind] in Hi.
      unfold run_states in Hs. destruct (manager_batches O scp m) as [ts|e] eqn:Eb; cbn [bind] in Hs;
        [|subst s; discriminate]. exists a, m, ts, s, rs. auto 10.
  Qed.

  (** A failure is reported: the manager could not be created or the tasks not made, a task failed, or a worker was killed. *)
  Lemma reported c fs fs' : ends c fs (true, Ok tt) fs' ->
    exists e, is_runtime_error e = true /\
      ((let* a := parse_args parse_float c in let* m := manager_init O scp texts a in manager_batches O scp m) = Err e \/
       exists a m ts s, parse_args parse_float c = Ok a /\ manager_init O scp texts a = Ok m /\ manager_batches O scp m = Ok ts /\
         steps (map (task_of m) (indexed ts)) (m_processes m) (start [] false fs) s /\ fs' = st_world s /\
         ((exists i f, nth_error ts i = Some f /\ completed s i /\ t_outcome (task_of m (i, f)) = Err e) \/ killed s)).
  Proof.
    intro H. inversion H as [e' Hi E1|m s r Hi Hs Hm E1]; subst.
    - unfold guarded in E1. destruct (is_runtime_error e') eqn:E; [|discriminate]. exists e'. split; [exact E|]. left.
      destruct (parse_args parse_float c) as [a|]; cbn [bind] in *; [rewrite Hi; reflexivity|congruence].
    - destruct r as [rs|e']; [discriminate|]. unfold guarded in E1. cbn in E1. destruct (is_runtime_error e') eqn:E; [|discriminate].
      destruct (parse_args parse_float c) as [a|] eqn:Ea; [|discriminate]. cbn [bind] in Hi.
      exists e'. split; [exact E|]. cbn [bind]. rewrite Hi. cbn [bind].
      unfold run_states in Hs. destruct (manager_batches O scp m) as [ts|e] eqn:Eb; cbn [bind] in Hs.
      + right. exists a, m, ts, s. do 5 (split; [auto|]).
        destruct (error_kinds _ _ _ _ _ _ _ Hs Hm) as [(i & t & Hi' & He & Hc)|[[Hk _]|[[_ ->]|[_ ->]]]]; try discriminate; [left|auto].
        rewrite nth_error_map, indexed_nth in Hi'. destruct (nth_error ts i) as [f|] eqn:Ef; [|discriminate].
        injection Hi' as <-. exists i, f. auto.
      + subst s. cbn in Hm. injection Hm as <-. auto.
  Qed.

  Lemma one m f : one_file (fst f) (task_of m f) (path m (snd f))
    (alone O (i_interpolate O scp (imems (fst f))) eigvals (mems (fst f)) (m_writer m) (Solver (file_task O scp inputs (snd f)) true true)
       (manager_world scp m) (path m (snd f))).
  Proof. apply (job_one_file O _ eigvals _ (m_writer m) (fst f) (Solver (file_task O scp inputs (snd f)) true true)). cbn. intros id H. injection H as <-. reflexivity. Qed.

  Lemma none_result m f r : t_outcome (task_of m f) = Ok r -> r = None.
  Proof. apply (writer_none O _ eigvals _ (m_writer m) (fst f) (Solver (file_task O scp inputs (snd f)) true true)). reflexivity. Qed.

  Lemma differ m ts : names_differ scp m ts -> distinct (fun f => path m (snd f)) (indexed ts).
  Proof.
    intros H i j f g Hf Hg E. rewrite indexed_nth in Hf, Hg. destruct (nth_error ts i) as [f'|] eqn:Ef; [|discriminate].
    destruct (nth_error ts j) as [g'|] eqn:Eg; [|discriminate]. injection Hf as <-. injection Hg as <-.
    destruct (Nat.eq_dec i j) as [Eij|Eij]; [exact Eij|]. destruct (H i j f' g' Ef Eg Eij E).
  Qed.

  Lemma alone_right m i f c : t_outcome (task_of m (i, f)) = Ok None ->
    alone O (i_interpolate O scp (imems i)) eigvals (mems i) (m_writer m) (Solver (file_task O scp inputs f) true true)
       (manager_world scp m) (path m f) = Some c -> right_contents O scp imems mems eigvals inputs m i f c.
  Proof.
    unfold alone. intro Ho. unfold manager_task, job, file_worker in Ho. cbn [t_outcome fst snd] in Ho.
    destruct (run O (i_interpolate O scp (imems i)) eigvals (mems i) (write O (m_writer m)) (Solver (file_task O scp inputs f) true true)
      (with_files (manager_world scp m) no_files)) as [w' r] eqn:E. cbn in Ho. subst r. cbn [fst].
    destruct (outputs _ _ _ _ _ _ _ _ _ E) as [_ H].
    destruct (H eq_refl) as [(e & D & _)|(id & p & b & g & rw & Hid & Hp & Ha & Hf & Hw & D)]; [discriminate|].
    destruct rw as [[]|e]; [|discriminate]. cbn in Hid. injection Hid as <-. intro Hc.
    exists p, b, g, (w_writer w'). split; [exact Hp|]. split; [exact Ha|]. split; [exact Hf|]. split; [exact Hw|].
    exact Hc.
  Qed.

  Notation right m i f c := (right_contents O scp imems mems eigvals inputs m i f c).

  Lemma nth_indexed {A} (ts : list A) i k f : nth_error (indexed ts) i = Some (k, f) -> k = i /\ nth_error ts i = Some f.
  Proof. rewrite indexed_nth. destruct (nth_error ts i) as [g|]; [|discriminate]. intro H. injection H as <- <-. auto. Qed.

  (** The whole program, end to end. *)
  Lemma complete c fs fs' : settled_files fs -> ends c fs (false, Ok tt) fs' ->
    exists a m ts, parse_args parse_float c = Ok a /\ manager_init O scp texts a = Ok m /\ manager_batches O scp m = Ok ts /\
      (names_differ scp m ts ->
        (forall i f, nth_error ts i = Some f -> exists x, fs' (path m f) = Some (Whole x) /\ right m i f x) /\
        (forall p, (forall f, In f ts -> p <> path m f) -> fs' p = fs p)).
  Proof.
    intros Hset H. destruct (clean c fs fs' H) as (a & m & ts & s & rs & Ha & Hm & Hb & Hs & He & ->). exists a, m, ts.
    do 3 (split; [assumption|]). intro Hd. apply differ in Hd.
    destruct (run_writes _ _ _ _ (one m) (indexed ts) (indexed_num ts) (m_processes m) (fun f r _ => none_result m f r) [] false fs s rs Hd Hset Hs He) as [H1 H2]. split.
    - intros i f Hi. assert (Hin : In (i, f) (indexed ts)) by (apply indexed_in; exact Hi).
      destruct (H1 (i, f) Hin) as (x & Hx & Hw). cbn [fst snd] in *. exists x. split; [exact Hw|]. apply alone_right; [|exact Hx].
      assert (Hn : nth_error (indexed ts) i = Some (i, f)) by (rewrite indexed_nth, Hi; reflexivity).
      destruct (all_completed _ (indexed ts) (m_processes m) [] false fs s rs Hs He i (i, f) Hn) as (_ & r & Hr).
      rewrite (none_result m (i, f) r Hr) in Hr. exact Hr.
    - intros p Hp. apply H2. intros f Hf. apply Hp. apply indexed_in in Hf. exact (nth_error_In _ _ Hf).
  Qed.

  (** In every state of a run, whatever fails and whoever is killed. *)
  Lemma any_state m ts n q stop fs s : names_differ scp m ts -> settled_files fs -> steps (map (task_of m) (indexed ts)) n (start q stop fs) s ->
    forall i f, nth_error ts i = Some f -> completed s i -> t_outcome (task_of m (i, f)) = Ok None ->
      exists x, st_world s (path m f) = Some (Whole x) /\ right m i f x.
  Proof.
    intros Hd Hset Hs i f Hi Hc Ho. apply differ in Hd. assert (Hn : nth_error (indexed ts) i = Some (i, f)) by (rewrite indexed_nth, Hi; reflexivity).
    destruct (state_holds _ _ _ _ (one m) (indexed ts) (indexed_num ts) n q stop fs s i (i, f) Hd Hset Hs Hn Hc Ho) as (x & Hx & Hw).
    cbn [fst snd] in *. exists x. split; [exact Hw|]. apply alone_right; assumption.
  Qed.

  (** Whatever the names. *)
  Lemma any_file m ts n q stop fs s p : settled_files fs -> steps (map (task_of m) (indexed ts)) n (start q stop fs) s ->
    (st_world s p = fs p /\
       forall i f, nth_error ts i = Some f -> completed s i -> t_outcome (task_of m (i, f)) = Ok None -> p <> path m f) \/
    (exists i f x, nth_error ts i = Some f /\ completed s i /\ t_outcome (task_of m (i, f)) = Ok None /\ p = path m f /\
       st_world s p = Some (Whole x) /\ right m i f x) \/
    (exists k, st_world s p = Some (Unfinished k) /\ k <> [] /\ NoDup k /\
       (forall i, In i k -> exists f, nth_error ts i = Some f /\ begun s i /\ p = path m f) /\
       (forall i, k = [i] -> ~ completed s i)).
  Proof.
    intros Hset Hs.
    destruct (state_entry _ _ _ _ (one m) (indexed ts) (indexed_num ts) n q stop fs s p Hset Hs)
      as [[E H]|[(i & [k f] & c & Hi & Hc & Ho & Hp & Hcf & Hw)|(k & E & Hk & Hnd & H1 & H2)]].
    - left. split; [exact E|]. intros i f Hi Hc Ho. apply (H i (i, f)); auto. rewrite indexed_nth, Hi. reflexivity.
    - right. left. apply nth_indexed in Hi as [-> Hi]. exists i, f, c. do 5 (split; [assumption|]). apply alone_right; [exact Ho|].
      exact Hcf.
    - right. right. exists k. do 3 (split; [assumption|]). split; [|exact H2]. intros i Hi.
      destruct (H1 i Hi) as ([j f] & Hf & Hb & _ & Hp). apply nth_indexed in Hf as [-> Hf]. exists f. auto.
  Qed.

  (** After a run in which nobody was killed. *)
  Lemma quiet_end m ts n q stop fs s p : names_differ scp m ts -> settled_files fs -> steps (map (task_of m) (indexed ts)) n (start q stop fs) s ->
    final (map (task_of m) (indexed ts)) n s -> ~ killed s ->
    (st_world s p = fs p /\
       forall i f, nth_error ts i = Some f -> completed s i -> t_outcome (task_of m (i, f)) = Ok None -> p <> path m f) \/
    (exists i f x, nth_error ts i = Some f /\ completed s i /\ t_outcome (task_of m (i, f)) = Ok None /\ p = path m f /\
       st_world s p = Some (Whole x) /\ right m i f x).
  Proof.
    intros Hd Hset Hs Hf Hk. destruct (any_file m ts n q stop fs s p Hset Hs) as [H|[H|(k & E & Hne & Hnd & H1 & H2)]]; auto. exfalso.
    destruct k as [|i [|j k]]; [congruence| |].
    - destruct (H1 i (or_introl eq_refl)) as (f & _ & Hb & _). apply (H2 i eq_refl). exact (begun_completed _ _ _ _ _ _ _ Hs Hf Hk Hb).
    - destruct (H1 i (or_introl eq_refl)) as (f & Hfi & _ & Ef). destruct (H1 j (or_intror (or_introl eq_refl))) as (g & Hg & _ & Eg).
      inversion Hnd as [|u v Hx _]. subst. apply (Hd i j f g Hfi Hg); [|congruence]. intros ->. apply Hx. left. reflexivity.
  Qed.

  (** Two runs of the same tasks. *)
  Lemma independent m ts n n' q q' stop stop' fs s s' rs rs' : names_differ scp m ts -> settled_files fs ->
    steps (map (task_of m) (indexed ts)) n (start q stop fs) s -> st_main s = Exited (Ok rs) ->
    steps (map (task_of m) (indexed ts)) n' (start q' stop' fs) s' -> st_main s' = Exited (Ok rs') ->
    forall p, st_world s p = st_world s' p.
  Proof.
    intros Hd Hset. apply differ in Hd.
    apply (same_files (task_of m) (task_of m) _ _ _ _ (indexed ts) n n' q q' stop stop' fs s s' rs rs' (one m) (one m) (indexed_num ts)
      (fun f r _ => none_result m f r) (fun f r _ => none_result m f r) Hd); [reflexivity|exact Hset].
  Qed.

  (** Without different names. *)
  Lemma one_of_them m ts n q stop fs s rs : settled_files fs -> steps (map (task_of m) (indexed ts)) n (start q stop fs) s -> st_main s = Exited (Ok rs) ->
    forall f, In f ts ->
      (exists i g x, nth_error ts i = Some g /\ path m g = path m f /\ st_world s (path m f) = Some (Whole x) /\ right m i g x) \/
      (exists i j g h k, i <> j /\ nth_error ts i = Some g /\ nth_error ts j = Some h /\ path m g = path m f /\ path m h = path m f /\
         st_world s (path m f) = Some (Unfinished (i :: j :: k))).
  Proof.
    intros Hset Hs He f Hf. destruct (In_nth_error _ _ Hf) as (i & Hi).
    assert (Hin : In (i, f) (indexed ts)) by (apply indexed_in; exact Hi).
    destruct (run_some _ _ _ _ (one m) (indexed ts) (indexed_num ts) n (fun f r _ => none_result m f r) q stop fs s rs Hset Hs He (i, f) Hin)
      as [(j & [j' g] & x & Hg & E & Hx & Hw)|(j & j' & [a g] & [b h] & k & Hn & Hg & Hh & Eg & Eh & Hw)].
    - left. pose proof Hg as Hn. apply nth_indexed in Hg as [-> Hg]. exists j, g, x. cbn [fst snd] in *.
      do 3 (split; [assumption|]). apply alone_right; [|exact Hx].
      destruct (all_completed _ (indexed ts) n q stop fs s rs Hs He j (j, g) Hn) as (_ & r & Hr).
      rewrite (none_result m (j, g) r Hr) in Hr. exact Hr.
    - right. apply nth_indexed in Hg as [-> Hg]. apply nth_indexed in Hh as [-> Hh]. exists j, j', g, h, k. auto 10.
  Qed.

  Lemma program_duration t1 t2 c fs b durations outcome fs' :
    program_ends O scp parse_float imems mems eigvals texts inputs t1 t2 c fs b durations outcome fs' ->
    ends c fs (b, outcome) fs' /\ (outcome = Ok tt -> exists d, durations = [d] /\ elapsed t1 t2 d) /\ (forall e, outcome = Err e -> durations = []).
  Proof.
    intros (r & Hr & Ht). destruct (time_it_transparent t1 t2 r) as (E1 & E2 & E3). rewrite Ht in E1, E2, E3. cbn [fst snd] in *. subst outcome.
    split; [exact Hr|]. split; [|exact E3]. intros ->. exact (E2 tt eq_refl).
  Qed.
End Facts.
