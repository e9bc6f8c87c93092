(** Lemmas about AnalyticalSolver.run (Jobs.v). *)
From Coq Require Import Lia Permutation.
From Verif Require Import Base Num NdArray NdFacts Particles Jacobian JacobianFacts Integrate Interpolate DataSource
  Solver SpecSolver SolverFacts Writers Batches BatchFacts FileRun AnalyticalRun
  Monitor MonitorFacts Executor SpecExecutor ExecutorFacts ExecutorMain ExecutorExit ExecutorProps Jobs JobFacts FieldLength Manager SpecProgram.

Section Api.
  Context {T : Type} (O : ops T) (scp : scipy T) (format : T -> string).
  Variable imems : nat -> nat -> memory (T := T).
  Variable eigvals : m33 T -> res (T * T * T).
  Variable mems : nat -> nat -> memory (T := T).
  Variable write : @wstate T -> string -> list (xval T) -> mat T -> @wstate T * res unit.
  Variable w : world T (istate scp) (particles T) (@wstate T).
  Variable n : Z.
  Notation worker saving t := (analytical_worker O scp (imems (fst t)) eigvals (mems (fst t)) write (snd t) true saving).
  Notation sources m k h := (analytical_tasks O scp format m k h).
  Notation tasks saving m k h := (map (fun t => job (fst t) (worker saving t) w) (indexed (sources m k h))).

  Lemma sources_length m k h : length (sources m k h) = Z.to_nat m.
  Proof.
    unfold analytical_tasks, time_batches. rewrite map_length. unfold py_range. 
    repeat (rewrite map_length || rewrite seq_length). reflexivity.
  Qed.

  Lemma sources_particles m k h t p : In t (sources m k h) -> src_particles t p = Ok p.
  Proof. unfold analytical_tasks. rewrite in_map_iff. intros (ts & <- & _). reflexivity. Qed.

  Lemma saved q stop fs s m k h rs : steps (tasks true m k h) n (start q stop fs) s -> st_main s = Exited (Ok rs) ->
    api_run true (Ok rs) = Ok ReturnsNone.
  Proof. reflexivity. Qed.

  (** The result of each task. *)
  Lemma results q stop fs s m k h rs : steps (tasks false m k h) n (start q stop fs) s -> st_main s = Exited (Ok rs) ->
    exists rows, rs = map (fun f => Some (Some f)) rows /\
      Forall2 (fun t f => analytical_field O scp imems mems eigvals w (fst t) (snd t) f /\ length f = points (w_source w))
        (indexed (sources m k h)) rows.
  Proof.
    intros Hs Hm. destruct (ExecutorMain.returned _ _ _ _ _ _ _ Hs Hm) as [H _]. clear Hs Hm.
    assert (Hp : forall t, In t (indexed (sources m k h)) -> src_particles (snd t) (w_source w) = Ok (w_source w)).
    { intros t Ht. apply indexed_in in Ht. exact (sources_particles m k h _ _ (nth_error_In _ _ Ht)). }
    revert rs H Hp. induction (indexed (sources m k h)) as [|t ts IH]; intros rs H Hp.
    - inversion H. exists []. split; [reflexivity|constructor].
    - cbn [map] in H. inversion H as [|x r xs rs' (y & Hy & ->) H' E1 E2]. subst.
      destruct (IH rs' H') as (rows & -> & F); [intros u Hu; apply Hp; right; exact Hu|].
      unfold job in Hy. cbn [t_outcome] in Hy. destruct (worker false t (with_files w no_files)) as [w' r] eqn:E. cbn [snd] in Hy. subst r.
      pose proof E as E0. destruct (outputs _ _ _ _ _ _ _ _ _ E) as [Ho _]. destruct (Ho eq_refl) as [_ Ho'].
      destruct (Ho' y eq_refl) as (f & ->).
      exists (f :: rows). split; [reflexivity|]. constructor; [|exact F]. split.
      { apply run_ok in E as (id & p & p' & _ & Hp0 & Ha & Hf & _); [|reflexivity].
        assert (Hp1 := Hp t (or_introl eq_refl)). cbn [s_source with_files w_source] in *. rewrite Hp1 in Hp0. injection Hp0 as <-.
        eexists. split; [exact Ha|]. exact Hf. }
      refine (run_field_length O _ eigvals (mems (fst t)) write (Solver (snd t) true false) _ _ f (w_source w) eq_refl E _).
      cbn. apply Hp. left. reflexivity.
  Qed.

  Lemma stack_ok (rows : list (list (xval T))) (N : nat) : rows <> [] -> (forall f, In f rows -> length f = N) ->
    np_stack (map Some rows) = Ok (ReturnsStack rows).
  Proof.
    intros Hne Hl. unfold np_stack.
    assert (E : mapr (fun r : option (list (xval T)) => match r with Some f => Ok f | None => Err ValueError end) (map Some rows) = Ok rows).
    { clear. induction rows as [|f rows IH]; cbn; [reflexivity|]. cbn in IH. rewrite IH. reflexivity. }
    rewrite E. cbn [bind]. destruct rows as [|f rows]; [congruence|].
    replace (forallb (fun g : list (xval T) => length g =? length f) (f :: rows)) with true; [reflexivity|]. symmetry.
    apply forallb_forall. intros g Hg. apply Nat.eqb_eq. rewrite (Hl g Hg), (Hl f (or_introl eq_refl)). reflexivity.
  Qed.

  Lemma stacked q stop fs s m k h rs : (2 <= m)%Z ->
    steps (tasks false m k h) n (start q stop fs) s -> st_main s = Exited (Ok rs) ->
    exists rows, api_run false (Ok rs) = Ok (ReturnsStack rows) /\ length rows = Z.to_nat m /\
      Forall2 (fun t f => analytical_field O scp imems mems eigvals w (fst t) (snd t) f /\ length f = points (w_source w))
        (indexed (sources m k h)) rows.
  Proof.
    intros Hm2 Hs Hm. destruct (results q stop fs s m k h rs Hs Hm) as (rows & -> & F). exists rows.
    assert (L : length rows = Z.to_nat m) by (rewrite <- (sources_length m k h), <- (indexed_length (sources m k h)); symmetry; exact (Forall2_length F)).
    split; [|auto]. unfold api_run, api_result. cbn [bind]. rewrite map_map.
    assert (E : np_stack (map Some rows) = Ok (ReturnsStack rows)).
    { apply (stack_ok rows (points (w_source w))); [intros ->; cbn in L; lia|]. clear - F. intros f Hf.
      induction F as [|t g ts gs [_ Hg] F IH]; [destruct Hf|]. destruct Hf as [<-|Hf]; auto. }
    destruct rows as [|f [|g rows]]; cbn [length] in L; [lia|lia|]. exact E.
  Qed.

  Lemma single q stop fs s k h rs : steps (tasks false 1 k h) n (start q stop fs) s -> st_main s = Exited (Ok rs) ->
    exists f, api_run false (Ok rs) = Ok (ReturnsField f) /\ length f = points (w_source w) /\
      exists t, sources 1 k h = [t] /\ analytical_field O scp imems mems eigvals w 0 t f.
  Proof.
    intros Hs Hm. destruct (results q stop fs s 1 k h rs Hs Hm) as (rows & -> & F).
    pose proof (sources_length 1 k h) as L. change (Z.to_nat 1) with 1 in L.
    destruct (sources 1 k h) as [|t [|t' ts]]; try discriminate. inversion F as [|x f xs fs' [H1 H2] F' E1 E2]. subst.
    inversion F'. subst. exists f. split; [reflexivity|]. split; [exact H2|]. exists t. auto.
  Qed.

  (** Without tasks run raises IndexError; the RuntimeError of api.py:217 is never raised. *)
  Lemma none q stop fs s saving m k h r : (m <= 0)%Z ->
    steps (tasks saving m k h) n (start q stop fs) s -> st_main s = Exited r -> api_run saving r = Err IndexError.
  Proof.
    intros Hm Hs He. assert (E : tasks saving m k h = []).
    { apply length_zero_iff_nil. rewrite map_length, indexed_length, sources_length. lia. }
    rewrite E in Hs. apply no_task in Hs as [-> | ->]; [discriminate| |reflexivity]. injection He as <-. reflexivity.
  Qed.
End Api.
