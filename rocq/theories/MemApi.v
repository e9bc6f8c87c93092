(** AnalyticalSolver: memory does not matter (C118), and all fields are the same (C46). *)
From Coq Require Import Lia.
From Verif Require Import Base Num NdArray Particles Jacobian Integrate Interpolate DataSource Solver Writers Batches FileRun AnalyticalRun
  Monitor MonitorFacts Executor ExecutorMain Jobs JobFacts SpecProgram FieldLength ApiFacts MemRun MemMain.

Section Api.
  Context {T : Type} (O : ops T) (scp : scipy T) (format : T -> string).
  Variable eigvals : m33 T -> res (T * T * T).
  Variable write : @wstate T -> string -> list (xval T) -> mat T -> @wstate T * res unit.

  Lemma with_files_start fn ps name wr (w : world T (istate scp) (particles T) (@wstate T)) fs :
    analytical_start O scp fn ps name wr = Ok w -> exists wr', analytical_start O scp fn ps name wr' = Ok (with_files w fs).
  Proof.
    unfold analytical_start. cbn. destruct (create_integrator name) as [g|]; [|discriminate]. cbn. intros [= <-].
    eexists. unfold with_files. cbn. reflexivity.
  Qed.

  Lemma tasks_shape m k h t : In t (analytical_tasks O scp format m k h) -> exists ts, t = analytical_batch format h ts /\ length ts = Z.to_nat k.
  Proof.
    unfold analytical_tasks, time_batches. rewrite in_map_iff. intros (ts & <- & Hts). exists ts. split; [reflexivity|].
    rewrite in_map_iff in Hts. destruct Hts as (x & <- & _). unfold py_range. repeat (rewrite map_length || rewrite seq_length). reflexivity.
  Qed.

  Lemma jobs_mem imems mems imems' mems' saving fn ps name wr (w : world T (istate scp) (particles T) (@wstate T)) m k h :
    analytical_start O scp fn ps name wr = Ok w ->
    map (fun t => job (fst t) (analytical_worker O scp (imems (fst t)) eigvals (mems (fst t)) write (snd t) true saving) w) (indexed (analytical_tasks O scp format m k h)) =
    map (fun t => job (fst t) (analytical_worker O scp (imems' (fst t)) eigvals (mems' (fst t)) write (snd t) true saving) w) (indexed (analytical_tasks O scp format m k h)).
  Proof.
    intros S. apply map_ext_in. intros [i t] Ht. cbn [fst snd]. unfold indexed in Ht. apply in_combine_r in Ht.
    destruct (tasks_shape _ _ _ _ Ht) as (ts & -> & _). destruct (with_files_start _ _ _ _ _ no_files S) as (wr' & S').
    unfold job.
    destruct (analytical_mem O scp (imems i) (imems' i) (mems i) (mems' i) eigvals write format h ts ts true saving fn ps name wr' _ S' eq_refl) as [_ K].
    destruct (K eq_refl) as (E1 & E2 & E3). cbv zeta. rewrite E1, E2, E3. reflexivity.
  Qed.

  Lemma runs_mem imems mems imems' mems' saving fn ps name wr (w : world T (istate scp) (particles T) (@wstate T)) m k h n q stop fs s :
    analytical_start O scp fn ps name wr = Ok w ->
    steps (map (fun t => job (fst t) (analytical_worker O scp (imems (fst t)) eigvals (mems (fst t)) write (snd t) true saving) w) (indexed (analytical_tasks O scp format m k h)))
      n (start q stop fs) s ->
    steps (map (fun t => job (fst t) (analytical_worker O scp (imems' (fst t)) eigvals (mems' (fst t)) write (snd t) true saving) w) (indexed (analytical_tasks O scp format m k h)))
      n (start q stop fs) s.
  Proof. intros S. rewrite (jobs_mem imems mems imems' mems' saving fn ps name wr w m k h S). exact (fun H => H). Qed.

  Lemma fields_equal imems mems fn ps name wr (w : world T (istate scp) (particles T) (@wstate T)) m k h n q stop fs s rs : (2 <= m)%Z ->
    analytical_start O scp fn ps name wr = Ok w ->
    steps (map (fun t => job (fst t) (analytical_worker O scp (imems (fst t)) eigvals (mems (fst t)) write (snd t) true false) w) (indexed (analytical_tasks O scp format m k h)))
      n (start q stop fs) s -> st_main s = Exited (Ok rs) ->
    exists row, api_run false (Ok rs) = Ok (ReturnsStack (repeat row (Z.to_nat m))).
  Proof.
    intros Hm2 S Hs Hm. destruct (stacked O scp format imems eigvals mems write w n q stop fs s m k h rs Hm2 Hs Hm) as (rows & E & L & _).
    destruct (results O scp format imems eigvals mems write w n q stop fs s m k h rs Hs Hm) as (rows' & Ers & _).
    destruct (ExecutorMain.returned _ _ _ _ _ _ _ Hs Hm) as [H _]. destruct (with_files_start _ _ _ _ _ no_files S) as (wr' & S').
    assert (U : forall a b, In a rs -> In b rs -> a = b).
    { assert (G : forall a, In a rs -> exists i ts, length ts = Z.to_nat k /\
        exists y, snd (analytical_worker O scp (imems i) eigvals (mems i) write (analytical_batch format h ts) true false (with_files w no_files)) = Ok y /\ a = Some y).
      { intros a Ha. destruct (Forall2_In_r H a Ha) as (t & Ht & y & Hy & ->). apply in_map_iff in Ht. destruct Ht as ([i t'] & <- & Hin).
        unfold indexed in Hin. apply in_combine_r in Hin. destruct (tasks_shape _ _ _ _ Hin) as (ts & -> & Lt). exists i, ts. split; [exact Lt|]. exists y. split; [exact Hy|reflexivity]. }
      intros a b Ha Hb. destruct (G a Ha) as (i & ts & Li & y & Hy & ->). destruct (G b Hb) as (j & ts' & Lj & y' & Hy' & ->).
      destruct (analytical_mem O scp (imems i) (imems j) (mems i) (mems j) eigvals write format h ts ts' true false fn ps name wr' _ S' (eq_trans Li (eq_sym Lj))) as [K _].
      specialize (K eq_refl). cbv zeta in K. rewrite Hy, Hy' in K. congruence. }
    subst rs.
    assert (rows' = rows).
    { unfold api_run, api_result in E. cbn [bind] in E. rewrite map_map in E.
      assert (L' : length rows' = Z.to_nat m).
      { apply Forall2_length in H. rewrite !map_length in H. rewrite <- H. rewrite indexed_length, sources_length. reflexivity. }
      destruct rows' as [|f [|g l]]; cbn in L'; [lia|lia|]. cbn [map] in E.
      set (l' := f :: g :: l) in *. change (Some f :: Some g :: map _ l) with (map (@Some (list (xval T))) l') in E.
      unfold np_stack in E. assert (M : mapr (fun r : option (list (xval T)) => match r with Some f => Ok f | None => Err ValueError end) (map Some l') = Ok l').
      { clear. clearbody l'. clear. induction l' as [|a tl IH]; cbn; [reflexivity|]. cbn in IH. rewrite IH. reflexivity. }
      rewrite M in E. cbn [bind] in E. subst l'. cbv beta iota in E. match type of E with (if ?b then _ else _) = _ => destruct b; [|discriminate] end. injection E as E. exact E. }
    subst rows'. destruct rows as [|row rows]; [cbn in L; lia|]. exists row. rewrite E. f_equal. f_equal. rewrite <- L.
    apply Forall_eq_repeat. apply Forall_forall. intros x Hx.
    assert (In (Some (Some x)) (map (fun f => Some (Some f)) (row :: rows))) by (apply (in_map (fun f => Some (Some f))); exact Hx).
    specialize (U (Some (Some row)) (Some (Some x)) (or_introl eq_refl) H0). congruence.
  Qed.
End Api.
