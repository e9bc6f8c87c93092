(** Lemmas for SpecRepeat.v. *)
From Coq Require Import Lia Permutation.
From Verif Require Import Base Num NdArray Particles Jacobian Integrate Interpolate Readers DataSource
  Solver SpecSolver SolverFacts Writers FileRun FileUtils Hyper AnalyticalRun
  Manager Monitor Executor SpecExecutor ManagerRun ExecutorFacts ExecutorMain ExecutorExit ExecutorProps ExecutorRuns Jobs JobFacts Decorators ManagerFacts
  Program SpecProgram ProgramFacts AnalyticalDisk SpecMem MemMain SpecRepeat.

Lemma torn_settled {T} (fs : files T) : settled_files (torn fs).
Proof. intros p l. unfold torn. destruct (fs p) as [[]|]; discriminate. Qed.
Lemma torn_same {T} (fs : files T) p : (forall l, fs p <> Some (Unfinished l)) -> torn fs p = fs p.
Proof. intro H. unfold torn. destruct (fs p) as [[]|]; try reflexivity. destruct (H _ eq_refl). Qed.

(** ** Without workers nothing is run *)
Section Few.
  Context {R W : Type} (tasks : list (task R W)) (n : Z).
  Lemma no_workers q stop w0 s : (n <= 0)%Z -> steps tasks n (start q stop w0) s ->
    st_pool s = no_pool /\ (st_main s = Calling \/ st_main s = Watched \/ exists e, st_main s = Exited (Err e)).
  Proof.
    intro Hn. revert s.
    apply (invariant tasks n (fun s => st_pool s = no_pool /\ (st_main s = Calling \/ st_main s = Watched \/ exists e, st_main s = Exited (Err e)))); [cbn; auto|].
    intros s s' _ [Ep Em] Hs. destruct s as [c rs p b w]. cbn in Ep, Em. subst p.
    assert (Hk : forall q, ~ kill_step (@no_pool R) q) by (intros q' H; inversion H; destruct l1; discriminate).
    destruct Em as [-> |[-> |[e ->]]]; inversion Hs as [a1 b1 Hm|c1 rs1 p1 p1' b1 w1 Hm]; subst;
      try (exfalso; exact (Hk _ Hm));
      inversion Hm as [a2 b2 H|c2 rs2 p2 p2' b2 w2 H|c2 rs2 p2 p2' b2 b2' w2 w2' H|c2 rs2 p2 b2 b2' w2 H]; subst;
      inversion H; subst; cbn; eauto; try contradiction; try lia; try (destruct l1; discriminate).
  Qed.

  (** If a run can return, all its tasks are good, and it can return whatever is on the disk; it fails only if a worker is killed. *)
  Lemma good_tasks q stop w0 s rs : steps tasks n (start q stop w0) s -> st_main s = Exited (Ok rs) ->
    tasks <> [] /\ (0 < n)%Z /\ (forall t, In t tasks -> exists x, t_outcome t = Ok x).
  Proof.
    intros Hs Hm. split; [|split].
    - intros E. destruct (no_task tasks n q stop w0 s E Hs) as [-> | ->]; discriminate.
    - destruct (Z_lt_le_dec 0 n) as [H|H]; [exact H|]. destruct (no_workers q stop w0 s H Hs) as [_ [E|[E|[e E]]]]; rewrite E in Hm; discriminate.
    - intros t Ht. destruct (t_outcome t) as [x|e] eqn:E; [eauto|]. destruct (fails tasks n q stop w0 s t e Ht E Hs rs Hm).
  Qed.

  Lemma repeatable q stop w0 s rs q' stop' w0' : steps tasks n (start q stop w0) s -> st_main s = Exited (Ok rs) ->
    (exists s' rs', steps tasks n (start q' stop' w0') s' /\ st_main s' = Exited (Ok rs')) /\
    (forall s' e, steps tasks n (start q' stop' w0') s' -> st_main s' = Exited (Err e) -> killed s' /\ e = BrokenProcessPool).
  Proof.
    intros Hs Hm. destruct (good_tasks q stop w0 s rs Hs Hm) as (Ht & Hn & Hg).
    assert (G : forall s' e, steps tasks n (start q' stop' w0') s' -> st_main s' = Exited (Err e) -> killed s' /\ e = BrokenProcessPool).
    { intros s' e Hs' Hm'. destruct (error_kinds tasks n q' stop' w0' s' e Hs' Hm') as [(i & t & Hi & He & _)|[H|[[E _]|[E _]]]]; [|exact H|contradiction|lia].
      destruct (Hg t (nth_error_In _ _ Hi)) as [x Hx]. congruence. }
    split; [|exact G]. destruct (undisturbed tasks n q' stop' w0' (start q' stop' w0') (steps_refl _ _ _)) as (s' & Hs' & Hf & Hk).
    destruct (no_deadlock tasks n q' stop' w0' s' Hs' Hf) as [[rs'|e] Hm']; [eauto|].
    destruct (G s' e Hs' Hm') as [K _]. specialize (Hk K). discriminate.
  Qed.
End Few.

(** ** What the runs leave *)
Section Generic.
  Context {T A : Type} (tk : A -> task (option (list (xval T))) (files T)) (num : A -> nat) (path : A -> string) (cont : A -> option (content T)).
  Hypothesis Htk : forall a, one_file (num a) (tk a) (path a) (cont a).
  Variable l : list A.
  Hypothesis Hnum : forall i a, nth_error l i = Some a -> num a = i.

  Lemma others_kept (outputs : string -> Prop) n q stop fs s p : settled_files fs ->
    (forall a, In a l -> t_outcome (tk a) = Ok None -> outputs (path a)) -> ~ outputs p ->
    steps (map tk l) n (start q stop fs) s -> torn (st_world s) p = fs p.
  Proof.
    intros Hset Hout Hp Hs.
    destruct (state_entry tk num path cont Htk l Hnum n q stop fs s p Hset Hs) as [[E _]|[(i & a & c & Ha & _ & Ho & E & _)|(k & _ & Hk & _ & H & _)]].
    - rewrite torn_same; [exact E|]. intro k. rewrite E. apply Hset.
    - destruct Hp. rewrite E. apply Hout; [exact (nth_error_In _ _ Ha)|exact Ho].
    - destruct k as [|i k]; [congruence|]. destruct (H i (or_introl eq_refl)) as (a & Ha & _ & Ho & E). destruct Hp. rewrite E.
      apply Hout; [exact (nth_error_In _ _ Ha)|exact Ho].
  Qed.

  Lemma same_end n n' q q' stop stop' fs fs' s s' rs rs' :
    (forall a r, In a l -> t_outcome (tk a) = Ok r -> r = None) -> distinct path l -> settled_files fs -> settled_files fs' ->
    (forall p, (forall a, In a l -> p <> path a) -> fs p = fs' p) ->
    steps (map tk l) n (start q stop fs) s -> st_main s = Exited (Ok rs) ->
    steps (map tk l) n' (start q' stop' fs') s' -> st_main s' = Exited (Ok rs') ->
    forall p, st_world s p = st_world s' p.
  Proof.
    intros Hnone Hd Hset Hset' He Hs Hm Hs' Hm' p. destruct (run_writes tk num path cont Htk l Hnum n Hnone q stop fs s rs Hd Hset Hs Hm) as [A1 A2].
    destruct (run_writes tk num path cont Htk l Hnum n' Hnone q' stop' fs' s' rs' Hd Hset' Hs' Hm') as [B1 B2].
    destruct (in_dec String.string_dec p (map path l)) as [Hin|Hin].
    - apply in_map_iff in Hin as (a & <- & Ha). destruct (A1 a Ha) as (c & E & ->). destruct (B1 a Ha) as (c' & E' & ->). congruence.
    - assert (Hp : forall a, In a l -> p <> path a) by (intros a Ha ->; apply Hin; apply in_map, Ha). rewrite A2, B2; auto.
  Qed.
End Generic.

Section Repeat.
  Context {T : Type} (O : ops T) (scp : scipy T).

  Lemma left_kept outputs fs fs1 : settled_files fs -> left_behind O scp outputs fs fs1 ->
    settled_files fs1 /\ forall p, ~ outputs p -> fs1 p = fs p.
  Proof.
    intros Hset H. induction H as [|fs1 pf imems mems eigvals texts inputs c a m ts s _ [IS IH] Ha Hm Hb Hout Hs]; [auto|].
    split; [apply torn_settled|]. intros p Hp. rewrite <- (IH p Hp).
    apply (others_kept _ _ _ _ (ProgramFacts.one O scp imems mems eigvals inputs m) (indexed ts) (indexed_num ts) outputs (m_processes m) [] false fs1 s p IS); auto.
    intros f Hf _. apply Hout. apply indexed_in in Hf. exact (nth_error_In _ _ Hf).
  Qed.

  (** One more run: what happens to the file of task [i]. *)
  Lemma one_more imems mems eigvals inputs m ts n q stop fs s i f : names_differ scp m ts -> settled_files fs ->
    steps (map (manager_task O scp imems mems eigvals inputs m) (indexed ts)) n (start q stop fs) s -> nth_error ts i = Some f ->
    (~ begun s i -> torn (st_world s) (output_file scp m f) = fs (output_file scp m f)) /\
    (completed s i -> t_outcome (manager_task O scp imems mems eigvals inputs m (i, f)) = Ok None ->
       exists x, torn (st_world s) (output_file scp m f) = Some (Whole x) /\ right_contents O scp imems mems eigvals inputs m i f x) /\
    (begun s i -> ~ completed s i ->
       torn (st_world s) (output_file scp m f) = fs (output_file scp m f) \/ torn (st_world s) (output_file scp m f) = Some Other).
  Proof.
    intros Hd Hset Hs Hi.
    assert (U : forall j g, nth_error ts j = Some g -> output_file scp m f = output_file scp m g -> j = i).
    { intros j g Hj E. destruct (Nat.eq_dec j i) as [X|X]; [exact X|]. destruct (Hd j i g f Hj Hi X). symmetry. exact E. }
    pose proof (any_file O scp imems mems eigvals inputs m ts n q stop fs s (output_file scp m f) Hset Hs) as H. split; [|split].
    - intro Hb. destruct H as [[E _]|[(j & g & x & Hj & Hc & _ & E & _)|(k & E & Hk & _ & H & _)]].
      + rewrite torn_same; [exact E|]. intro k. rewrite E. apply Hset.
      + rewrite (U j g Hj E) in Hc. destruct Hb. apply (pl_begun _ _ (placed_reachable _ n q stop fs s Hs)). apply in_app_iff. right. exact Hc.
      + destruct k as [|j k]; [congruence|]. destruct (H j (or_introl eq_refl)) as (g & Hj & Hbj & E'). rewrite (U j g Hj E') in Hbj. contradiction.
    - intros Hc Ho. destruct (any_state O scp imems mems eigvals inputs m ts n q stop fs s Hd Hset Hs i f Hi Hc Ho) as (x & E & Hx).
      exists x. split; [|exact Hx]. rewrite torn_same; [exact E|]. intro k. rewrite E. discriminate.
    - intros Hb Hnc. destruct H as [[E _]|[(j & g & x & Hj & Hc & _ & E & _)|(k & E & _)]].
      + left. rewrite torn_same; [exact E|]. intro k. rewrite E. apply Hset.
      + rewrite (U j g Hj E) in Hc. contradiction.
      + right. unfold torn. rewrite E. reflexivity.
  Qed.

  Variable parse_float : string -> res T.
  Variables imems mems : nat -> nat -> memory (T := T).
  Variable eigvals : m33 T -> res (T * T * T).
  Variable texts : string -> option string.
  Variable inputs : filesystem T.
  Notation ends := (main_ends O scp parse_float imems mems eigvals texts inputs).

  Lemma repeated c fs fs1 fs2 fs2' : settled_files fs -> left_behind O scp (asked_for O scp parse_float texts c) fs fs1 ->
    (forall a m ts, parse_args parse_float c = Ok a -> manager_init O scp texts a = Ok m -> manager_batches O scp m = Ok ts -> names_differ scp m ts) ->
    ends c fs (false, Ok tt) fs2 -> ends c fs1 (false, Ok tt) fs2' -> forall p, fs2' p = fs2 p.
  Proof.
    intros Hset Hl Hd H H'. destruct (left_kept _ _ _ Hset Hl) as [Hset1 Hk].
    destruct (clean O scp parse_float imems mems eigvals texts inputs c fs fs2 H) as (a & m & ts & s & rs & Ha & Hm & Hb & Hs & He & ->).
    destruct (clean O scp parse_float imems mems eigvals texts inputs c fs1 fs2' H') as (a' & m' & ts' & s' & rs' & Ha' & Hm' & Hb' & Hs' & He' & ->).
    rewrite Ha in Ha'. injection Ha' as <-. rewrite Hm in Hm'. injection Hm' as <-. rewrite Hb in Hb'. injection Hb' as <-.
    apply (same_end _ _ _ _ (ProgramFacts.one O scp imems mems eigvals inputs m) (indexed ts) (indexed_num ts) (m_processes m) (m_processes m) [] [] false false fs1 fs s' s rs' rs
      (fun f r _ => none_result O scp imems mems eigvals inputs m f r) (differ scp m ts (Hd a m ts Ha Hm Hb)) Hset1 Hset); auto.
    intros p Hp. apply Hk. intros (a' & m' & ts' & f & Ea & Em & Et & Hf & ->).
    rewrite Ha in Ea. injection Ea as <-. rewrite Hm in Em. injection Em as <-. rewrite Hb in Et. injection Et as <-.
    destruct (In_nth_error _ _ Hf) as (i & Hi). apply (Hp (i, f)); [apply indexed_in; exact Hi|reflexivity].
  Qed.

  Lemma repeated_memory imems' mems' c fs fs1 fs2 fs2' : settled_files fs -> left_behind O scp (asked_for O scp parse_float texts c) fs fs1 ->
    whole_arrays inputs -> (forall a m, parse_args parse_float c = Ok a -> manager_init O scp texts a = Ok m -> not_scattered_in_space inputs a m) ->
    (forall a m ts, parse_args parse_float c = Ok a -> manager_init O scp texts a = Ok m -> manager_batches O scp m = Ok ts -> names_differ scp m ts) ->
    ends c fs (false, Ok tt) fs2 -> main_ends O scp parse_float imems' mems' eigvals texts inputs c fs1 (false, Ok tt) fs2' -> forall p, fs2' p = fs2 p.
  Proof.
    intros Hset Hl W N Hd H H'. apply (repeated c fs fs1 fs2 fs2' Hset Hl Hd H). exact (program_mem _ _ _ _ _ _ _ _ _ _ _ _ _ _ W N H').
  Qed.

  Lemma can_repeat c fs fs1 fs2 : ends c fs (false, Ok tt) fs2 ->
    (exists fs2', ends c fs1 (false, Ok tt) fs2') /\
    (forall out fs2', ends c fs1 out fs2' -> out = (false, Ok tt) \/ out = (true, Ok tt)).
  Proof.
    intro H. destruct (clean O scp parse_float imems mems eigvals texts inputs c fs fs2 H) as (a & m & ts & s & rs & Ha & Hm & Hb & Hs & He & ->).
    destruct (repeatable _ _ _ _ _ _ _ [] false fs1 Hs He) as [(s' & rs' & Hs' & He') G].
    assert (Hi : (let* a := parse_args parse_float c in manager_init O scp texts a) = Ok m) by (rewrite Ha; exact Hm).
    split.
    - exists (st_world s'). refine (run_ends O scp parse_float imems mems eigvals texts inputs c fs1 m s' (Ok rs') Hi _ He').
      unfold run_states. rewrite Hb. exact Hs'.
    - intros out fs2' H'. inversion H' as [e' Hi' E1|m' s1 r Hi' Hs1 Hm1 E1]; subst; [congruence|].
      rewrite Hi in Hi'. injection Hi' as <-. unfold run_states in Hs1. rewrite Hb in Hs1. cbn [bind] in Hs1.
      destruct r as [x|e]; [left; reflexivity|]. destruct (G s1 e Hs1 Hm1) as [_ ->]. right. reflexivity.
  Qed.
End Repeat.

Section Analytical.
  Context {T : Type} (O : ops T) (scp : scipy T) (format : T -> string).

  Lemma left_kept_analytical outputs fs fs1 : settled_files fs -> left_behind_analytical O scp outputs fs fs1 ->
    settled_files fs1 /\ forall p, ~ outputs p -> fs1 p = fs p.
  Proof.
    intros Hset H. induction H as [|fs1 imems mems eigvals wr w ts n q stop s _ [IS IH] Hout Hs]; [auto|].
    split; [apply torn_settled|]. intros p Hp. rewrite <- (IH p Hp).
    apply (others_kept _ _ _ _ (AnalyticalDisk.one O scp imems mems eigvals wr w) (indexed ts) (indexed_num ts) outputs n q stop fs1 s p IS); auto.
    intros [i t] Hf Ho. destruct (saving_id O scp imems mems eigvals wr w i t Ho) as (id & Hid). rewrite (path_of_id scp wr i t id Hid).
    apply indexed_in in Hf. exact (Hout t id (nth_error_In _ _ Hf) Hid).
  Qed.

  Variables imems mems : nat -> nat -> memory (T := T).
  Variable eigvals : m33 T -> res (T * T * T).
  Variable wr : writer.
  Variable w : world T (istate scp) (particles T) (@wstate T).
  Notation sources m k h := (analytical_tasks O scp format m k h).

  Lemma repeated_analytical m k h n n' q q' stop stop' fs fs1 s s' rs rs' : settled_files fs ->
    left_behind_analytical O scp (fun p => exists t id, In t (sources m k h) /\ src_id t = Ok id /\ p = output_path wr (append "ftle_" id)) fs fs1 ->
    have_ids scp (sources m k h) -> ids_differ scp (sources m k h) ->
    steps (map (saving_task O scp imems mems eigvals wr w) (indexed (sources m k h))) n (start q stop fs) s -> st_main s = Exited (Ok rs) ->
    steps (map (saving_task O scp imems mems eigvals wr w) (indexed (sources m k h))) n' (start q' stop' fs1) s' -> st_main s' = Exited (Ok rs') ->
    forall p, st_world s' p = st_world s p.
  Proof.
    intros Hset Hl Hh Hd Hs Hm Hs' Hm'. destruct (left_kept_analytical _ _ _ Hset Hl) as [Hset1 Hk].
    apply (same_end _ _ _ _ (AnalyticalDisk.one O scp imems mems eigvals wr w) (indexed (sources m k h)) (indexed_num _) n' n q' q stop' stop fs1 fs s' s rs' rs
      (fun f r _ => saving_none O scp imems mems eigvals wr w f r) (ids_distinct_paths scp wr _ Hh Hd) Hset1 Hset); auto.
    intros p Hp. apply Hk. intros (t & id & Ht & Hid & ->). destruct (In_nth_error _ _ Ht) as (i & Hi).
    apply (Hp (i, t)); [apply indexed_in; exact Hi|]. symmetry. apply path_of_id, Hid.
  Qed.

  Lemma can_repeat_analytical m k h n q q' stop stop' fs fs1 s rs :
    steps (map (saving_task O scp imems mems eigvals wr w) (indexed (sources m k h))) n (start q stop fs) s -> st_main s = Exited (Ok rs) ->
    (exists s' rs', steps (map (saving_task O scp imems mems eigvals wr w) (indexed (sources m k h))) n (start q' stop' fs1) s' /\ st_main s' = Exited (Ok rs')) /\
    (forall s' e, steps (map (saving_task O scp imems mems eigvals wr w) (indexed (sources m k h))) n (start q' stop' fs1) s' -> st_main s' = Exited (Err e) ->
       killed s' /\ e = BrokenProcessPool).
  Proof. intros Hs Hm. exact (repeatable _ _ _ _ _ _ _ q' stop' fs1 Hs Hm). Qed.
End Analytical.
