(** Whole runs of AnalyticalSolver in binary64. *)
From Coq Require Import Reals Lia Lra Psatz Floats.
From Flocq Require Import Core.
From Verif Require Import Base Num NdArray NdFacts Text Particles Jacobian Ftle Integrate Interpolate DataSource Solver FileRun AnalyticalRun Writers Batches
  Monitor Executor Jobs SpecExecutor SpecWriters SpecProgram SpecSeeds SpecFtle SpecSolver SpecIntegrate SpecOrder SpecConverge SpecFloat64 SpecAccuracy SpecFloatGrid SpecFloatJac
  SpecEigen SpecRounding SpecFloatRun SpecFloatRun3 SpecGridProgram SpecAnalyticalProgram
  TextFacts PathFacts ParticleFacts VtkFacts WriterFacts WriterMain SolverFacts BatchFacts BatchFloat AnalyticalFacts FieldLength ExecutorFacts ExecutorMain ExecutorProps ExecutorRuns JobFacts ApiFacts AnalyticalDisk
  FloatArith FloatGrid FloatAxis FtleAccuracyMain FloatFtleRun FloatFtleRun3 GridProgramMain.

(** A run with a writer, from the run without. *)
Section Writing.
  Context {T : Type} (O : ops T) {S P : Type}.
  Variable interpolate : S -> mat T -> S * res (mat T).
  Variable eigvals : m33 T -> res (T * T * T).
  Variable mems : nat -> memory (T := T).
  Variable wr : writer.
  Notation runs := (run O interpolate eigvals mems (write O wr)).

  Lemma run_steps_writer src q id n : forall i (w : world T S P (@wstate T)) p,
    run_steps O interpolate mems (Solver src q true) id n i w p = run_steps O interpolate mems (Solver src q false) id n i w p.
  Proof.
    induction n as [|n IH]; intros i w p; [reflexivity|]. cbn [run_steps s_source s_queue].
    destruct (src_update src (w_interp w) i) as [s1 [[]|e]]; [|reflexivity].
    destruct (integrate _ _ _ _ _ _ _) as [[[ig s2] p'] [[]|e]]; [|reflexivity]. apply IH.
  Qed.
  Lemma run_steps_centroid sv id n : forall i (w : world T S P (@wstate T)) p w' p' r,
    run_steps O interpolate mems sv id n i w p = (w', p', r) -> initial_centroid p' = initial_centroid p.
  Proof.
    induction n as [|n IH]; intros i w p w' p' r H; cbn [run_steps] in H; [injection H as <- <- <-; reflexivity|].
    destruct (src_update (s_source sv) (w_interp w) i) as [s1 [[]|e]]; [|injection H as <- <- <-; reflexivity].
    assert (Hc : forall ig s h q x, integrate O interpolate q ig s h p = x -> initial_centroid (snd (fst x)) = initial_centroid p).
    { intros ig s h q x <-. unfold integrate. destruct (integrate_pos _ _ _ _ _ _ _) as [[? ?] [?|?]]; reflexivity. }
    destruct (integrate _ _ _ _ _ _ _) as [[[ig s2] p1] [[]|e]] eqn:E; apply Hc in E; cbn in E.
    - rewrite <- E. exact (IH _ _ _ _ _ _ H).
    - injection H as <- <- <-. exact E.
  Qed.
  Lemma run_writes_field src q (w : world T S P (@wstate T)) f : snd (runs (Solver src q false) w) = Ok (Some f) ->
    exists id p, src_id src = Ok id /\ src_particles src (w_source w) = Ok p /\
      let rw := write O wr (w_writer w) (append "ftle_" id) f (initial_centroid p) in
      w_writer (fst (runs (Solver src q true) w)) = fst rw /\ snd (runs (Solver src q true) w) = (let* _ := snd rw in Ok None).
  Proof.
    unfold run. cbn [s_source s_queue s_writer].
    destruct (src_particles src (w_source w)) as [p|e]; [|discriminate]. destruct (src_id src) as [id|e]; [|discriminate].
    rewrite run_steps_writer. destruct (run_steps _ _ _ _ _ _ _ _ _) as [[w1 p1] [[]|e]] eqn:Es; [|discriminate].
    destruct (compute_ftle O eigvals (src_steps src) (src_timestep src) p1) as [g|e] eqn:Eg; [|discriminate].
    intro H. injection H as ->. exists id, p. split; [reflexivity|]. split; [reflexivity|].
    assert (Hw1 : w_writer w1 = w_writer w) by (apply (run_steps_files O interpolate mems (Solver src q false) id no_files) in Es; apply Es).
    apply run_steps_centroid in Es. cbn [keep w_writer]. rewrite Hw1, Es.
    destruct (write O wr (w_writer w) (append "ftle_" id) f (initial_centroid p)) as [wst rr]. split; reflexivity.
  Qed.
End Writing.

(** ** AnalyticalSolver.run, when all tasks are known to succeed *)
Section Total.
  Context {T : Type} (O : ops T) (scp : scipy T) (format : T -> string).
  Variables imems mems : nat -> nat -> memory (T := T).
  Variable eigvals : m33 T -> res (T * T * T).
  Variable wr : writer.
  Variable w : world T (istate scp) (particles T) (@wstate T).
  Variables count k : Z.
  Variable hF : T.
  Variable n : Z.
  Notation sources := (analytical_tasks O scp format count k hF).
  Notation worker saving t := (analytical_worker O scp (imems (fst t)) eigvals (mems (fst t)) (write O wr) (snd t) true saving).
  Notation tasks saving := (map (fun t => job (fst t) (worker saving t) w) (indexed sources)).
  Hypothesis Hcount : (1 <= count)%Z.
  Hypothesis Hn : (0 < n)%Z.

  Lemma tasks_none saving : tasks saving <> [].
  Proof.
    intro E. apply map_eq_nil in E. apply (f_equal (@length _)) in E. rewrite indexed_length, sources_length in E. cbn in E. lia.
  Qed.

  Lemma run_total saving (out : nat -> option (list (xval T))) q stop (fs : files T) :
    (forall i t, nth_error sources i = Some t -> t_outcome (job i (worker saving (i, t)) w) = Ok (out i)) ->
    (exists s rs, Executor.steps (tasks saving) n (start q stop fs) s /\ st_main s = Exited (Ok rs)) /\
    forall s r, Executor.steps (tasks saving) n (start q stop fs) s -> st_main s = Exited r ->
      (r = Err BrokenProcessPool /\ killed s) \/ r = Ok (map Some (map out (seq 0 (Z.to_nat count)))).
  Proof.
    intro Ho.
    assert (Hmap : map t_outcome (tasks saving) = map Ok (map out (seq 0 (Z.to_nat count)))).
    { rewrite <- (sources_length O scp format count k hF). rewrite !map_map. unfold indexed.
      assert (G : forall l j, (forall i t, nth_error l i = Some t -> t_outcome (job (j + i) (worker saving ((j + i)%nat, t)) w) = Ok (out (j + i)%nat)) ->
        map (fun x => t_outcome (job (fst x) (worker saving x) w)) (combine (seq j (length l)) l) = map (fun x => Ok (out x)) (seq j (length l))); [|exact (G _ 0%nat Ho)].
      clear. induction l as [|t l IH]; intros j Ho; [reflexivity|]. cbn [length seq combine map]. f_equal.
      - specialize (Ho 0%nat t eq_refl). rewrite Nat.add_0_r in Ho. exact Ho.
      - apply IH. intros i t' Hi. specialize (Ho (Datatypes.S i) t' Hi). rewrite Nat.add_succ_r in Ho. exact Ho. }
    split.
    - destruct (undisturbed (tasks saving) n q stop fs (start q stop fs) (steps_refl _ _ _)) as (s & Hs & Hf & Hk).
      exists s. eexists. split; [exact Hs|].
      apply (results_in_order (tasks saving) n q stop fs (map out (seq 0 (Z.to_nat count)))); auto; [apply tasks_none|]. intro K. specialize (Hk K). discriminate.
    - intros s [rs|e] Hs Hm.
      + right. f_equal. destruct (ExecutorMain.returned _ _ _ _ _ _ _ Hs Hm) as [H _]. clear - H Hmap.
        revert Hmap H. generalize (map out (seq 0 (Z.to_nat count))) as l. generalize (tasks saving) as ts. intros ts l Hmap H. revert l Hmap.
        induction H as [|t r ts rs (x & Hx & ->) _ IH]; intros [|y l] Hmap; try discriminate; [reflexivity|].
        cbn in *. injection Hmap as Hy Ho. rewrite Hx in Hy. injection Hy as ->. f_equal. auto.
      + left. destruct (error_kinds _ _ _ _ _ _ _ Hs Hm) as [(i & t & Hi & He & _)|[[Hk ->]|[[E _]|[E _]]]].
        * exfalso. assert (Hin : In (Err e) (map Ok (map out (seq 0 (Z.to_nat count))))) by (rewrite <- Hmap, <- He; apply in_map; exact (nth_error_In _ _ Hi)).
          apply in_map_iff in Hin as (x & Hx & _). discriminate.
        * auto.
        * destruct (tasks_none saving E).
        * lia.
  Qed.

  (** Without a writer. *)
  Lemma returns_total (row : nat -> list (xval T)) N q stop (fs : files T) : (forall i, (i < Z.to_nat count)%nat -> length (row i) = N) ->
    (forall i t, nth_error sources i = Some t -> snd (worker false (i, t) (with_files w no_files)) = Ok (Some (row i))) ->
    (exists s rs, Executor.steps (tasks false) n (start q stop fs) s /\ st_main s = Exited (Ok rs)) /\
    forall s r, Executor.steps (tasks false) n (start q stop fs) s -> st_main s = Exited r ->
      (r = Err BrokenProcessPool /\ killed s) \/
      api_run false r = Ok (if (count =? 1)%Z then ReturnsField (row 0%nat) else ReturnsStack (map row (seq 0 (Z.to_nat count)))).
  Proof.
    intros HN Ho. destruct (run_total false (fun i => Some (row i)) q stop fs Ho) as [H1 H2]. split; [exact H1|].
    intros s r Hs Hm. destruct (H2 s r Hs Hm) as [H| ->]; [left; exact H|right].
    unfold api_run. cbn [bind]. destruct (Z.eqb_spec count 1) as [-> |Hc]; [reflexivity|].
    unfold api_result. rewrite !map_map.
    assert (E : np_stack (map Some (map row (seq 0 (Z.to_nat count)))) = Ok (ReturnsStack (map row (seq 0 (Z.to_nat count))))).
    { apply (stack_ok _ N).
      - intro E. apply map_eq_nil in E. apply (f_equal (@length _)) in E. rewrite seq_length in E. cbn in E. lia.
      - intros f Hf. apply in_map_iff in Hf as (i & <- & Hi). apply HN. apply in_seq in Hi. lia. }
    rewrite map_map in E. assert (L : length (map (fun i => Some (row i)) (seq 0 (Z.to_nat count))) = Z.to_nat count) by (rewrite map_length, seq_length; reflexivity).
    destruct (map (fun i => Some (row i)) (seq 0 (Z.to_nat count))) as [|a [|b l]]; cbn [length] in L; [lia|lia|]. exact E.
  Qed.

  (** With a writer. *)
  Lemma saves_total (Q : nat -> content T -> Prop) q stop (fs : files T) :
    have_ids scp sources -> ids_differ scp sources -> settled_files fs ->
    (forall i t id, nth_error sources i = Some t -> src_id t = Ok id -> exists x,
       snd (worker true (i, t) (with_files w no_files)) = Ok None /\
       w_files (w_writer (fst (worker true (i, t) (with_files w no_files)))) (output_path wr (append "ftle_" id)) = Some x /\ Q i x) ->
    (exists s rs, Executor.steps (tasks true) n (start q stop fs) s /\ st_main s = Exited (Ok rs)) /\
    forall s r, Executor.steps (tasks true) n (start q stop fs) s -> st_main s = Exited r ->
      (r = Err BrokenProcessPool /\ killed s) \/
      (api_run true r = Ok ReturnsNone /\
       (forall i t id, nth_error sources i = Some t -> src_id t = Ok id -> exists x, st_world s (output_path wr (append "ftle_" id)) = Some (Whole x) /\ Q i x) /\
       (forall p, (forall t id, In t sources -> src_id t = Ok id -> p <> output_path wr (append "ftle_" id)) -> st_world s p = fs p)).
  Proof.
    intros Hh Hd Hset Ho. destruct (run_total true (fun _ => None) q stop fs) as [H1 H2].
    { intros i t Hi. destruct (Hh t (nth_error_In _ _ Hi)) as (id & Hid). destruct (Ho i t id Hi Hid) as (x & Hx & _). exact Hx. }
    split; [exact H1|]. intros s r Hs Hm. destruct (H2 s r Hs Hm) as [H| ->]; [left; exact H|right]. split; [reflexivity|].
    pose proof (ids_distinct_paths scp wr _ Hh Hd) as Hp.
    destruct (run_writes _ _ _ _ (one O scp imems mems eigvals wr w) (indexed sources) (indexed_num _) n (fun f r _ => saving_none O scp imems mems eigvals wr w f r) q stop fs s _ Hp Hset Hs Hm) as [W1 W2]. split.
    - intros i t id Hi Hid. destruct (W1 (i, t) (proj2 (indexed_in _ (i, t)) Hi)) as (x & Hx & Hw). rewrite (path_of_id scp wr i t id Hid) in Hw.
      exists x. split; [exact Hw|]. destruct (Ho i t id Hi Hid) as (x' & _ & Hx' & HQ).
      replace x with x'; [exact HQ|]. unfold cont, alone in Hx. rewrite (path_of_id scp wr i t id Hid) in Hx.
      assert (Some x' = Some x); [rewrite <- Hx, <- Hx'; reflexivity|congruence].
    - intros p Hpp. apply W2. intros [i t] Hf. apply indexed_in in Hf. cbn [fst snd] in Hf. apply nth_error_In in Hf.
      destruct (Hh t Hf) as (id & Hid). rewrite (path_of_id scp wr i t id Hid). exact (Hpp t id Hf Hid).
  Qed.
End Total.

(** ** Start times and file names in binary64 *)
Local Open Scope R_scope.

Definition start_F lnF (hF : PrimFloat.float) (i : nat) : PrimFloat.float :=
  o_add (Fops lnF) (o_mul (Fops lnF) (o_ofZ (Fops lnF) (Z.of_nat i)) hF) (o_mul (Fops lnF) (o_ofZ (Fops lnF) (Z.of_nat 0)) hF).

Lemma sources_nth lnF (scp : scipy PrimFloat.float) format count n hF i t : (0 < n)%nat ->
  nth_error (analytical_tasks (Fops lnF) scp format count (Z.of_nat n) hF) i = Some t ->
  (i < Z.to_nat count)%nat /\ exists ts, t = analytical_batch format hF ts /\ length ts = n /\ src_id t = Ok (format (start_F lnF hF i)).
Proof.
  intros Hn H. assert (Hi : (i < Z.to_nat count)%nat).
  { rewrite <- (sources_length (Fops lnF) scp format count (Z.of_nat n) hF). apply nth_error_Some. congruence. }
  split; [exact Hi|]. assert (E : count = Z.of_nat (Z.to_nat count)) by lia.
  rewrite E in H. unfold analytical_tasks in H. rewrite nth_error_map in H.
  destruct (times (Fops lnF) (Z.to_nat count) n hF) as [_ Ht]. destruct (Ht i Hi) as (ts & E1 & E2 & E3).
  rewrite E1 in H. injection H as <-. exists ts. split; [reflexivity|]. split; [exact E2|]. specialize (E3 0%nat Hn).
  destruct ts as [|x ts]; [discriminate|]. cbn [nth_error] in E3. injection E3 as ->. reflexivity.
Qed.
Lemma sources_get lnF (scp : scipy PrimFloat.float) format count n hF i : (i < Z.to_nat count)%nat ->
  exists t, nth_error (analytical_tasks (Fops lnF) scp format count n hF) i = Some t.
Proof.
  intro Hi. rewrite <- (sources_length (Fops lnF) scp format count n hF) in Hi. apply nth_error_Some in Hi.
  destruct (nth_error _ i); [eauto|congruence].
Qed.

Lemma start_about lnF hF h i : represents hF h -> 1 / 1000000 <= Rabs h <= 2 ^ 800 -> (Z.of_nat i <= 2 ^ 40)%Z -> about h i (start_F lnF hF i).
Proof.
  intros Rh [H1 H2] Hi. destruct uround_val as [U0 U1].
  assert (Ht : 0 < tiny /\ tiny <= uround * (1 / 1000000)).
  { split; [apply bpow_gt_0|]. unfold tiny. rewrite uround_bpow. apply Rle_trans with (bpow radix2 (-53) * bpow radix2 (-20)).
    - rewrite <- bpow_plus. apply bpow_le. lia.
    - apply Rmult_le_compat_l; [apply bpow_ge_0|]. cbn. lra. }
  destruct Ht as [T0 T1].
  assert (B : 2 ^ 40 * 2 ^ 800 <= bpow radix2 900) by (rewrite !pow_bpow, <- bpow_plus; apply bpow_le; cbn; lia).
  pose proof (int_rep (Z.of_nat i) ltac:(lia)) as Ri. pose proof (int_rep (Z.of_nat 0) ltac:(lia)) as R0. rewrite <- INR_IZR_INZ in Ri, R0. cbn [INR] in R0.
  assert (Hi' : 0 <= INR i <= 2 ^ 40).
  { split; [apply pos_INR|]. rewrite INR_IZR_INZ. replace (2 ^ 40) with (IZR (2 ^ 40)) by (cbn; lra). apply IZR_le. exact Hi. }
  pose proof (Rabs_pos h) as Ph.
  assert (HP : Rabs (INR i * h) = INR i * Rabs h) by (rewrite Rabs_mult, (Rabs_pos_eq (INR i)) by lra; reflexivity).
  assert (Big : INR i * Rabs h <= 2 ^ 40 * 2 ^ 800) by (apply Rmult_le_compat; lra).
  assert (B9 : bpow radix2 900 + 1 <= bpow radix2 1000).
  { apply Rle_trans with (bpow radix2 900 + bpow radix2 900); [apply Rplus_le_compat_l; change 1 with (bpow radix2 0); apply bpow_le; lia|].
    replace (bpow radix2 900 + bpow radix2 900) with (2 * bpow radix2 900) by ring. change 2 with (bpow radix2 1) at 1. rewrite <- bpow_plus. apply bpow_le. lia. }
  destruct (mul_rep _ _ _ _ Ri Rh) as (e1 & t1 & E1 & T1' & M1); [rewrite HP; lra|].
  destruct (mul_rep _ _ _ _ R0 Rh) as (e2 & t2 & E2 & T2' & M2); [rewrite Rmult_0_l, Rabs_R0; apply bpow_ge_0|].
  rewrite Rmult_0_l, Rmult_0_l, Rplus_0_l in M2.
  set (P := INR i * h) in *.
  assert (PP : 0 <= Rabs P <= bpow radix2 900) by (split; [apply Rabs_pos|rewrite HP; lra]).
  assert (Q1 : Rabs (P * e1) <= Rabs P * uround) by (rewrite Rabs_mult; apply Rmult_le_compat_l; lra).
  assert (Q2 : Rabs P * uround <= Rabs P / 8) by (apply Rmult_le_compat_l; [lra|unfold uround; lra]).
  assert (Q0 : Rabs (P * (1 + e1) + t1 + t2 - P) <= Rabs P * uround + 2 * tiny).
  { replace (P * (1 + e1) + t1 + t2 - P) with (P * e1 + (t1 + t2)) by ring. eapply Rle_trans; [apply Rabs_triang|].
    pose proof (Rabs_triang t1 t2). lra. }
  assert (Qs : Rabs (P * (1 + e1) + t1 + t2) <= Rabs P + Rabs P * uround + 2 * tiny).
  { replace (P * (1 + e1) + t1 + t2) with (P + (P * (1 + e1) + t1 + t2 - P)) by ring. eapply Rle_trans; [apply Rabs_triang|]. lra. }
  assert (U2 : uround * (1 / 1000000) <= 1) by (unfold uround; lra).
  destruct (add_rep _ _ _ _ M1 M2) as (e3 & E3 & M3); [eapply Rle_trans; [exact Qs|]; pose proof (bpow_ge_0 radix2 900)|].
  { assert (Rabs P / 8 <= bpow radix2 900 / 8) by lra. replace (bpow radix2 1000) with (bpow radix2 100 * bpow radix2 900) by (rewrite <- bpow_plus; reflexivity).
    assert (4 * bpow radix2 900 <= bpow radix2 100 * bpow radix2 900) by (apply Rmult_le_compat_r; [apply bpow_ge_0|]; change 4 with (bpow radix2 2); apply bpow_le; lia).
    assert (1 <= bpow radix2 900) by (change 1 with (bpow radix2 0); apply bpow_le; lia). lra. }
  exists ((P * (1 + e1) + t1 + t2) * (1 + e3)). split; [exact M3|]. fold P.
  assert (Q3 : Rabs ((P * (1 + e1) + t1 + t2) * e3) <= (2 * Rabs P + 2 * tiny) * uround).
  { rewrite Rabs_mult. apply Rmult_le_compat; [apply Rabs_pos|apply Rabs_pos| |exact E3]. lra. }
  replace ((P * (1 + e1) + t1 + t2) * (1 + e3) - P) with ((P * (1 + e1) + t1 + t2 - P) + (P * (1 + e1) + t1 + t2) * e3) by ring.
  eapply Rle_trans; [apply Rabs_triang|]. 
  assert (Q4 : tiny * uround <= tiny) by (rewrite <- (Rmult_1_r tiny) at 2; apply Rmult_le_compat_l; [lra|unfold uround; lra]).
  assert (Q5 : uround * (1 / 1000000) <= uround * Rabs h) by (apply Rmult_le_compat_l; [unfold uround; lra|lra]).
  replace (Rabs h / 2 ^ 50) with (8 * (uround * Rabs h)) by (unfold uround; cbn; field).
  assert (Q6 : Rabs P * uround = INR i * (uround * Rabs h)) by (rewrite HP; ring).
  assert (Q7 : 0 <= INR i * (uround * Rabs h)) by (apply Rmult_le_pos; [lra|apply Rmult_le_pos; [unfold uround; lra|lra]]).
  replace ((2 * Rabs P + 2 * tiny) * uround) with (2 * (Rabs P * uround) + 2 * (tiny * uround)) in Q3 by ring.
  lra.
Qed.

(** Numbers of one sign more than 1e-6 apart are shown differently. *)
Lemma shown_apart format x y r q : six_decimals format -> represents x r -> represents y q -> 1/1000000 < Rabs (Rabs r - Rabs q) -> format x <> format y.
Proof.
  intros Hf Rx Ry H E. rewrite (Hf _ _ Rx), (Hf _ _ Ry) in E. apply fixed6_inj in E. change (IZR (10 ^ 6)) with 1000000 in E.
  pose proof (Rabs_pos r) as Px. pose proof (Rabs_pos q) as Py.
  apply Z2Nat.inj in E; [|apply rhe_nonneg; lra|apply rhe_nonneg; lra].
  destruct (rhe_bounds (Rabs r * 1000000)) as [A1 A2]. destruct (rhe_bounds (Rabs q * 1000000)) as [B1 B2].
  rewrite E in A1, A2. revert H. unfold Rabs at 1. destruct (Rcase_abs (Rabs r - Rabs q)); lra.
Qed.

Lemma starts_apart format h x y i j : six_decimals format -> 1001 / 1000000000 <= Rabs h -> (Z.of_nat i <= 2 ^ 36)%Z -> (Z.of_nat j <= 2 ^ 36)%Z ->
  about h i x -> about h j y -> (i < j)%nat -> format x <> format y.
Proof.
  intros Hf Hh Hi Hj (r & Rx & Hr) (q & Ry & Hq) Hij. apply (shown_apart format x y r q Hf Rx Ry).
  pose proof (Rabs_pos h) as Ph.
  assert (Bi : forall k, (Z.of_nat k <= 2 ^ 36)%Z -> 0 <= INR k <= 68719476736).
  { intros k Hk. split; [apply pos_INR|]. rewrite INR_IZR_INZ. change 68719476736 with (IZR (2 ^ 36)). apply IZR_le. exact Hk. }
  pose proof (Bi i Hi) as Bi1. pose proof (Bi j Hj) as Bj1. clear Bi.
  assert (D : INR i + 1 <= INR j) by (rewrite <- S_INR; apply le_INR; lia).
  assert (Ei : Rabs (INR i * h) = INR i * Rabs h) by (rewrite Rabs_mult, (Rabs_pos_eq (INR i)) by lra; reflexivity).
  assert (Ej : Rabs (INR j * h) = INR j * Rabs h) by (rewrite Rabs_mult, (Rabs_pos_eq (INR j)) by lra; reflexivity).
  assert (S : forall k z, 0 <= INR k <= 68719476736 -> Rabs (z - INR k * h) <= (INR k + 1) * (Rabs h / 2 ^ 50) -> Rabs (INR k * h) = INR k * Rabs h ->
     INR k * Rabs h - Rabs h / 10000 <= Rabs z <= INR k * Rabs h + Rabs h / 10000).
  { intros k z Hk Hz E. pose proof (Rabs_triang_inv z (INR k * h)). pose proof (Rabs_triang_inv (INR k * h) z). rewrite (Rabs_minus_sym (INR k * h) z) in H0. rewrite E in *.
    assert ((INR k + 1) * (Rabs h / 2 ^ 50) <= Rabs h / 10000).
    { replace (Rabs h / 2 ^ 50) with (Rabs h * / 2 ^ 50) by reflexivity. replace (/ 2 ^ 50) with (/ 1125899906842624) by (cbn; f_equal; ring).
      apply Rle_trans with (68719476737 * (Rabs h * / 1125899906842624)); [apply Rmult_le_compat_r; lra|lra]. }
    lra. }
  destruct (S i r Bi1 Hr Ei) as [S1 S2]. destruct (S j q Bj1 Hq Ej) as [S3 S4]. assert ((INR i + 1) * Rabs h <= INR j * Rabs h) by (apply Rmult_le_compat_r; lra).
  rewrite Rabs_minus_sym. apply Rlt_le_trans with (Rabs q - Rabs r); [lra|apply Rle_abs].
Qed.

(** ** The tasks in binary64 *)
Section Steady.
  Variable lnF : PrimFloat.float -> PrimFloat.float.
  Variable scp : scipy PrimFloat.float.
  Variable format : PrimFloat.float -> string.
  Variables imems mems : nat -> nat -> memory (T := PrimFloat.float).
  Variable eigvals : m33 PrimFloat.float -> res (PrimFloat.float * PrimFloat.float * PrimFloat.float).
  Notation O := (Fops lnF).
  Variable fn : PrimFloat.float -> mat PrimFloat.float -> res (mat PrimFloat.float).
  Variable g : list PrimFloat.float -> list PrimFloat.float.
  Hypothesis Hfn : steady_fn fn g.
  Hypothesis Hln : accurate_log lnF.

  Definition keeps_fn (v : list PrimFloat.float -> list PrimFloat.float) (s : istate scp) : Prop := fst s = IAnalytical (Analytical fn (o_zero O)) /\ v = g.
  Lemma keeps_samples im : samples_field (i_interpolate O scp im) keeps_fn.
  Proof.
    intros v [i c] q (E & ->). cbn in E. subst i. unfold i_interpolate. cbn [fst snd interpolate velocity_fn a_time]. rewrite Hfn.
    eexists. split; [reflexivity|]. split; reflexivity.
  Qed.
  Lemma keeps_presents hF ts : presents_fields keeps_fn (analytical_batch format hF ts) (fun _ => g).
  Proof. intros j w s Hj [E _]. exists s. split; [reflexivity|]. split; [exact E|reflexivity]. Qed.

  Lemma start_world m p w : analytical_start O scp fn p (method_name m) (WState (T := PrimFloat.float) None no_files) = Ok w ->
    w = World (fresh m) (IAnalytical (Analytical fn (o_zero O)) : interp scp, 0%nat) p [] (WState (T := PrimFloat.float) None no_files) 0.
  Proof. unfold analytical_start. cbn. rewrite run_integrator. cbn. intro H. injection H as <-. reflexivity. Qed.

  Lemma task2 write m n h hF v gs Gs phi E w i ts p id queue : resolves2 m n h g v gs Gs phi E -> represents hF h ->
    mk_particles O (layout2 gs) = Ok p -> analytical_start O scp fn p (method_name m) (WState (T := PrimFloat.float) None no_files) = Ok w ->
    length ts = n -> src_id (analytical_batch (S := istate scp) format hF ts) = Ok id ->
    exists f, ftle_field2 E (phi i) n h Gs f /\
      snd (analytical_worker O scp (imems i) eigvals (mems i) write (analytical_batch format hF ts) queue false w) = Ok (Some f).
  Proof.
    intros (B & B0 & M & delta & L & K & J & V & Ht & HL & Hev & Hsp & Hd & HG & HS & HW & HK & HJ & HV & EE & HE & Hphi) Rh Hp Hw Hts Hid.
    destruct (Hphi i) as [Hfl Hres]. apply start_world in Hw. subst w.
    destruct (run_flow_F2 lnF (i_interpolate O scp (imems i)) eigvals (mems i) write keeps_fn (keeps_samples (imems i)) m B B0 M delta L n h hF
      (fun _ => g) (fun _ => v) (INR i * h) Hln Ht Rh HL (fun k _ => conj Hev Hsp) (fun _ => Hd) gs Gs HG HS HW (phi i) K J V E HK HJ HV EE HE Hfl Hres
      (Solver (analytical_batch format hF ts) queue false) (World (fresh m) (IAnalytical (Analytical fn (o_zero O)) : interp scp, 0%nat) p [] (WState (T := PrimFloat.float) None no_files) 0) g id)
      as (xs & Hx & HF); try assumption; try reflexivity.
    - apply keeps_presents.
    - split; reflexivity.
    - cbn. symmetry. exact Hp.
    - exists (map XVal xs). split; [|exact Hx]. exists xs. split; [reflexivity|exact HF].
  Qed.
  Lemma task3 write m n h hF v gs Gs phi E w i ts p id queue : accurate_eigvals eigvals -> resolves3 m n h g v gs Gs phi E -> represents hF h ->
    mk_particles O (layout3 gs) = Ok p -> analytical_start O scp fn p (method_name m) (WState (T := PrimFloat.float) None no_files) = Ok w ->
    length ts = n -> src_id (analytical_batch (S := istate scp) format hF ts) = Ok id ->
    exists f, ftle_field3 E (phi i) n h Gs f /\
      snd (analytical_worker O scp (imems i) eigvals (mems i) write (analytical_batch format hF ts) queue false w) = Ok (Some f).
  Proof.
    intros He (B & B0 & M & delta & L & K & J & V & Ht & HL & Hev & Hsp & Hd & HG & HS & HW & HK & HJ & HV & EE & HE & Hphi) Rh Hp Hw Hts Hid.
    destruct (Hphi i) as [Hfl Hres]. apply start_world in Hw. subst w.
    destruct (run_flow_F3 lnF (i_interpolate O scp (imems i)) eigvals (mems i) write keeps_fn (keeps_samples (imems i)) m B B0 M delta L n h hF
      (fun _ => g) (fun _ => v) (INR i * h) Hln He Ht Rh HL (fun k _ => conj Hev Hsp) (fun _ => Hd) gs Gs HG HS HW (phi i) K J V E HK HJ HV EE HE Hfl Hres
      (Solver (analytical_batch format hF ts) queue false) (World (fresh m) (IAnalytical (Analytical fn (o_zero O)) : interp scp, 0%nat) p [] (WState (T := PrimFloat.float) None no_files) 0) g id)
      as (xs & Hx & HF); try assumption; try reflexivity.
    - apply keeps_presents.
    - split; reflexivity.
    - cbn. symmetry. exact Hp.
    - exists (map XVal xs). split; [|exact Hx]. exists xs. split; [reflexivity|exact HF].
  Qed.

  (** The points files. *)
  Lemma write_points fmt dir wr N d name f (c : mat PrimFloat.float) : create_writer fmt dir None = Ok wr -> (d = 2%nat \/ d = 3%nat) -> seeds N d f c ->
    exists st x, write O wr (WState (T := PrimFloat.float) None no_files) name f c = (st, Ok tt) /\ w_files st (output_path wr name) = Some x /\ point_file O fmt N d f c x.
  Proof.
    intros Hwr Hd Hs. unfold create_writer in Hwr. destruct (String.eqb_spec fmt "mat") as [-> |H1].
    - injection Hwr as <-. destruct (mat_points O dir None N d (WState (T := PrimFloat.float) None no_files) name f c) as (st & F & X & Y & Z & E1 & [E2 _] & E3); auto; [lia|left; reflexivity|].
      exists st, (MatFile F X Y Z). split; [exact E1|]. split; [exact E2|]. left. split; [reflexivity|]. exists F, X, Y, Z. auto.
    - destruct (String.eqb_spec fmt "vtk") as [-> |H2]; [|discriminate].
      injection Hwr as <-. destruct (vtk_points O dir d (WState (T := PrimFloat.float) None no_files) name f c N) as (st & points & E1 & [E2 _] & E3 & E4); auto; [left; reflexivity|].
      exists st, (VtpFile points f). split; [exact E1|]. split; [exact E2|]. right. split; [reflexivity|]. exists points. destruct Hs as (_ & _ & Hf & _). auto.
  Qed.

  (** Any run, for a predicate [good] of the fields. *)
  Section Any.
    Variables (count : Z) (n : nat) (hF : PrimFloat.float) (h : R) (processes : Z) (N d : nat).
    Variable wr : writer.
    Variable w : world PrimFloat.float (istate scp) (particles PrimFloat.float) (@wstate PrimFloat.float).
    Variable good : nat -> list (xval PrimFloat.float) -> Prop.
    Hypothesis Hcount : (1 <= count)%Z.
    Hypothesis Hproc : (0 < processes)%Z.
    Hypothesis Hn : (0 < n)%nat.
    Hypothesis Hw : with_files w no_files = w.
    Hypothesis Hlen : forall i f, good i f -> length f = N.
    Hypothesis Hgood : forall i ts id, length ts = n -> src_id (analytical_batch (S := istate scp) format hF ts) = Ok id ->
      exists f, good i f /\ snd (analytical_worker O scp (imems i) eigvals (mems i) (write O wr) (analytical_batch format hF ts) true false w) = Ok (Some f).
    Notation sources := (analytical_tasks O scp format count (Z.of_nat n) hF).
    Notation tasks saving := (map (fun t => job (fst t) (analytical_worker O scp (imems (fst t)) eigvals (mems (fst t)) (write O wr) (snd t) true saving) w) (indexed sources)).

    Lemma good_task i t : nth_error sources i = Some t -> exists f, good i f /\
      snd (analytical_worker O scp (imems i) eigvals (mems i) (write O wr) t true false w) = Ok (Some f).
    Proof. intro Hi. destruct (sources_nth _ _ _ _ _ _ _ _ Hn Hi) as (_ & ts & -> & Hl & Hid). exact (Hgood i ts _ Hl Hid). Qed.

    Lemma any_returns q stop (fs : files PrimFloat.float) :
      (exists s rs, Executor.steps (tasks false) processes (start q stop fs) s /\ st_main s = Exited (Ok rs)) /\
      forall s r, Executor.steps (tasks false) processes (start q stop fs) s -> st_main s = Exited r ->
        (r = Err BrokenProcessPool /\ killed s) \/
        exists rows, length rows = Z.to_nat count /\ (forall i f, nth_error rows i = Some f -> good i f) /\
          ((count = 1)%Z -> exists f, rows = [f] /\ api_run false r = Ok (ReturnsField f)) /\
          ((2 <= count)%Z -> api_run false r = Ok (ReturnsStack rows)).
    Proof.
      set (row := fun i => match nth_error sources i with
        | Some t => match snd (analytical_worker O scp (imems i) eigvals (mems i) (write O wr) t true false w) with Ok (Some f) => f | _ => [] end
        | None => [] end).
      assert (Hrow : forall i t, nth_error sources i = Some t -> good i (row i) /\
        snd (analytical_worker O scp (imems i) eigvals (mems i) (write O wr) t true false w) = Ok (Some (row i))).
      { intros i t Hi. destruct (good_task i t Hi) as (f & Hf & E). assert (Er : row i = f) by (unfold row; rewrite Hi, E; reflexivity). rewrite Er. auto. }
      assert (Hget : forall i, (i < Z.to_nat count)%nat -> good i (row i)).
      { intros i Hi. destruct (sources_get lnF scp format count (Z.of_nat n) hF i Hi) as (t & Ht). apply (Hrow i t Ht). }
      destruct (returns_total O scp format imems mems eigvals wr w count (Z.of_nat n) hF processes Hcount Hproc row N q stop fs) as [R1 R2].
      - intros i Hi. exact (Hlen i _ (Hget i Hi)).
      - intros i t Hi. rewrite Hw. cbn [fst snd]. apply Hrow. exact Hi.
      - split; [exact R1|]. intros s r Hs Hm. destruct (R2 s r Hs Hm) as [H|H]; [left; exact H|right].
        exists (map row (seq 0 (Z.to_nat count))). split; [rewrite map_length, seq_length; reflexivity|]. split; [|split].
        + intros i f Hi. assert (Hlt : (i < Z.to_nat count)%nat).
          { rewrite <- (seq_length (Z.to_nat count) 0), <- (map_length row). apply nth_error_Some. congruence. }
          rewrite nth_error_map, (nth_error_nth' _ 0%nat) in Hi by (rewrite seq_length; exact Hlt). rewrite seq_nth in Hi by exact Hlt.
          injection Hi as <-. apply Hget. exact Hlt.
        + intros ->. exists (row 0%nat). split; [reflexivity|exact H].
        + intro H2. replace (count =? 1)%Z with false in H by (symmetry; apply Z.eqb_neq; lia). exact H.
    Qed.

    Variables (fmt dir : string) (centroids : mat PrimFloat.float).
    Hypothesis Hfmt : create_writer fmt dir None = Ok wr.
    Hypothesis Hd : d = 2%nat \/ d = 3%nat.
    Hypothesis Hcen : forall f, length f = N -> seeds N d f centroids.
    Hypothesis Hcw : initial_centroid (w_source w) = centroids.
    Hypothesis Hnew : w_writer w = WState None no_files.
    Hypothesis Hsix : six_decimals format.
    Hypothesis Rh : represents hF h.
    Hypothesis Hh : 1001 / 1000000000 <= Rabs h <= 2 ^ 800.
    Hypothesis Hmany : (count <= 2 ^ 36)%Z.

    Lemma any_saves q stop (fs : files PrimFloat.float) : settled_files fs ->
      (exists s rs, Executor.steps (tasks true) processes (start q stop fs) s /\ st_main s = Exited (Ok rs)) /\
      exists time, (forall i, (i < Z.to_nat count)%nat -> about h i (time i)) /\
      forall s r, Executor.steps (tasks true) processes (start q stop fs) s -> st_main s = Exited r ->
        (r = Err BrokenProcessPool /\ killed s) \/
        (api_run true r = Ok ReturnsNone /\
         (forall i, (i < Z.to_nat count)%nat -> exists f x, good i f /\ point_file O fmt N d f centroids x /\
            st_world s (output_path wr (append "ftle_" (format (time i)))) = Some (Whole x)) /\
         (forall p, (forall i, (i < Z.to_nat count)%nat -> p <> output_path wr (append "ftle_" (format (time i)))) -> st_world s p = fs p)).
    Proof.
      intro Hset.
      assert (Hab : forall i, (i < Z.to_nat count)%nat -> about h i (start_F lnF hF i)).
      { intros i Hi. apply start_about; [exact Rh|lra|]. lia. }
      assert (Hids : have_ids scp sources).
      { intros t Ht. destruct (In_nth_error _ _ Ht) as (i & Hi). destruct (sources_nth _ _ _ _ _ _ _ _ Hn Hi) as (_ & ts & _ & _ & Hid). eauto. }
      assert (Hdiff : ids_differ scp sources).
      { intros i j a b Ha Hb Hij. destruct (sources_nth _ _ _ _ _ _ _ _ Hn Ha) as (La & _ & _ & _ & Ia). destruct (sources_nth _ _ _ _ _ _ _ _ Hn Hb) as (Lb & _ & _ & _ & Ib).
        rewrite Ia, Ib. intro E. injection E as E. assert (Hor : (i < j \/ j < i)%nat) by lia. destruct Hor as [H|H].
        - refine (starts_apart format h _ _ i j Hsix _ _ _ (Hab i La) (Hab j Lb) H E); [lra|lia|lia].
        - refine (starts_apart format h _ _ j i Hsix _ _ _ (Hab j Lb) (Hab i La) H (eq_sym E)); [lra|lia|lia]. }
      destruct (saves_total O scp format imems mems eigvals wr w count (Z.of_nat n) hF processes Hcount Hproc
        (fun i x => exists f, good i f /\ point_file O fmt N d f centroids x) q stop fs Hids Hdiff Hset) as [S1 S2].
      - intros i t id Hi Hid. rewrite Hw. cbn [fst snd]. destruct (good_task i t Hi) as (f & Hf & E).
        destruct (run_writes_field O (i_interpolate O scp (imems i)) eigvals (mems i) wr t true w f E) as (id' & p & Hid' & Hp & Hwr & Hr).
        rewrite Hid in Hid'. injection Hid' as <-. destruct (sources_nth _ _ _ _ _ _ _ _ Hn Hi) as (_ & ts & -> & _). cbn in Hp. injection Hp as <-.
        rewrite Hcw, Hnew in Hwr, Hr.
        destruct (write_points fmt dir wr N d (append "ftle_" id) f centroids Hfmt Hd (Hcen f (Hlen i f Hf))) as (st & x & E1 & E2 & E3).
        rewrite E1 in Hwr, Hr. cbn [fst snd bind] in Hwr, Hr. exists x. split; [exact Hr|]. split; [|eauto].
        unfold analytical_worker. rewrite Hwr. exact E2.
      - split; [exact S1|]. exists (start_F lnF hF). split; [exact Hab|]. intros s r Hs Hm. destruct (S2 s r Hs Hm) as [H|(H1 & H2 & H3)]; [left; exact H|right].
        split; [exact H1|]. split.
        + intros i Hi. destruct (sources_get lnF scp format count (Z.of_nat n) hF i Hi) as (t & Ht). destruct (sources_nth _ _ _ _ _ _ _ _ Hn Ht) as (_ & ts & _ & _ & Hid).
          destruct (H2 i t _ Ht Hid) as (x & Hx & f & Hf & Hpf). exists f, x. auto.
        + intros p Hp. apply H3. intros t id Ht Hid. destruct (In_nth_error _ _ Ht) as (i & Hi).
          destruct (sources_nth _ _ _ _ _ _ _ _ Hn Hi) as (Hlt & ts & _ & _ & Hid'). rewrite Hid in Hid'. injection Hid' as ->. exact (Hp i Hlt).
    Qed.
  End Any.
End Steady.

Lemma seeds_arr3 {T} (O : ops T) N (xs : list (xval T)) (ps : list (T * T * T)) : length xs = N -> length ps = N -> seeds N 3 xs (arr3 ps).
Proof.
  intros H1 H2. split; [|split; [reflexivity|split; [exact H1|]]].
  - unfold arr3, wf_mat. cbn. apply Forall_map. apply Forall_forall. intros p _. destruct p as [[? ?] ?]; reflexivity.
  - unfold arr3, nrows. cbn. rewrite map_length. exact H2.
Qed.

Lemma tame_window lnF m B B0 M delta L n h hF period k : tame m B B0 M delta L n h -> represents hF h -> represents period ((INR n - 1) * Rabs h) ->
  window_length (Fops lnF) period hF = Ok k -> k = Z.of_nat n /\ (0 < n)%nat /\ Rabs h <= 2 ^ 800.
Proof.
  intros (_ & _ & _ & _ & _ & Hh & Hn2 & Hn47 & Hnh & _) Rh Rp Hk.
  assert (Hh0 : h <> 0).
  { intros ->. rewrite Rabs_R0, Rmult_0_r in Hnh. pose proof (pow_lt 2 199 ltac:(lra)). pose proof (Rinv_0_lt_compat _ H). lra. }
  assert (Hwin : window_length (Fops lnF) period hF = Ok (Z.of_nat n)).
  { replace (Z.of_nat n) with (Z.of_nat n - 1 + 1)%Z by lia. apply (window_exact lnF _ _ h); auto.
    - rewrite Z.abs_eq by lia. apply le_IZR. rewrite minus_IZR, <- INR_IZR_INZ.
      change (2 ^ 53)%Z with (2 ^ 47 * 64)%Z. rewrite mult_IZR. replace (IZR (2 ^ 47)) with (2 ^ 47) by (cbn; lra). pose proof (pow_lt 2 47 ltac:(lra)). lra.
    - rewrite minus_IZR, <- INR_IZR_INZ. exact Rp. }
  split; [congruence|]. split; [lia|exact Hh].
Qed.

Lemma field2_length E phi n h Gs f : ftle_field2 E phi n h Gs f -> length f = length Gs.
Proof. intros (xs & -> & HF). rewrite map_length. symmetry. exact (Forall2_len _ _ _ HF). Qed.
Lemma field3_length E phi n h Gs f : ftle_field3 E phi n h Gs f -> length f = length Gs.
Proof. intros (xs & -> & HF). rewrite map_length. symmetry. exact (Forall2_len _ _ _ HF). Qed.

Lemma steady_returns2 lnF (scp : scipy PrimFloat.float) format imems mems eigvals wr fn g : accurate_log lnF -> steady_fn fn g ->
  forall m n h hF period v gs Gs phi E, resolves2 m n h g v gs Gs phi E -> represents hF h -> represents period ((INR n - 1) * Rabs h) ->
  forall count processes p w k, (1 <= count)%Z -> (0 < processes)%Z -> mk_particles (Fops lnF) (layout2 gs) = Ok p ->
  analytical_start (Fops lnF) scp fn p (method_name m) (WState None no_files) = Ok w -> window_length (Fops lnF) period hF = Ok k ->
  let tasks := map (fun t => job (fst t) (analytical_worker (Fops lnF) scp (imems (fst t)) eigvals (mems (fst t)) (write (Fops lnF) wr) (snd t) true false) w)
                 (indexed (analytical_tasks (Fops lnF) scp format count k hF)) in
  forall q stop (fs : files PrimFloat.float),
  (exists s rs, Executor.steps tasks processes (start q stop fs) s /\ st_main s = Exited (Ok rs)) /\
  forall s r, Executor.steps tasks processes (start q stop fs) s -> st_main s = Exited r ->
    (r = Err BrokenProcessPool /\ killed s) \/
    exists rows, length rows = Z.to_nat count /\ (forall i f, nth_error rows i = Some f -> ftle_field2 E (phi i) n h Gs f) /\
      ((count = 1)%Z -> exists f, rows = [f] /\ api_run false r = Ok (ReturnsField f)) /\
      ((2 <= count)%Z -> api_run false r = Ok (ReturnsStack rows)).
Proof.
  intros Hln Hfn m n h hF period v gs Gs phi E Hres Rh Rp count processes p w k Hc Hp Hpart Hw Hk.
  pose proof Hres as (B & B0 & M & delta & L & K & J & V & Ht & _).
  destruct (tame_window lnF m B B0 M delta L n h hF period k Ht Rh Rp Hk) as (-> & Hn & Hh). cbn zeta.
  apply (any_returns lnF scp format imems mems eigvals count n hF processes (length Gs) wr w (fun i => ftle_field2 E (phi i) n h Gs)); auto.
  - apply start_world in Hw. subst w. reflexivity.
  - intros i f. apply field2_length.
  - intros i ts id Hl Hid. exact (task2 lnF scp format imems mems eigvals fn g Hfn Hln (write (Fops lnF) wr) m n h hF v gs Gs phi E w i ts p id true Hres Rh Hpart Hw Hl Hid).
Qed.

Lemma steady_returns3 lnF (scp : scipy PrimFloat.float) format imems mems eigvals wr fn g : accurate_log lnF -> accurate_eigvals eigvals -> steady_fn fn g ->
  forall m n h hF period v gs Gs phi E, resolves3 m n h g v gs Gs phi E -> represents hF h -> represents period ((INR n - 1) * Rabs h) ->
  forall count processes p w k, (1 <= count)%Z -> (0 < processes)%Z -> mk_particles (Fops lnF) (layout3 gs) = Ok p ->
  analytical_start (Fops lnF) scp fn p (method_name m) (WState None no_files) = Ok w -> window_length (Fops lnF) period hF = Ok k ->
  let tasks := map (fun t => job (fst t) (analytical_worker (Fops lnF) scp (imems (fst t)) eigvals (mems (fst t)) (write (Fops lnF) wr) (snd t) true false) w)
                 (indexed (analytical_tasks (Fops lnF) scp format count k hF)) in
  forall q stop (fs : files PrimFloat.float),
  (exists s rs, Executor.steps tasks processes (start q stop fs) s /\ st_main s = Exited (Ok rs)) /\
  forall s r, Executor.steps tasks processes (start q stop fs) s -> st_main s = Exited r ->
    (r = Err BrokenProcessPool /\ killed s) \/
    exists rows, length rows = Z.to_nat count /\ (forall i f, nth_error rows i = Some f -> ftle_field3 E (phi i) n h Gs f) /\
      ((count = 1)%Z -> exists f, rows = [f] /\ api_run false r = Ok (ReturnsField f)) /\
      ((2 <= count)%Z -> api_run false r = Ok (ReturnsStack rows)).
Proof.
  intros Hln He Hfn m n h hF period v gs Gs phi E Hres Rh Rp count processes p w k Hc Hp Hpart Hw Hk.
  pose proof Hres as (B & B0 & M & delta & L & K & J & V & Ht & _).
  destruct (tame_window lnF m B B0 M delta L n h hF period k Ht Rh Rp Hk) as (-> & Hn & Hh). cbn zeta.
  apply (any_returns lnF scp format imems mems eigvals count n hF processes (length Gs) wr w (fun i => ftle_field3 E (phi i) n h Gs)); auto.
  - apply start_world in Hw. subst w. reflexivity.
  - intros i f. apply field3_length.
  - intros i ts id Hl Hid. exact (task3 lnF scp format imems mems eigvals fn g Hfn Hln (write (Fops lnF) wr) m n h hF v gs Gs phi E w i ts p id true He Hres Rh Hpart Hw Hl Hid).
Qed.

Lemma steady_saves2 lnF (scp : scipy PrimFloat.float) format imems mems eigvals fn g : accurate_log lnF -> steady_fn fn g -> six_decimals format ->
  forall m n h hF period v gs Gs phi E, resolves2 m n h g v gs Gs phi E -> represents hF h -> represents period ((INR n - 1) * Rabs h) ->
  1001 / 1000000000 <= Rabs h ->
  forall count processes p w k fmt dir wr, (1 <= count <= 2 ^ 36)%Z -> (0 < processes)%Z -> mk_particles (Fops lnF) (layout2 gs) = Ok p ->
  create_writer fmt dir None = Ok wr ->
  analytical_start (Fops lnF) scp fn p (method_name m) (WState None no_files) = Ok w -> window_length (Fops lnF) period hF = Ok k ->
  let tasks := map (fun t => job (fst t) (analytical_worker (Fops lnF) scp (imems (fst t)) eigvals (mems (fst t)) (write (Fops lnF) wr) (snd t) true true) w)
                 (indexed (analytical_tasks (Fops lnF) scp format count k hF)) in
  forall q stop (fs : files PrimFloat.float), settled_files fs ->
  (exists s rs, Executor.steps tasks processes (start q stop fs) s /\ st_main s = Exited (Ok rs)) /\
  exists time, (forall i, (i < Z.to_nat count)%nat -> about h i (time i)) /\
  forall s r, Executor.steps tasks processes (start q stop fs) s -> st_main s = Exited r ->
    (r = Err BrokenProcessPool /\ killed s) \/
    (api_run true r = Ok ReturnsNone /\
     (forall i, (i < Z.to_nat count)%nat -> exists f x, ftle_field2 E (phi i) n h Gs f /\
        point_file (Fops lnF) fmt (length Gs) 2 f (arr2 (map (mean2 (Fops lnF)) gs)) x /\
        st_world s (output_path wr (append "ftle_" (format (time i)))) = Some (Whole x)) /\
     (forall p, (forall i, (i < Z.to_nat count)%nat -> p <> output_path wr (append "ftle_" (format (time i)))) -> st_world s p = fs p)).
Proof.
  intros Hln Hfn Hsix m n h hF period v gs Gs phi E Hres Rh Rp Hh1 count processes p w k fmt dir wr [Hc1 Hc2] Hp Hpart Hfmt Hw Hk.
  pose proof Hres as (B & B0 & M & delta & L & K & J & V & Ht & _ & _ & _ & _ & HG & _).
  destruct (tame_window lnF m B B0 M delta L n h hF period k Ht Rh Rp Hk) as (-> & Hn & Hh). cbn zeta. intros q stop fs.
  pose proof Hw as Hw'. apply start_world in Hw'. pose proof Hpart as Hpart'. rewrite mk_particles_2 in Hpart'. injection Hpart' as Ep.
  apply (any_saves lnF scp format imems mems eigvals count n hF h processes (length Gs) 2 wr w (fun i => ftle_field2 E (phi i) n h Gs)) with (dir := dir); auto.
  - subst w. reflexivity.
  - intros i f. apply field2_length.
  - intros i ts id Hl Hid. exact (task2 lnF scp format imems mems eigvals fn g Hfn Hln (write (Fops lnF) wr) m n h hF v gs Gs phi E w i ts p id true Hres Rh Hpart Hw Hl Hid).
  - intros f Hf. apply (seeds_arr2 (Fops lnF)); [exact Hf|]. rewrite map_length. exact (Forall2_len _ _ _ HG).
  - subst w. cbn [w_source]. subst p. reflexivity.
  - subst w. reflexivity.
Qed.

Lemma steady_saves3 lnF (scp : scipy PrimFloat.float) format imems mems eigvals fn g : accurate_log lnF -> accurate_eigvals eigvals -> steady_fn fn g -> six_decimals format ->
  forall m n h hF period v gs Gs phi E, resolves3 m n h g v gs Gs phi E -> represents hF h -> represents period ((INR n - 1) * Rabs h) ->
  1001 / 1000000000 <= Rabs h ->
  forall count processes p w k fmt dir wr, (1 <= count <= 2 ^ 36)%Z -> (0 < processes)%Z -> mk_particles (Fops lnF) (layout3 gs) = Ok p ->
  create_writer fmt dir None = Ok wr ->
  analytical_start (Fops lnF) scp fn p (method_name m) (WState None no_files) = Ok w -> window_length (Fops lnF) period hF = Ok k ->
  let tasks := map (fun t => job (fst t) (analytical_worker (Fops lnF) scp (imems (fst t)) eigvals (mems (fst t)) (write (Fops lnF) wr) (snd t) true true) w)
                 (indexed (analytical_tasks (Fops lnF) scp format count k hF)) in
  forall q stop (fs : files PrimFloat.float), settled_files fs ->
  (exists s rs, Executor.steps tasks processes (start q stop fs) s /\ st_main s = Exited (Ok rs)) /\
  exists time, (forall i, (i < Z.to_nat count)%nat -> about h i (time i)) /\
  forall s r, Executor.steps tasks processes (start q stop fs) s -> st_main s = Exited r ->
    (r = Err BrokenProcessPool /\ killed s) \/
    (api_run true r = Ok ReturnsNone /\
     (forall i, (i < Z.to_nat count)%nat -> exists f x, ftle_field3 E (phi i) n h Gs f /\
        point_file (Fops lnF) fmt (length Gs) 3 f (arr3 (map (mean3 (Fops lnF)) gs)) x /\
        st_world s (output_path wr (append "ftle_" (format (time i)))) = Some (Whole x)) /\
     (forall p, (forall i, (i < Z.to_nat count)%nat -> p <> output_path wr (append "ftle_" (format (time i)))) -> st_world s p = fs p)).
Proof.
  intros Hln He Hfn Hsix m n h hF period v gs Gs phi E Hres Rh Rp Hh1 count processes p w k fmt dir wr [Hc1 Hc2] Hp Hpart Hfmt Hw Hk.
  pose proof Hres as (B & B0 & M & delta & L & K & J & V & Ht & _ & _ & _ & _ & HG & _).
  destruct (tame_window lnF m B B0 M delta L n h hF period k Ht Rh Rp Hk) as (-> & Hn & Hh). cbn zeta. intros q stop fs.
  pose proof Hw as Hw'. apply start_world in Hw'. pose proof Hpart as Hpart'. rewrite mk_particles_3 in Hpart'. injection Hpart' as Ep.
  apply (any_saves lnF scp format imems mems eigvals count n hF h processes (length Gs) 3 wr w (fun i => ftle_field3 E (phi i) n h Gs)) with (dir := dir); auto.
  - subst w. reflexivity.
  - intros i f. apply field3_length.
  - intros i ts id Hl Hid. exact (task3 lnF scp format imems mems eigvals fn g Hfn Hln (write (Fops lnF) wr) m n h hF v gs Gs phi E w i ts p id true He Hres Rh Hpart Hw Hl Hid).
  - intros f Hf. apply (seeds_arr3 (Fops lnF)); [exact Hf|]. rewrite map_length. exact (Forall2_len _ _ _ HG).
  - subst w. cbn [w_source]. subst p. reflexivity.
  - subst w. reflexivity.
Qed.

(** The names of all tasks differ. *)
Lemma names_apart lnF (scp : scipy PrimFloat.float) format count n hF h i j a b : six_decimals format -> (0 < n)%nat -> represents hF h ->
  1001 / 1000000000 <= Rabs h <= 2 ^ 800 -> (count <= 2 ^ 36)%Z ->
  nth_error (analytical_tasks (Fops lnF) scp format count (Z.of_nat n) hF) i = Some a ->
  nth_error (analytical_tasks (Fops lnF) scp format count (Z.of_nat n) hF) j = Some b -> i <> j ->
  exists s t, src_id a = Ok s /\ src_id b = Ok t /\ s <> t.
Proof.
  intros Hsix Hn Rh Hh Hmany Ha Hb Hij.
  assert (Hab : forall i, (i < Z.to_nat count)%nat -> about h i (start_F lnF hF i)).
  { intros k Hk. apply start_about; [exact Rh|lra|]. lia. }
  destruct (sources_nth _ _ _ _ _ _ _ _ Hn Ha) as (La & _ & _ & _ & Ia). destruct (sources_nth _ _ _ _ _ _ _ _ Hn Hb) as (Lb & _ & _ & _ & Ib).
  eexists _, _. split; [exact Ia|]. split; [exact Ib|]. intro E. assert (Hor : (i < j \/ j < i)%nat) by lia. destruct Hor as [H|H].
  - refine (starts_apart format h _ _ i j Hsix _ _ _ (Hab i La) (Hab j Lb) H E); [lra|lia|lia].
  - refine (starts_apart format h _ _ j i Hsix _ _ _ (Hab j Lb) (Hab i La) H (eq_sym E)); [lra|lia|lia].
Qed.
