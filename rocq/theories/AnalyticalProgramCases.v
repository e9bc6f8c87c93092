(** Runs of AnalyticalSolver that meet the hypotheses of C113. *)
From Coq Require Import String Reals Lia Lra Psatz Floats.
From Flocq Require Import Core BinarySingleNaN PrimFloat.
From Verif Require Import Base Num NdArray Text Particles Jacobian Ftle Integrate Interpolate DataSource Solver FileRun AnalyticalRun Writers Batches
  Monitor Executor Jobs SpecExecutor SpecWriters SpecProgram SpecSeeds SpecFtle SpecSolver SpecIntegrate SpecOrder SpecConverge SpecFloat64 SpecAccuracy SpecFloatGrid SpecFloatJac
  SpecEigen SpecRounding SpecFloatRun SpecFloatRun3 SpecGridProgram SpecAnalyticalProgram FtleFacts2 FtleFacts3 OrderFacts ParticleFacts BatchFloat FloatArith FtleAccuracyMain FloatRuns FloatJac FloatFtleCases
  FloatEigenCases GridProgramMain GridProgramCases AnalyticalFacts AnalyticalProgramMain.
Local Open Scope R_scope.

(** f"{x:06f}". *)
Definition format_six (x : PrimFloat.float) : string :=
  fixed6 (PrimFloat.get_sign x) (Z.to_nat (round_half_even (Rabs (SF2R radix2 (Prim2SF x)) * IZR (10 ^ 6)))).
Lemma format_six_ok : six_decimals format_six.
Proof. intros x r [_ E]. unfold format_six. rewrite E. reflexivity. Qed.

Definition on_each {T} (g : list T -> list T) (t : T) (q : mat T) : res (mat T) := Ok (Mat (mcols q) (map g (mrows q))).
Lemma on_each_steady {T} (g : list T -> list T) : steady_fn (on_each g) g.
Proof. intros t q. reflexivity. Qed.

Lemma flow_shift3 m v T K J V phi x c : flow_along3 (regular m (fun _ => v) 0 (0 + T) K J V) (fun _ => v) 0 (0 + T) phi x ->
  flow_along3 (regular m (fun _ => v) c (c + T) K J V) (fun _ => v) c (c + T) phi x.
Proof.
  rewrite Rplus_0_l. intros (y & Y0 & [Yl Yd] & Y1 & Yr & Ym). rewrite <- (Rplus_0_r c) at 1 3. exists (fun t => y (t - c)).
  split; [rewrite Rplus_0_r; replace (c - c) with 0 by ring; exact Y0|].
  split. { split; [intro t; apply Yl|]. exact (derivative_shift c 0 T y (fun t => v (y t)) Yd). }
  split; [replace (c + T - c) with T by ring; exact Y1|].
  split; [exact (rate_shift c 0 T K (fun t => v (y t)) Yr)|].
  destruct m; [exact I| |].
  - destruct Ym as (acc & A1 & A2). exists (fun t => acc (t - c)). split; [exact (derivative_shift c 0 T (fun t => v (y t)) acc A1)|exact (rate_shift c 0 T J acc A2)].
  - intros t i Ht. apply (Ym (t - c)). apply between_shift, Ht.
Qed.

Lemma I8 : INR 8 = 8.
Proof. cbn. lra. Qed.
Lemma A64 : Rabs (1 / 64) = 1 / 64.
Proof. apply Rabs_pos_eq. lra. Qed.

(** Eight AB2 steps of 1/64 in the saddle flow. *)
Lemma saddle_resolves : resolves2 MAB2 8 (1 / 64) (@saddle PrimFloat.float) (@saddle R) [seed_F] [seed_R] (fun _ => hyper (0 + INR 8 * (1 / 64))) hyper_error.
Proof.
  pose proof I8. pose proof hyper_error_small.
  exists 8, 1, 8, 0, 1, 2, 2, 2. split; [apply saddle_tame; rewrite ?I8; try lra; try lia; discriminate|].
  split; [exact saddle_lipschitz|]. split; [apply saddle_evaluates; lra|]. split; [apply saddle_speed|].
  split; [apply saddle_len|]. split; [exact seed_seated|]. split; [exact seed_spaced|]. split; [exact seed_within|].
  do 3 (split; [lra|]). split; [reflexivity|]. split; [apply below_199; lra|]. intros i t. split.
  - intros G x [<-|[]] Hx. apply flow_shift. apply hyper_flows; [rewrite I8; lra| |];
      (cbn in Hx; destruct Hx as [<-|[<-|[<-|[<-|[]]]]]; cbn [fst snd]; apply Rabs_le; lra).
  - constructor; [|constructor]. eexists. exact hyper_resolved.
Qed.
Lemma swirl_resolves : resolves3 MAB2 8 (1 / 64) (@swirl PrimFloat.float) (@swirl R) [seed3_F] [seed3_R] (fun _ => hyper3 (0 + INR 8 * (1 / 64))) hyper3_error.
Proof.
  pose proof I8. pose proof hyper3_error_small.
  exists 8, 1, 8, 0, 1, 4, 4, 4. split; [apply saddle_tame; rewrite ?I8; try lra; try lia; discriminate|].
  split; [exact swirl_lipschitz|]. split; [apply swirl_evaluates; lra|]. split; [apply swirl_speed|].
  split; [apply swirl_len|]. split; [exact seed3_seated|]. split; [exact seed3_spaced|]. split; [exact seed3_within|].
  do 3 (split; [lra|]). split; [reflexivity|]. split; [apply below_199; lra|]. intros i t. split.
  - intros G x [<-|[]] Hx. apply flow_shift3. apply hyper3_flows; [rewrite I8; lra| | |];
      (cbn in Hx; destruct Hx as [<-|[<-|[<-|[<-|[<-|[<-|[]]]]]]]; unfold v0, v1, v2; cbn [fst snd]; apply Rabs_le; lra).
  - constructor; [|constructor]. eexists. exact hyper3_resolved.
Qed.

(** What such a field holds. *)
Definition one_value (value err : R) (f : list (xval PrimFloat.float)) : Prop :=
  exists x r, f = [XVal x] /\ represents x r /\ Rabs (r - value) <= err.
Lemma field2_value f : ftle_field2 hyper_error (hyper (0 + INR 8 * (1 / 64))) 8 (1 / 64) [seed_R] f -> one_value ((1 / 8) / (7 / 64)) (/ 20) f.
Proof.
  intros (xs & -> & Hxs). pose proof hyper_error_small as HE.
  inversion Hxs as [|? x ? l (s & Rs & r & Rr & Hr) Hl]; subst. inversion Hl; subst. exists x, r.
  split; [reflexivity|]. split; [exact Rr|].
  rewrite (spectral_norm_2_unique _ _ _ Rs (proj1 hyper_resolved)), I8, A64, seed_side, ln_exp in Hr.
  replace ((8 - 1) * (1 / 64)) with (7 / 64) in Hr by lra. apply Rle_trans with (1 := Hr).
  destruct exp_eighth as [L U]. set (e := exp (1 / 8)) in *.
  assert (X : 12 * hyper_error / (e * 2) <= 6 * hyper_error * (8 / 9)).
  { replace (12 * hyper_error / (e * 2)) with (6 * hyper_error * / e) by (field; lra).
    apply Rmult_le_compat_l; [lra|]. replace (8 / 9) with (/ (9 / 8)) by lra. apply Rinv_le_contravar; lra. }
  replace (2 ^ 21) with 2097152 by (cbn [pow]; lra). lra.
Qed.
Lemma field3_value f : ftle_field3 hyper3_error (hyper3 (0 + INR 8 * (1 / 64))) 8 (1 / 64) [seed3_R] f -> one_value ((1 / 8) / (7 / 64)) (/ 10) f.
Proof.
  intros (xs & -> & Hxs). pose proof hyper3_error_small as HE.
  inversion Hxs as [|? x ? l (s & Rs & r & Rr & Hr) Hl]; subst. inversion Hl; subst. exists x, r.
  split; [reflexivity|]. split; [exact Rr|].
  rewrite (spectral_norm_3_unique _ _ _ Rs (proj1 hyper3_resolved)), I8, A64, seed3_side, ln_exp in Hr.
  replace ((8 - 1) * (1 / 64)) with (7 / 64) in Hr by lra. apply Rle_trans with (1 := Hr).
  destruct exp_eighth as [L U]. set (e := exp (1 / 8)) in *.
  assert (X : 12 * hyper3_error / (e * 2) <= 6 * hyper3_error).
  { replace (12 * hyper3_error / (e * 2)) with (6 * hyper3_error * / e) by (field; lra). rewrite <- (Rmult_1_r (6 * hyper3_error)) at 2.
    apply Rmult_le_compat_l; [lra|]. rewrite <- Rinv_1. apply Rinv_le_contravar; lra. }
  replace (2 ^ 34) with 17179869184 by (cbn [pow]; lra). lra.
Qed.

Lemma window_8 : window_length (Fops lnR_rounded) 0.109375%float 0.015625%float = Ok 8%Z.
Proof.
  apply (window_exact lnR_rounded _ _ (1 / 64) 7); [exact rep_64th|lra|lia|]. rewrite A64. replace (7 * (1 / 64)) with (7 / 64) by lra. exact rep_7_64.
Qed.

Lemma rep_period : represents 0.109375%float ((INR 8 - 1) * Rabs (1 / 64)).
Proof. rewrite I8, A64. replace ((8 - 1) * (1 / 64)) with (7 / 64) by lra. exact rep_7_64. Qed.

(** Three fields of the saddle flow, two processes, no writer. *)
Lemma returns_case : forall (scp : scipy PrimFloat.float) imems mems eigvals wr, exists w,
  analytical_start (Fops lnR_rounded) scp (on_each saddle) (mk2 (Fops lnR_rounded) [seed_F]) "ab2" (WState (T := PrimFloat.float) None no_files) = Ok w /\
  window_length (Fops lnR_rounded) 0.109375%float 0.015625%float = Ok 8%Z /\
  let tasks := map (fun t => job (fst t) (analytical_worker (Fops lnR_rounded) scp (imems (fst t)) eigvals (mems (fst t)) (write (Fops lnR_rounded) wr) (snd t) true false) w)
                 (indexed (analytical_tasks (Fops lnR_rounded) scp format_six 3 8 0.015625%float)) in
  (exists s rs, Executor.steps tasks 2 (start [] false no_files) s /\ st_main s = Exited (Ok rs)) /\
  forall s rs, Executor.steps tasks 2 (start [] false no_files) s -> st_main s = Exited (Ok rs) ->
    exists f0 f1 f2, api_run false (Ok rs) = Ok (ReturnsStack [f0; f1; f2]) /\ Forall (one_value ((1 / 8) / (7 / 64)) (/ 20)) [f0; f1; f2].
Proof.
  intros scp imems mems eigvals wr. eexists. split; [reflexivity|]. split; [exact window_8|].
  destruct (steady_returns2 lnR_rounded scp format_six imems mems eigvals wr (on_each saddle) saddle lnR_rounded_accurate (on_each_steady _) MAB2 8 (1 / 64) 0.015625%float 0.109375%float
    saddle [seed_F] [seed_R] (fun _ => hyper (0 + INR 8 * (1 / 64))) hyper_error saddle_resolves rep_64th rep_period
    3 2 (mk2 (Fops lnR_rounded) [seed_F]) _ 8 ltac:(lia) ltac:(lia) (mk_particles_2 _ _) eq_refl window_8 [] false no_files) as [R1 R2].
  split; [exact R1|]. intros s rs Hs Hm. destruct (R2 s _ Hs Hm) as [[E _]|(rows & Hl & Hg & _ & H2)]; [discriminate|].
  destruct rows as [|f0 [|f1 [|f2 [|]]]]; try discriminate. exists f0, f1, f2. split; [apply H2; lia|].
  constructor; [|constructor; [|constructor; [|constructor]]]; apply field2_value; [apply (Hg 0%nat)|apply (Hg 1%nat)|apply (Hg 2%nat)]; reflexivity.
Qed.

(** Two fields of a flow in space, written as VTK files. *)
Lemma saves_case : forall (scp : scipy PrimFloat.float) imems mems, exists w wr,
  create_writer "vtk" "out" None = Ok wr /\
  analytical_start (Fops lnR_rounded) scp (on_each swirl) (mk3 (Fops lnR_rounded) [seed3_F]) "ab2" (WState (T := PrimFloat.float) None no_files) = Ok w /\
  let tasks := map (fun t => job (fst t) (analytical_worker (Fops lnR_rounded) scp (imems (fst t)) eigvals_rounded (mems (fst t)) (write (Fops lnR_rounded) wr) (snd t) true true) w)
                 (indexed (analytical_tasks (Fops lnR_rounded) scp format_six 2 8 0.015625%float)) in
  (exists s rs, Executor.steps tasks 2 (start [] false no_files) s /\ st_main s = Exited (Ok rs)) /\
  forall s rs, Executor.steps tasks 2 (start [] false no_files) s -> st_main s = Exited (Ok rs) -> exists time,
    forall i, (i < 2)%nat -> about (1 / 64) i (time i) /\ exists points f, 
      st_world s (output_path wr (append "ftle_" (format_six (time i)))) = Some (Whole (VtpFile points f)) /\ one_value ((1 / 8) / (7 / 64)) (/ 10) f.
Proof.
  intros scp imems mems. eexists. eexists. split; [reflexivity|]. split; [reflexivity|].
  destruct (steady_saves3 lnR_rounded scp format_six imems mems eigvals_rounded (on_each swirl) swirl lnR_rounded_accurate eigvals_rounded_accurate (on_each_steady _) format_six_ok
    MAB2 8 (1 / 64) 0.015625%float 0.109375%float
    swirl [seed3_F] [seed3_R] (fun _ => hyper3 (0 + INR 8 * (1 / 64))) hyper3_error swirl_resolves rep_64th rep_period ltac:(rewrite A64; lra)
    2 2 (mk3 (Fops lnR_rounded) [seed3_F]) _ 8 "vtk"%string "out"%string _ ltac:(lia) ltac:(lia) (mk_particles_3 _ _) eq_refl eq_refl window_8 [] false no_files) as (R1 & time & Ht & R2).
  { intros p l. discriminate. }
  split; [exact R1|]. intros s rs Hs Hm. exists time. intros i Hi. split; [apply Ht; exact Hi|].
  destruct (R2 s _ Hs Hm) as [[E _]|(_ & Hf & _)]; [discriminate|]. destruct (Hf i Hi) as (f & x & Hg & [[E _]|(_ & points & -> & _)] & Hx); [discriminate|].
  exists points, f. split; [exact Hx|]. apply field3_value. exact Hg.
Qed.

Lemma names_case (scp : scipy PrimFloat.float) : six_decimals format_six /\ represents 0.015625%float (1 / 64) /\
  map src_id (analytical_tasks (Fops lnR_rounded) scp format_six 3 8 0.015625%float) = map Ok ["0.000000"; "0.015625"; "0.031250"]%string.
Proof.
  split; [exact format_six_ok|]. split; [exact rep_64th|].
  assert (E : forall x r k, represents x r -> Rabs r * IZR (10 ^ 6) = IZR k -> format_six x = fixed6 (PrimFloat.get_sign x) (Z.to_nat k)).
  { intros x r k Hx Hk. rewrite (format_six_ok x r Hx), Hk, AnalyticalFacts.rhe_int. reflexivity. }
  assert (H : map src_id (analytical_tasks (Fops lnR_rounded) scp format_six 3 8 0.015625%float) = map (fun x => Ok (format_six x)) [0; 0.015625; 0.03125]%float) by reflexivity.
  rewrite H. cbn [map]. 
  rewrite (E 0%float 0 0%Z), (E 0.015625%float (1 / 64) 15625%Z), (E 0.03125%float (1 / 32) 31250%Z). 
  - vm_compute. reflexivity.
  - split; [reflexivity|]. vm_compute (Prim2SF _). unfold SF2R, F2R. cbn. lra.
  - rewrite Rabs_pos_eq; lra.
  - exact rep_64th.
  - rewrite Rabs_pos_eq; lra.
  - exact FloatJac.rep_0.
  - rewrite Rabs_R0; lra.
Qed.
