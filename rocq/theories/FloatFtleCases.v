(** Whole runs in binary64 that meet the hypotheses: the saddle flow (x, y) -> (y, x) around one seed. *)
From Coq Require Import String Reals Lia Lra Psatz Floats.
From Flocq Require Import Core BinarySingleNaN.
From Verif Require Import Base Num Particles Jacobian Ftle Integrate DataSource Solver SpecFtle SpecSeeds SpecIntegrate SpecSolver SpecOrder
  SpecFloat64 SpecAccuracy SpecFloatGrid SpecConverge SpecFloatJac SpecRounding SpecFloatRun FtleFacts2 OrderFacts ConvergeCases FloatArith FloatGrid
  FloatKernel FloatAxis FtleAccuracyMain FloatJac FloatRuns FloatFtleRun.
Local Open Scope R_scope.

(** An interpolator that holds a function and evaluates it; a source that installs the saddle before each step. *)
Definition holds (f : list PrimFloat.float -> list PrimFloat.float) (m : mat PrimFloat.float) :
  (list PrimFloat.float -> list PrimFloat.float) * res (mat PrimFloat.float) := (f, Ok (Mat (mcols m) (map f (mrows m)))).
Definition held (v s : list PrimFloat.float -> list PrimFloat.float) : Prop := s = v.
Definition saddle_source lnF hF n : source PrimFloat.float (list PrimFloat.float -> list PrimFloat.float) unit :=
  Source (Ok "case"%string) hF n (fun _ => mk_particles (Fops lnF) (layout2 [seed_F])) (fun k _ => k) (fun _ _ => (saddle, Ok tt)).
Definition saddle_solver lnF hF n := Solver (saddle_source lnF hF n) false false.
Definition saddle_world m : world PrimFloat.float (list PrimFloat.float -> list PrimFloat.float) unit unit :=
  World (fresh m) saddle tt [] tt 0.

Lemma holds_samples : samples_field holds held.
Proof. intros v s m ->. exists v. split; reflexivity. Qed.
Lemma saddle_presents lnF hF n : presents_fields held (s_source (saddle_solver lnF hF n)) (fun _ => saddle).
Proof. intros j w s _ _. exists saddle. split; reflexivity. Qed.

Lemma seed_seated : Forall2 seated2 [seed_F] [seed_R].
Proof. constructor; [exact (proj1 jac_case)|constructor]. Qed.
Lemma seed_spaced : Forall spaced2 [seed_R].
Proof. constructor; [exact (proj1 (proj2 (proj2 jac_case)))|constructor]. Qed.
Lemma sized_pair B p q : 0 <= B -> Rabs p <= B -> Rabs q <= B -> sized B (row2 (p, q)).
Proof. intros H0 Hp Hq [|[|i]]; cbn; [exact Hp|exact Hq|]. destruct i; rewrite Rabs_R0; exact H0. Qed.
Lemma seed_within : Forall (within2 1) [seed_R].
Proof.
  constructor; [|constructor]. unfold within2, corners2, seed_R. cbn [g_left g_right g_top g_bottom].
  repeat (apply Forall_cons; [apply sized_pair; [lra|apply Rabs_le; lra|apply Rabs_le; lra]|]). constructor.
Qed.
Lemma seed_side : side2 seed_R = 2.
Proof.
  unfold side2, seed_R. cbn [g_left g_right g_top g_bottom fst snd]. replace (1 - -1) with 2 by ring.
  rewrite (Rabs_pos_eq 2) by lra. apply Rmin_left. lra.
Qed.

Lemma symmetric_norm c s : 0 <= c -> 0 <= s -> spectral_norm_2 (M22 c s s c) (c + s).
Proof.
  intros Hc Hs. split.
  - intros [x y]. unfold norm2, dot2, app22. cbn [fst snd a00 a01 a10 a11].
    rewrite <- (sqrt_square (c + s)) at 1 by lra. rewrite <- sqrt_mult_alt by nra. apply sqrt_le_1_alt.
    assert (0 <= c * s) by (apply Rmult_le_pos; assumption).
    assert (0 <= (x - y) * (x - y)) by apply Rle_0_sqr. nra.
  - set (r := R_sqrt.sqrt (/ 2)). assert (R2 : r * r = / 2) by (apply sqrt_sqrt; lra).
    exists (r, r). unfold norm2, dot2, app22. cbn [fst snd a00 a01 a10 a11]. split.
    + rewrite R2. replace (/ 2 + / 2) with 1 by lra. apply sqrt_1.
    + replace ((c * r + s * r) * (c * r + s * r) + (s * r + c * r) * (s * r + c * r)) with (2 * (r * r) * ((c + s) * (c + s))) by ring.
      rewrite R2. replace (2 * / 2 * ((c + s) * (c + s))) with ((c + s) * (c + s)) by lra. apply sqrt_square. lra.
Qed.

Lemma ge_pow x n : x <= 2 ^ 3 -> (3 <= n)%nat -> x <= 2 ^ n.
Proof. intros H Hn. apply Rle_trans with (1 := H). apply two_le. exact Hn. Qed.
Lemma le_inv_pow x n : / 2 ^ 3 <= x -> (3 <= n)%nat -> / 2 ^ n <= x.
Proof. intros H Hn. apply Rle_trans with (2 := H). apply inv_two_le. exact Hn. Qed.

Lemma saddle_tame m n h : 0 < h -> (2 <= n)%nat -> (m = MRK4 -> h <= 1) -> INR n <= 8 -> h <= 1 / 16 -> / 8 <= (INR n - 1) * h * 8 -> INR n * h <= 1 / 8 ->
  tame m 8 1 8 0 1 n h.
Proof.
  intros Ph Hn Hm Hn8 Hh Hl Hu. assert (P8 : 2 ^ 3 = 8) by (cbn; lra).
  assert (Pn : 2 <= INR n) by (apply (le_INR 2); exact Hn).
  unfold tame. rewrite (Rabs_pos_eq h) by lra.
  split. { split; [apply le_inv_pow; [rewrite P8; lra|lia]|apply ge_pow; [lra|lia]]. }
  split. { apply le_inv_pow; [rewrite P8; lra|lia]. }
  split; [lra|]. split; [lra|]. split; [rewrite Rplus_0_r; apply ge_pow; [lra|lia]|]. split; [apply ge_pow; [lra|lia]|].
  split; [exact Hn|]. split; [apply ge_pow; [lra|lia]|].
  split. { split; [|apply ge_pow; [nra|lia]]. apply Rle_trans with (/ 2 ^ 6); [apply inv_two_le; lia|]. replace (2 ^ 6) with 64 by (cbn; lra). lra. }
  split; [lra|]. intro E. rewrite Rmult_1_r. apply Hm, E.
Qed.

Lemma rep_64th : represents 0.015625%float (1 / 64).
Proof. split; [reflexivity|]. vm_compute (Prim2SF _). unfold SF2R, F2R. cbn. lra. Qed.
Lemma rep_16th : represents 0.0625%float (1 / 16).
Proof. split; [reflexivity|]. vm_compute (Prim2SF _). unfold SF2R, F2R. cbn. lra. Qed.

Lemma saddle_ok n (v : nat -> list R -> list R) : v = (fun _ => saddle) ->
  forall k, (k < n)%nat -> evaluates 2 8 0 saddle (v k) /\ speed 2 8 8 (v k) /\ lipschitz_field 2 1 (fun _ => v k).
Proof. intros -> k _. split; [apply saddle_evaluates; lra|]. split; [apply saddle_speed|exact saddle_lipschitz]. Qed.
Lemma saddle_len (x : list PrimFloat.float) : length x = 2%nat -> length (saddle x) = 2%nat.
Proof. destruct x as [|a [|b [|]]]; try discriminate. reflexivity. Qed.

(* ---- two Euler steps of 1/16, in exact arithmetic ---- *)
Definition two_steps (x : R * R) : R * R :=
  (257 / 256 * fst x + 1 / 8 * snd x, 1 / 8 * fst x + 257 / 256 * snd x).

Lemma two_steps_path x : path Rops MEuler (steps (fun _ => saddle) (1 / 16) 2) (row2 x) = row2 (two_steps x).
Proof. destruct x as [p q]. unfold two_steps. cbn. f_equal; [|f_equal]; field. Qed.

Lemma two_steps_gradient : gradient2 seed_R (image2 two_steps seed_R) = M22 (257 / 256) (1 / 8) (1 / 8) (257 / 256).
Proof. unfold gradient2, image2, two_steps, seed_R. cbn. f_equal; field. Qed.

Lemma exp_quarter : exp (2 * (2 * (1 / 16) * 1)) <= 4 / 3.
Proof.
  replace (2 * (2 * (1 / 16) * 1)) with (- - / 4) by lra. rewrite exp_Ropp.
  pose proof (exp_ge (- / 4)). replace (4 / 3) with (/ (3 / 4)) by lra. apply Rinv_le_contravar; lra.
Qed.

Lemma two_steps_rounding : rounding_bound 2 (1 / 16) 0 8 1 <= / 2 ^ 40.
Proof.
  unfold rounding_bound. rewrite (Rabs_pos_eq (1 / 16)) by lra. replace (INR 2) with 2 by (cbn; lra).
  pose proof exp_quarter as X. pose proof (exp_pos (2 * (2 * (1 / 16) * 1))).
  replace (2 * (2 * (1 / 16) * 0 + 8 / 2 ^ 50) * exp (2 * (2 * (1 / 16) * 1))) with (16 / 2 ^ 50 * exp (2 * (2 * (1 / 16) * 1))) by lra.
  apply Rle_trans with (16 / 2 ^ 50 * (4 / 3)).
  - apply Rmult_le_compat_l; [|exact X]. apply Rmult_le_pos; [lra|]. left. apply Rinv_0_lt_compat, pow_lt. lra.
  - cbn [pow]. lra.
Qed.

Lemma below_199 x : x <= 8 -> x <= 2 ^ 199.
Proof. intro H. apply ge_pow; [cbn; lra|lia]. Qed.

Lemma two_steps_resolved : resolved2 (rounding_bound 2 (1 / 16) 0 8 1) two_steps seed_R (289 / 256).
Proof.
  unfold resolved2. rewrite two_steps_gradient, seed_side. cbv zeta.
  split. { replace (289 / 256) with (257 / 256 + 1 / 8) by lra. apply symmetric_norm; lra. }
  split. { split; [apply le_inv_pow; [cbn; lra|lia]|apply ge_pow; [cbn; lra|lia]]. }
  split.
  - exists (1 / 3). split; [split; [apply le_inv_pow; [cbn; lra|lia]|lra]|].
    split; [unfold det22; cbn [a00 a01 a10 a11]; lra|].
    pose proof two_steps_rounding as X. replace (2 ^ 8) with 256 by (cbn; lra).
    apply Rle_trans with (256 * / 2 ^ 40); [apply Rmult_le_compat_l; [lra|exact X]|]. cbn [pow]. lra.
  - unfold corners2, two_steps, seed_R. cbn [g_left g_right g_top g_bottom fst snd].
    do 4 (apply Forall_cons; [cbn [fst snd]; split; apply below_199; apply Rabs_le; lra|]). constructor.
Qed.

Lemma exact_case : forall eigvals mems write,
  let E := rounding_bound 2 (1 / 16) 0 8 1 in
  exists x r, snd (run (Fops lnR_rounded) holds eigvals mems write (saddle_solver lnR_rounded 0.0625%float 2) (saddle_world MEuler))
      = Ok (Some [XVal x]) /\ represents x r /\ Rabs (r - ln (289 / 256) / (1 / 16)) <= / 2 ^ 16.
Proof.
  intros eigvals mems write E.
  assert (I2 : INR 2 = 2) by (cbn; lra). assert (A : Rabs (1 / 16) = 1 / 16) by (apply Rabs_pos_eq; lra).
  assert (HE : E <= / 2 ^ 40) by exact two_steps_rounding.
  destruct (run_exact_F2 (P := unit) lnR_rounded holds eigvals mems write held holds_samples MEuler 8 1 8 0 1 2 (1 / 16) 0.0625%float (fun _ => saddle) (fun _ => saddle)
    lnR_rounded_accurate) with (gs := [seed_F]) (Gs := [seed_R]) (phi := two_steps) (E := E) (sv := saddle_solver lnR_rounded 0.0625%float 2) (w := saddle_world MEuler)
    (w0 := @saddle PrimFloat.float) (id := "case"%string) as (xs & Exs & Hxs).
  - apply saddle_tame; rewrite ?I2; try lra; try lia.
  - exact rep_16th.
  - apply saddle_ok. reflexivity.
  - intros k x. apply saddle_len.
  - exact seed_seated.
  - exact seed_spaced.
  - exact seed_within.
  - intros G x _ _. apply two_steps_path.
  - reflexivity.
  - apply below_199. apply Rle_trans with (1 := HE). cbn [pow]. lra.
  - constructor; [|constructor]. exists (289 / 256). exact two_steps_resolved.
  - apply saddle_presents.
  - reflexivity.
  - reflexivity.
  - reflexivity.
  - reflexivity.
  - reflexivity.
  - reflexivity.
  - reflexivity.
  - inversion Hxs as [|? x ? l (s & Rs & r & Rr & Hr) Hl]; subst. inversion Hl; subst. exists x, r.
    split; [exact Exs|]. split; [exact Rr|].
    rewrite (spectral_norm_2_unique _ _ _ Rs (proj1 two_steps_resolved)), I2, A, seed_side in Hr.
    replace ((2 - 1) * (1 / 16)) with (1 / 16) in Hr by lra. apply Rle_trans with (1 := Hr).
    replace (12 * E / (289 / 256 * 2)) with (12 * 128 / 289 * E) by field.
    revert HE. cbn [pow]. intro HE. lra.
Qed.

(* ---- eight AB2 steps of 1/64, beside the flow ---- *)
Definition hyper (t : R) (x : R * R) : R * R :=
  ((fst x + snd x) / 2 * exp t + (fst x - snd x) / 2 * exp (- t), (fst x + snd x) / 2 * exp t - (fst x - snd x) / 2 * exp (- t)).

Lemma exp_pair_derivative a b t : derivable_pt_lim (fun s => a * exp s + b * exp (- s)) t (a * exp t - b * exp (- t)).
Proof.
  replace (a * exp t - b * exp (- t)) with (a * exp t + b * (exp (- t) * - 1)) by ring.
  apply (derivable_pt_lim_plus (fun s => a * exp s) (fun s => b * exp (- s))); [apply exp_derivative|].
  apply (derivable_pt_lim_scal (fun s => exp (- s)) b). 
  apply (derivable_pt_lim_comp (fun s => - s) exp); [|apply derivable_pt_lim_exp].
  apply (derivable_pt_lim_opp id t 1). apply derivable_pt_lim_id.
Qed.
Lemma exp_pair_derivative' a b t : derivable_pt_lim (fun s => a * exp s - b * exp (- s)) t (a * exp t + b * exp (- t)).
Proof.
  pose proof (exp_pair_derivative a (- b) t) as D.
  replace (a * exp t + b * exp (- t)) with (a * exp t - - b * exp (- t)) by ring.
  intros e He. destruct (D e He) as (d & Hd). exists d. intros h0 H0 H1. specialize (Hd h0 H0 H1).
  replace (a * exp (t + h0) - b * exp (- (t + h0)) - (a * exp t - b * exp (- t)))
    with (a * exp (t + h0) + - b * exp (- (t + h0)) - (a * exp t + - b * exp (- t))) by ring. exact Hd.
Qed.

Lemma exp_eighth_up t : t <= 1 / 8 -> exp t <= 8 / 7.
Proof.
  intro H. apply Rle_trans with (exp (1 / 8)); [destruct H as [H|H]; [left; apply exp_increasing; exact H|rewrite H; lra]|].
  replace (1 / 8) with (- - / 8) by lra. rewrite exp_Ropp. pose proof (exp_ge (- / 8)).
  replace (8 / 7) with (/ (7 / 8)) by lra. apply Rinv_le_contravar; lra.
Qed.

Lemma pair_bounded a b t : Rabs a <= 1 / 2 -> Rabs b <= 1 / 2 -> 0 <= t <= 1 / 8 ->
  Rabs (a * exp t + b * exp (- t)) <= 2 /\ Rabs (a * exp t - b * exp (- t)) <= 2.
Proof.
  intros Ha Hb Ht. pose proof (exp_eighth_up t (proj2 Ht)) as U. pose proof (exp_pos t) as P.
  pose proof (exp_pos (- t)) as P'. assert (U' : exp (- t) <= 8 / 7) by (apply exp_eighth_up; lra).
  assert (X : Rabs (a * exp t) <= 1 / 2 * (8 / 7)) by (apply abs_mul_le; [exact Ha|rewrite Rabs_pos_eq; lra]).
  assert (Y : Rabs (b * exp (- t)) <= 1 / 2 * (8 / 7)) by (apply abs_mul_le; [exact Hb|rewrite Rabs_pos_eq; lra]).
  apply Rabs_le_inv in X, Y. split; apply Rabs_le; lra.
Qed.

Lemma pair_rate a b s t : Rabs a <= 1 / 2 -> Rabs b <= 1 / 2 -> 0 <= s <= 1 / 8 -> 0 <= t <= 1 / 8 ->
  Rabs (a * exp s + b * exp (- s) - (a * exp t + b * exp (- t))) <= 2 * Rabs (s - t) /\
  Rabs (a * exp s - b * exp (- s) - (a * exp t - b * exp (- t))) <= 2 * Rabs (s - t).
Proof.
  intros Ha Hb Hs Ht. split.
  - destruct (mean_value (fun r => a * exp r + b * exp (- r)) (fun r => a * exp r - b * exp (- r)) t s) as (c & Hc & E); [intros; apply exp_pair_derivative|].
    rewrite E, Rabs_mult. apply Rmult_le_compat_r; [apply Rabs_pos|]. apply pair_bounded; [exact Ha|exact Hb|].
    destruct Hc as [C1 C2]. revert C1 C2. unfold Rmin, Rmax. destruct (Rle_dec t s); lra.
  - destruct (mean_value (fun r => a * exp r - b * exp (- r)) (fun r => a * exp r + b * exp (- r)) t s) as (c & Hc & E); [intros; apply exp_pair_derivative'|].
    rewrite E, Rabs_mult. apply Rmult_le_compat_r; [apply Rabs_pos|]. apply pair_bounded; [exact Ha|exact Hb|].
    destruct Hc as [C1 C2]. revert C1 C2. unfold Rmin, Rmax. destruct (Rle_dec t s); lra.
Qed.

Lemma tail_zero (i : nat) : match i with O => 0 | S _ => 0 end = 0.
Proof. destruct i; reflexivity. Qed.

Lemma hyper_flows m T x : T = 1 / 8 -> Rabs ((fst x + snd x) / 2) <= 1 / 2 -> Rabs ((fst x - snd x) / 2) <= 1 / 2 ->
  flow_along (regular m (fun _ => saddle) 0 (0 + T) 2 2 2) (fun _ => saddle) 0 (0 + T) (hyper (0 + T)) x.
Proof.
  intros -> Ha Hb. destruct x as [p q]. cbn [fst snd] in *. set (a := (p + q) / 2) in *. set (b := (p - q) / 2) in *.
  assert (BT : forall t, between 0 (0 + 1 / 8) t -> 0 <= t <= 1 / 8).
  { intros t [H1 H2]. revert H1 H2. rewrite Rmin_left, Rmax_right by lra. lra. }
  exists (fun t => row2 (hyper t (p, q))). unfold hyper. cbn [fst snd row2]. fold a b.
  split. { replace (- 0) with 0 by ring. rewrite exp_0. unfold a, b. f_equal; [field|f_equal; field]. }
  split. { split; [reflexivity|]. intros t _ [|[|i]]; unfold coord; cbn [saddle nth].
    - apply exp_pair_derivative.
    - apply exp_pair_derivative'.
    - destruct i; apply derivable_pt_lim_const. }
  split; [reflexivity|]. split.
  - intros s t Hs Ht [|[|i]]; unfold coord; cbn [saddle nth].
    + apply pair_rate; auto.
    + apply pair_rate; auto.
    + rewrite tail_zero, Rminus_0_r, Rabs_R0. pose proof (Rabs_pos (s - t)). lra.
  - destruct m; [exact I| |].
    + exists (fun t => row2 (hyper t (p, q))). unfold hyper. cbn [fst snd row2]. fold a b. split.
      * intros t _ [|[|i]]; unfold coord; cbn [saddle nth].
        -- apply exp_pair_derivative'.
        -- apply exp_pair_derivative.
        -- destruct i; apply derivable_pt_lim_const.
      * intros s t Hs Ht [|[|i]]; unfold coord; cbn [saddle nth].
        -- apply pair_rate; auto.
        -- apply pair_rate; auto.
        -- rewrite tail_zero, Rminus_0_r, Rabs_R0. pose proof (Rabs_pos (s - t)). lra.
    + intros t i Ht. apply BT in Ht. destruct (pair_bounded a b t Ha Hb Ht) as [B1 B2].
      destruct i as [|[|i]]; unfold coord; cbn [saddle nth]; [exact B2|exact B1|]. rewrite tail_zero, Rabs_R0. lra.
Qed.

Lemma hyper_gradient T : gradient2 seed_R (image2 (hyper T) seed_R) =
  M22 ((exp T + exp (- T)) / 2) ((exp T - exp (- T)) / 2) ((exp T - exp (- T)) / 2) ((exp T + exp (- T)) / 2).
Proof. unfold gradient2, image2, hyper, seed_R. cbn. f_equal; field. Qed.

Lemma exp_eighth : 9 / 8 <= exp (1 / 8) <= 8 / 7.
Proof. split; [pose proof (exp_ge (1 / 8)); lra|apply exp_eighth_up; lra]. Qed.

Definition hyper_error : R := rounding_bound 8 (1 / 64) 0 8 1 + truncation MAB2 8 (1 / 64) 1 2 2 2.

Lemma hyper_error_small : 0 <= hyper_error <= / 1200.
Proof.
  unfold hyper_error, rounding_bound, truncation. rewrite (Rabs_pos_eq (1 / 64)) by lra. replace (INR 8) with 8 by (cbn; lra).
  replace (2 * (8 * (1 / 64) * 1)) with (1 / 8 + 1 / 8) by lra. rewrite exp_plus.
  destruct exp_eighth as [L U]. set (e := exp (1 / 8)) in *. assert (X : 0 <= e * e <= 64 / 49) by nra.
  replace (2 ^ 50) with 1125899906842624 by (cbn [pow]; lra). set (z := e * e) in *. clearbody z. lra.
Qed.

Lemma hyper_resolved : resolved2 hyper_error (hyper (0 + INR 8 * (1 / 64))) seed_R (exp (1 / 8)).
Proof.
  replace (0 + INR 8 * (1 / 64)) with (1 / 8) by (cbn; lra).
  unfold resolved2. rewrite hyper_gradient, seed_side. cbv zeta.
  destruct exp_eighth as [L U]. assert (L' : exp (- (1 / 8)) <= 1).
  { replace 1 with (exp 0) at 2 by apply exp_0. left. apply exp_increasing. lra. }
  pose proof (exp_pos (- (1 / 8))) as P.
  assert (I1 : exp (1 / 8) * exp (- (1 / 8)) = 1) by (rewrite <- exp_plus, Rplus_opp_r; apply exp_0).
  set (e := exp (1 / 8)) in *. set (e' := exp (- (1 / 8))) in *.
  split. { replace e with ((e + e') / 2 + (e - e') / 2) at 5 by field. apply symmetric_norm; lra. }
  split. { split; [apply le_inv_pow; [cbn; lra|lia]|apply ge_pow; [cbn; lra|lia]]. }
  split.
  - exists (1 / 3). split; [split; [apply le_inv_pow; [cbn; lra|lia]|lra]|].
    split.
    + unfold det22. cbn [a00 a01 a10 a11].
      replace ((e + e') / 2 * ((e + e') / 2) - (e - e') / 2 * ((e - e') / 2)) with (e * e') by field. rewrite I1.
      assert (81 / 64 <= e * e) by nra. assert (6561 / 4096 <= e * e * (e * e)) by nra. lra.
    + pose proof hyper_error_small as X. replace (2 ^ 8) with 256 by (cbn; lra). lra.
  - assert (K : forall a b, Rabs a <= 1 / 2 -> Rabs b <= 1 / 2 -> Rabs (a * exp (1 / 8) + b * exp (- (1 / 8))) <= 2 ^ 199 /\ Rabs (a * exp (1 / 8) - b * exp (- (1 / 8))) <= 2 ^ 199).
    { intros a b Ha Hb. destruct (pair_bounded a b (1 / 8) Ha Hb ltac:(lra)). split; apply below_199; lra. }
    unfold corners2, hyper, seed_R. cbn [g_left g_right g_top g_bottom fst snd].
    do 4 (apply Forall_cons; [cbn [fst snd]; apply K; apply Rabs_le; lra|]). constructor.
Qed.

Lemma flow_case : forall eigvals mems write, 
  exists x r, snd (run (Fops lnR_rounded) holds eigvals mems write (saddle_solver lnR_rounded 0.015625%float 8) (saddle_world MAB2))
      = Ok (Some [XVal x]) /\ represents x r /\ Rabs (r - (1 / 8) / (7 / 64)) <= / 20.
Proof.
  intros eigvals mems write.
  assert (I8 : INR 8 = 8) by (cbn; lra). assert (A : Rabs (1 / 64) = 1 / 64) by (apply Rabs_pos_eq; lra).
  pose proof hyper_error_small as HE.
  destruct (run_flow_F2 (P := unit) lnR_rounded holds eigvals mems write held holds_samples MAB2 8 1 8 0 1 8 (1 / 64) 0.015625%float (fun _ => saddle) (fun _ => saddle) 0
    lnR_rounded_accurate) with (gs := [seed_F]) (Gs := [seed_R]) (phi := hyper (0 + INR 8 * (1 / 64))) (K := 2) (J := 2) (V := 2) (E := hyper_error)
    (sv := saddle_solver lnR_rounded 0.015625%float 8) (w := saddle_world MAB2) (w0 := @saddle PrimFloat.float) (id := "case"%string) as (xs & Exs & Hxs).
  - apply saddle_tame; rewrite ?I8; try lra; try lia.
  - exact rep_64th.
  - exact saddle_lipschitz.
  - intros k _. split; [apply saddle_evaluates; lra|apply saddle_speed].
  - intros k x. apply saddle_len.
  - exact seed_seated.
  - exact seed_spaced.
  - exact seed_within.
  - lra.
  - lra.
  - lra.
  - reflexivity.
  - apply below_199. lra.
  - intros G x [<-|[]] Hx. apply hyper_flows; [rewrite I8; lra| |];
      (cbn in Hx; destruct Hx as [<-|[<-|[<-|[<-|[]]]]]; cbn [fst snd]; apply Rabs_le; lra).
  - constructor; [|constructor]. eexists. exact hyper_resolved.
  - apply saddle_presents.
  - reflexivity.
  - reflexivity.
  - reflexivity.
  - reflexivity.
  - reflexivity.
  - reflexivity.
  - reflexivity.
  - inversion Hxs as [|? x ? l (s & Rs & r & Rr & Hr) Hl]; subst. inversion Hl; subst. exists x, r.
    split; [exact Exs|]. split; [exact Rr|].
    rewrite (spectral_norm_2_unique _ _ _ Rs (proj1 hyper_resolved)), I8, A, seed_side, ln_exp in Hr.
    replace ((8 - 1) * (1 / 64)) with (7 / 64) in Hr by lra. apply Rle_trans with (1 := Hr).
    destruct exp_eighth as [L U]. set (e := exp (1 / 8)) in *.
    assert (X : 12 * hyper_error / (e * 2) <= 6 * hyper_error).
    { replace (12 * hyper_error / (e * 2)) with (6 * hyper_error * / e) by (field; lra). rewrite <- (Rmult_1_r (6 * hyper_error)) at 2.
      apply Rmult_le_compat_l; [lra|]. rewrite <- Rinv_1. apply Rinv_le_contravar; lra. }
    replace (2 ^ 21) with 2097152 by (cbn [pow]; lra). lra.
Qed.
