(** The FTLE of a whole run in binary64. *)
From Coq Require Import String Reals Lia Lra Psatz Floats.
From Flocq Require Import Core BinarySingleNaN PrimFloat.
From Verif Require Import Base Num Particles Jacobian Ftle Integrate DataSource Solver SpecFtle SpecSeeds SpecIntegrate SpecSolver SpecOrder
  SpecFloat64 SpecAccuracy SpecFloatGrid SpecConverge SpecFloatJac SpecRounding SpecFloatRun ParticleFacts JacobianFacts FtleFacts2 BatchFloat SolverFacts SolverField
  OrderFacts OrderAB2 OrderRK4 OrderLinear ConvergeFacts ConvergeMain FloatArith FloatGrid FloatKernel FloatAxis FtleAccuracyMain FloatJac FloatPath FloatRuns.
Local Open Scope R_scope.

Lemma abs_rep x X : represents x X -> represents (PrimFloat.abs x) (Rabs X).
Proof.
  rewrite !represents_B. intros [Hf <-]. rewrite abs_equiv, is_finite_Babs, B2R_Babs. split; [exact Hf|reflexivity].
Qed.

Lemma two_le a b : (a <= b)%nat -> 2 ^ a <= 2 ^ b.
Proof. intro H. apply Rle_pow; [lra|exact H]. Qed.
Lemma inv_two_le a b : (a <= b)%nat -> / 2 ^ b <= / 2 ^ a.
Proof. intro H. apply Rinv_le_contravar; [apply pow_lt; lra|apply two_le, H]. Qed.

Lemma period_F lnF n h hF : (2 <= n)%nat -> INR n <= 2 ^ 47 -> represents hF h ->
  / 2 ^ 199 <= (INR n - 1) * Rabs h <= 2 ^ 199 ->
  exists tau, represents (o_mul (Fops lnF) (o_ofZ (Fops lnF) (Z.of_nat n - 1)) (o_abs (Fops lnF) hF)) tau /\
    ordinary tau /\ 0 < tau /\ Rabs (tau - (INR n - 1) * Rabs h) <= / 2 ^ 51 * ((INR n - 1) * Rabs h).
Proof.
  intros Hn Hn' Hh [HL HU]. set (T := (INR n - 1) * Rabs h) in *.
  assert (EZ : IZR (Z.of_nat n - 1) = INR n - 1) by (rewrite minus_IZR, <- INR_IZR_INZ; reflexivity).
  assert (Hz : (Z.abs (Z.of_nat n - 1) <= 2 ^ 53)%Z).
  { rewrite Z.abs_eq by lia. apply le_IZR. rewrite EZ. change (IZR (2 ^ 53)) with (bpow radix2 53).
    rewrite pow_bpow in Hn'. apply Rle_trans with (bpow radix2 (Z.of_nat 47)); [lra|]. apply bpow_le. lia. }
  pose proof (int_rep _ Hz) as RZ. rewrite EZ in RZ.
  assert (P199 : 0 < / 2 ^ 199) by (apply Rinv_0_lt_compat, pow_lt; lra).
  assert (TP : 0 < T) by lra.
  destruct (mul_rep _ _ _ _ RZ (abs_rep _ _ Hh)) as (e & u & He & Hu & R).
  { fold T. rewrite Rabs_pos_eq by lra. apply Rle_trans with (1 := HU). rewrite pow_bpow. apply bpow_le. lia. }
  fold T in R. exists (T * (1 + e) + u). split; [exact R|].
  assert (Tiny : Rabs u <= / 2 ^ 53 * T).
  { apply Rle_trans with (1 := Hu). apply Rle_trans with (1 := tiny_pow). apply Rle_trans with (/ 2 ^ 53 * / 2 ^ 199).
    - rewrite <- Rinv_mult, <- pow_add. apply inv_two_le. lia.
    - apply Rmult_le_compat_l; [left; apply Rinv_0_lt_compat, pow_lt; lra|exact HL]. }
  assert (U53 : uround = / 2 ^ 53).
  { rewrite uround_bpow, pow_bpow, <- bpow_opp. reflexivity. }
  rewrite U53 in He.
  assert (A : Rabs (T * (1 + e) + u - T) <= / 2 ^ 51 * T).
  { replace (T * (1 + e) + u - T) with (e * T + u) by ring. eapply Rle_trans; [apply Rabs_triang|].
    rewrite Rabs_mult, (Rabs_pos_eq T) by lra.
    assert (Rabs e * T <= / 2 ^ 53 * T) by (apply Rmult_le_compat_r; lra).
    assert (/ 2 ^ 53 * T + / 2 ^ 53 * T <= / 2 ^ 51 * T).
    { rewrite !pow_bpow. change (bpow radix2 (Z.of_nat 53)) with 9007199254740992.
      change (bpow radix2 (Z.of_nat 51)) with 2251799813685248. lra. }
    lra. }
  assert (Sm : / 2 ^ 51 * T <= / 2 * T).
  { apply Rmult_le_compat_r; [lra|]. replace (/ 2) with (/ 2 ^ 1) by (cbn; lra). apply inv_two_le. lia. }
  assert (E200 : 2 ^ 200 = 2 * 2 ^ 199) by reflexivity.
  assert (E200' : / 2 ^ 200 = / 2 * / 2 ^ 199) by (rewrite E200; apply Rinv_mult).
  pose proof (Rabs_le_inv _ _ A) as A'.
  assert (P : 0 < T * (1 + e) + u) by lra.
  split; [|split; [exact P|exact A]].
  unfold ordinary. rewrite Rabs_pos_eq by lra. rewrite E200', E200. lra.
Qed.

(** Perturbing a gradient by a small fraction of its norm. *)
Lemma gap_perturbed d g Q s J t : close22 (d * s) J Q -> 0 <= d -> 2 ^ 7 * d <= g -> g <= 1 -> spectral_norm_2 Q s -> spectral_norm_2 J t -> 0 < s ->
  det22 Q * det22 Q <= (1 - g) * (s * s * (s * s)) ->
  Rabs (t - s) <= 3 * d * s /\ det22 J * det22 J <= (1 - g / 2) * (t * t * (t * t)).
Proof.
  intros Hc Hd0 Hdg Hg HQ HJ Ps Hd. replace (2 ^ 7) with 128 in Hdg by (cbn; lra).
  destruct (entry_le_norm Q s HQ) as (S00 & S01 & S10 & S11).
  pose proof (norm_close_2 _ _ _ _ _ Hc HJ HQ) as Ht. pose proof (det_bound_2 _ _ HQ) as Db.
  pose proof (det_close d s J Q Hc ltac:(lra) ltac:(lra) S00 S01 S10 S11) as Dc.
  rewrite Rabs_minus_sym in Ht. split; [lra|].
  assert (P2 : 0 < s * s) by nra. assert (P4 : 0 < s * s * (s * s)) by nra.
  set (q := det22 Q) in *. set (j := det22 J) in *. clearbody q j.
  clear Hc. apply Rabs_le_inv in Ht, Db. set (k := 5 * d) in *.
  assert (Hk : 0 <= k <= / 25) by (unfold k; lra).
  assert (Pk : 0 <= (1 - k) * s) by (apply Rmult_le_pos; lra).
  assert (Lt : (1 - k) * s <= t) by (assert (0 <= d * s) by (apply Rmult_le_pos; lra); unfold k; lra).
  assert (L2 : (1 - k) * (1 - k) * (s * s) <= t * t).
  { replace ((1 - k) * (1 - k) * (s * s)) with (((1 - k) * s) * ((1 - k) * s)) by ring. nra. }
  assert (P2k : 0 <= (1 - k) * (1 - k) * (s * s)).
  { replace ((1 - k) * (1 - k) * (s * s)) with (((1 - k) * s) * ((1 - k) * s)) by ring. apply Rmult_le_pos; assumption. }
  assert (L4 : (1 - k) * (1 - k) * ((1 - k) * (1 - k)) * (s * s * (s * s)) <= t * t * (t * t)).
  { replace ((1 - k) * (1 - k) * ((1 - k) * (1 - k)) * (s * s * (s * s))) with (((1 - k) * (1 - k) * (s * s)) * ((1 - k) * (1 - k) * (s * s))) by ring.
    nra. }
  assert (B : Rabs (j - q) <= k * (s * s)) by exact Dc.
  assert (J2 : j * j <= q * q + 3 * k * (s * s * (s * s))).
  { replace (j * j) with (q * q + 2 * (q * (j - q)) + (j - q) * (j - q)) by ring.
    assert (X : Rabs (q * (j - q)) <= s * s * (k * (s * s))) by (apply abs_mul_le; [apply Rabs_le; lra|exact B]).
    assert (Y : Rabs ((j - q) * (j - q)) <= k * (s * s) * (k * (s * s))) by (apply abs_mul_le; exact B).
    apply Rabs_le_inv in X, Y.
    assert (k * (s * s) * (k * (s * s)) <= k * (s * s * (s * s))).
    { replace (k * (s * s) * (k * (s * s))) with (k * (k * (s * s * (s * s)))) by ring. apply Rmult_le_compat_l; [lra|].
      rewrite <- (Rmult_1_l (s * s * (s * s))) at 2. apply Rmult_le_compat_r; lra. }
    lra. }
  assert (F4 : 1 - 4 * k <= (1 - k) * (1 - k) * ((1 - k) * (1 - k))) by nra.
  apply Rle_trans with ((1 - g / 2) * ((1 - 4 * k) * (s * s * (s * s)))).
  - apply Rle_trans with (1 := J2). apply Rle_trans with ((1 - g + 3 * k) * (s * s * (s * s))); [lra|].
    replace ((1 - g / 2) * ((1 - 4 * k) * (s * s * (s * s)))) with ((1 - g / 2) * (1 - 4 * k) * (s * s * (s * s))) by ring.
    apply Rmult_le_compat_r; [lra|]. assert (0 <= g * k) by (apply Rmult_le_pos; lra). unfold k in *. lra.
  - apply Rmult_le_compat_l; [lra|]. apply Rle_trans with (2 := L4). apply Rmult_le_compat_r; [lra|exact F4].
Qed.

Lemma zero_norm : spectral_norm_2 (M22 0 0 0 0) 0.
Proof.
  split.
  - intros [x y]. unfold norm2, dot2, app22. cbn [fst snd a00 a01 a10 a11].
    replace ((0 * x + 0 * y) * (0 * x + 0 * y) + (0 * x + 0 * y) * (0 * x + 0 * y)) with 0 by ring. rewrite sqrt_0. lra.
  - exists (1, 0). unfold norm2, dot2, app22. cbn [fst snd a00 a01 a10 a11]. split.
    + replace (1 * 1 + 0 * 0) with 1 by ring. apply sqrt_1.
    + replace ((0 * 1 + 0 * 0) * (0 * 1 + 0 * 0) + (0 * 1 + 0 * 0) * (0 * 1 + 0 * 0)) with 0 by ring. apply sqrt_0.
Qed.

Lemma scaled_perturbed d Q s J t : close22 (d * s) J Q -> 0 <= d <= / 2 ^ 7 -> spectral_norm_2 Q s -> spectral_norm_2 J t ->
  / 2 ^ 190 <= s <= 2 ^ 190 -> Rabs (t - s) <= 3 * d * s -> well_scaled J.
Proof.
  intros Hc Hd HQ HJ [HL HU] Ht. destruct (entry_le_norm Q s HQ) as (S00 & S01 & S10 & S11).
  assert (P190 : 0 < / 2 ^ 190) by (apply Rinv_0_lt_compat, pow_lt; lra).
  assert (D : d * s <= / 8 * s).
  { apply Rmult_le_compat_r; [lra|]. apply Rle_trans with (1 := proj2 Hd). replace (/ 8) with (/ 2 ^ 3) by (cbn; lra). apply inv_two_le. lia. }
  assert (U : 2 * s <= 2 ^ 199).
  { apply Rle_trans with (2 ^ 191); [change (2 ^ 191) with (2 * 2 ^ 190); lra|apply two_le; lia]. }
  destruct Hc as (C00 & C01 & C10 & C11).
  assert (E : forall x y, Rabs (x - y) <= d * s -> Rabs y <= s -> Rabs x <= 2 ^ 199).
  { intros x y Hxy Hy. replace x with (y + (x - y)) by ring. eapply Rle_trans; [apply Rabs_triang|]. lra. }
  split.
  - apply Forall_cons; [exact (E _ _ C00 S00)|]. apply Forall_cons; [exact (E _ _ C01 S01)|].
    apply Forall_cons; [exact (E _ _ C10 S10)|]. apply Forall_cons; [exact (E _ _ C11 S11)|]. constructor.
  - destruct (Rle_or_lt (/ 2 ^ 199) (Rabs (a00 J))) as [A|A]; [left; exact A|right].
    destruct (Rle_or_lt (/ 2 ^ 199) (Rabs (a01 J))) as [B|B]; [left; exact B|right].
    destruct (Rle_or_lt (/ 2 ^ 199) (Rabs (a10 J))) as [C|C]; [left; exact C|right].
    destruct (Rle_or_lt (/ 2 ^ 199) (Rabs (a11 J))) as [G|G]; [left; exact G|]. exfalso.
    assert (Z : close22 (/ 2 ^ 199) J (M22 0 0 0 0)).
    { unfold close22. cbn [a00 a01 a10 a11]. rewrite !Rminus_0_r. exact (conj (Rlt_le _ _ A) (conj (Rlt_le _ _ B) (conj (Rlt_le _ _ C) (Rlt_le _ _ G)))). }
    pose proof (norm_close_2 _ _ _ _ _ Z HJ zero_norm) as N. apply Rabs_le_inv in N, Ht.
    assert (T8 : 8 * / 2 ^ 199 <= / 2 ^ 190).
    { replace 8 with (2 ^ 3) by (cbn; lra). replace (2 ^ 199) with (2 ^ 3 * 2 ^ 196) by (rewrite <- pow_add; reflexivity).
      rewrite Rinv_mult, <- Rmult_assoc, Rinv_r, Rmult_1_l by (apply pow_nonzero; lra). apply inv_two_le. lia. }
    lra.
Qed.

Lemma ln_bounded s : / 2 ^ 190 <= s <= 2 ^ 190 -> Rabs (ln s) <= 201.
Proof.
  intros [HL HU]. assert (P190 : 0 < / 2 ^ 190) by (apply Rinv_0_lt_compat, pow_lt; lra). apply ln_range; [lra|].
  split.
  - apply Rle_trans with (/ 2 ^ 190 * / 2 ^ 190).
    + rewrite pow_bpow, <- bpow_opp, <- bpow_plus. apply bpow_le. lia.
    + apply Rmult_le_compat; lra.
  - apply Rle_trans with (2 ^ 190 * 2 ^ 190).
    + apply Rmult_le_compat; lra.
    + rewrite pow_bpow, <- bpow_plus. apply bpow_le. lia.
Qed.

Lemma ftle_level s t r tau T d : / 2 ^ 190 <= s <= 2 ^ 190 -> 0 <= d <= / 2 ^ 7 -> Rabs (t - s) <= 3 * d * s ->
  0 < T -> 0 < tau -> Rabs (tau - T) <= / 2 ^ 51 * T -> Rabs (r - ln t / tau) <= / 2 ^ 22 / Rabs tau ->
  Rabs (r - ln s / T) <= (/ 2 ^ 21 + 6 * d) / T.
Proof.
  intros Hs Hd Ht HT Htau Hp Hr. assert (P190 : 0 < / 2 ^ 190) by (apply Rinv_0_lt_compat, pow_lt; lra).
  pose proof (ln_bounded s Hs) as Ls.
  revert Hd Hp Hr. rewrite !pow_bpow. change (bpow radix2 (Z.of_nat 7)) with 128.
  change (bpow radix2 (Z.of_nat 51)) with 2251799813685248. change (bpow radix2 (Z.of_nat 22)) with 4194304.
  change (bpow radix2 (Z.of_nat 21)) with 2097152. intros Hd Hp Hr.
  destruct (ln_near t s (3 * d)) as [Pt Hln]; [lra|lra|lra|].
  assert (Lts : Rabs (ln t - ln s) <= 4 * d) by (assert (2 * (3 * d) * (3 * d) <= d) by nra; lra).
  set (x := T / tau).
  assert (Hx : Rabs (x - 1) <= / 1125899906842624).
  { apply Rabs_le_inv in Hp. unfold x. replace (T / tau - 1) with ((T - tau) * / tau) by (field; lra).
    assert (Ht2 : T <= 2 * tau) by lra.
    assert (0 < / tau) by (apply Rinv_0_lt_compat; exact Htau).
    assert (T * / tau <= 2).
    { apply Rmult_le_reg_r with tau; [exact Htau|]. rewrite Rmult_assoc, Rinv_l by lra. lra. }
    apply Rabs_le. split; nra. }
  rewrite (Rabs_pos_eq tau) in Hr by lra.
  assert (EQ : r - ln s / T = ((r - ln t / tau) * tau * x + ln t * (x - 1) + (ln t - ln s)) / T).
  { unfold x. field. lra. }
  rewrite EQ. unfold Rdiv. rewrite Rabs_mult, (Rabs_pos_eq (/ T)) by (left; apply Rinv_0_lt_compat; exact HT).
  apply Rmult_le_compat_r; [left; apply Rinv_0_lt_compat; exact HT|].
  assert (A : Rabs ((r - ln t / tau) * tau) <= / 4194304).
  { rewrite Rabs_mult, (Rabs_pos_eq tau) by lra. apply Rmult_le_reg_r with (/ tau); [apply Rinv_0_lt_compat; exact Htau|].
    rewrite Rmult_assoc, Rinv_r, Rmult_1_r by lra. exact Hr. }
  assert (Lt : Rabs (ln t) <= 202).
  { replace (ln t) with (ln s + (ln t - ln s)) by ring. eapply Rle_trans; [apply Rabs_triang|]. lra. }
  assert (Hx1 : Rabs x <= 2) by (apply Rabs_le_inv in Hx; apply Rabs_le; lra).
  assert (AX : Rabs ((r - ln t / tau) * tau * x) <= / 4194304 * (1 + / 1125899906842624)).
  { apply abs_mul_le; [exact A|]. apply Rabs_le_inv in Hx. apply Rabs_le. lra. }
  pose proof (abs_mul_le _ _ _ _ Lt Hx) as LX.
  eapply Rle_trans; [apply Rabs_triang|]. eapply Rle_trans; [apply Rplus_le_compat_r, Rabs_triang|]. lra.
Qed.

(* ---- the images of the seeds ---- *)
Definition moved_near (E : R) (phi : R * R -> R * R) (G G' : group2 R) : Prop :=
  near E (row2 (g_left G')) (row2 (phi (g_left G))) /\ near E (row2 (g_right G')) (row2 (phi (g_right G))) /\
  near E (row2 (g_top G')) (row2 (phi (g_top G))) /\ near E (row2 (g_bottom G')) (row2 (phi (g_bottom G))).

Lemma images_F (psi : PrimFloat.float * PrimFloat.float -> PrimFloat.float * PrimFloat.float) (phi : R * R -> R * R) E (Z : R * R -> Prop) :
  (forall x X, stand2 x X -> Z X -> exists Y, stand2 (psi x) Y /\ near E (row2 Y) (row2 (phi X))) ->
  forall gs Gs, Forall2 seated2 gs Gs -> Forall (fun G => Forall Z (corners2 G)) Gs ->
  exists Gs', Forall2 seated2 (map (image2 psi) gs) Gs' /\ Forall2 (moved_near E phi) Gs Gs'.
Proof.
  intros H gs Gs HG. induction HG as [|g G gs Gs (SL & SR & ST & SB) HG IH]; intro HZ.
  - exists []. split; constructor.
  - inversion HZ as [|? ? Z1 Z2]; subst. destruct (IH Z2) as (Gs' & K1 & K2). rewrite Forall_forall in Z1.
    destruct (H _ _ SL (Z1 (g_left G) ltac:(cbn; tauto))) as (YL & AL & NL).
    destruct (H _ _ SR (Z1 (g_right G) ltac:(cbn; tauto))) as (YR & AR & NR).
    destruct (H _ _ ST (Z1 (g_top G) ltac:(cbn; tauto))) as (YT & AT & NT).
    destruct (H _ _ SB (Z1 (g_bottom G) ltac:(cbn; tauto))) as (YB & AB & NB).
    exists (Group2 YL YR YT YB :: Gs'). split; cbn [map]; (apply Forall2_cons; [|assumption]).
    + exact (conj AL (conj AR (conj AT AB))).
    + exact (conj NL (conj NR (conj NT NB))).
Qed.

Lemma gradient_close E phi G G' : spaced2 G -> 0 <= E -> moved_near E phi G G' ->
  close22 (2 * E / side2 G) (gradient2 G G') (gradient2 G (image2 phi G)) /\ 0 < side2 G.
Proof.
  intros [[Sx _] [Sy _]] HE (NL & NR & NT & NB).
  apply near_row2 in NL, NR, NT, NB. destruct NL as [L0 L1], NR as [R0 R1], NT as [T0 T1], NB as [B0 B1].
  assert (P : 0 < / 2 ^ 200) by (apply Rinv_0_lt_compat, pow_lt; lra).
  unfold close22, gradient2, image2, side2. cbn [a00 a01 a10 a11 g_left g_right g_top g_bottom].
  set (dx := fst (g_right G) - fst (g_left G)) in *. set (dy := snd (g_top G) - snd (g_bottom G)) in *.
  assert (Px : 0 < Rabs dx) by lra. assert (Py : 0 < Rabs dy) by lra.
  assert (Ps : 0 < Rmin (Rabs dx) (Rabs dy)) by (apply Rmin_glb_lt; assumption).
  assert (Nx : dx <> 0) by (intro X; rewrite X, Rabs_R0 in Px; lra).
  assert (Ny : dy <> 0) by (intro X; rewrite X, Rabs_R0 in Py; lra).
  assert (Q : forall z, 0 < z -> Rmin (Rabs dx) (Rabs dy) <= z -> 2 * E / z <= 2 * E / Rmin (Rabs dx) (Rabs dy)).
  { intros z Pz Hz. unfold Rdiv. apply Rmult_le_compat_l; [lra|]. apply Rinv_le_contravar; assumption. }
  pose proof (Q _ Px (Rmin_l _ _)) as Qx. pose proof (Q _ Py (Rmin_r _ _)) as Qy.
  split; [|exact Ps]. split; [|split; [|split]]; (eapply Rle_trans; [apply quotient_close; eassumption|]); assumption.
Qed.

Lemma seeds_F lnF E phi T tau h n (gs gs' : list (group2 PrimFloat.float)) Gs Gs' p : accurate_log lnF ->
  represents T tau -> ordinary tau -> 0 < tau -> Rabs (tau - (INR n - 1) * Rabs h) <= / 2 ^ 51 * ((INR n - 1) * Rabs h) ->
  0 < (INR n - 1) * Rabs h -> 0 <= E <= 2 ^ 199 ->
  mk_particles (Fops lnF) (layout2 gs) = Ok p -> length gs' = length gs ->
  Forall2 seated2 gs Gs -> Forall2 seated2 gs' Gs' -> Forall spaced2 Gs -> Forall2 (moved_near E phi) Gs Gs' ->
  Forall (fun G => exists s, resolved2 E phi G s) Gs ->
  exists Fs vs, compute_flow_map_jacobian_2x2 (Fops lnF) (set_positions p (layout2 gs')) = Ok Fs /\
    compute_ftle_2x2 (Fops lnF) Fs T = Ok (map XVal vs) /\
    Forall2 (fun G x => exists s, resolved2 E phi G s /\ ftle_within E (side2 G) s ((INR n - 1) * Rabs h) x) Gs vs.
Proof.
  intros Hln HT Ho Pt Htau PT HE Hp Hl HG HG' HS HN HR.
  assert (K : Forall2 (fun Q G => exists s t d, resolved2 E phi G s /\ spectral_norm_2 Q t /\ 0 <= d <= / 2 ^ 7 /\ d = 2 * E / (s * side2 G) /\
      Rabs (t - s) <= 3 * d * s /\ well_scaled Q /\ det22 Q * det22 Q <= (1 - / 2 ^ 21) * (t * t * (t * t))) (gradients2 Gs Gs') Gs).
  { clear - HS HN HR HE. revert HS HR. induction HN as [|G G' Gs Gs' HN _ IH]; intros HS HR; [constructor|].
    inversion HS as [|? ? S1 S2]; subst. inversion HR as [|? ? (s & Rs) R2]; subst.
    unfold gradients2 in *. cbn [combine map fst snd]. apply Forall2_cons; [|exact (IH S2 R2)].
    destruct (gradient_close E phi G G' S1 (proj1 HE) HN) as [C Ps]. pose proof Rs as Rs0.
    destruct Rs as (N & Hs & (g & Hg & Hd & HE') & _). destruct (spectral_norm_2_exists (gradient2 G G')) as (t & Nt).
    assert (P190 : 0 < / 2 ^ 190) by (apply Rinv_0_lt_compat, pow_lt; lra). assert (P : 0 < s) by lra.
    assert (P0 : 0 < s * side2 G) by (apply Rmult_lt_0_compat; assumption).
    assert (Dd : 0 <= 2 * E / (s * side2 G) /\ 2 ^ 7 * (2 * E / (s * side2 G)) <= g).
    { split; [apply Rmult_le_pos; [lra|left; apply Rinv_0_lt_compat; exact P0]|].
      apply Rmult_le_reg_r with (s * side2 G); [exact P0|].
      replace (2 ^ 7 * (2 * E / (s * side2 G)) * (s * side2 G)) with (2 ^ 8 * E) by (cbn [pow]; field; lra). exact HE'. }
    assert (Dd' : 0 <= 2 * E / (s * side2 G) <= / 2 ^ 7).
    { split; [apply Dd|]. apply Rmult_le_reg_l with (2 ^ 7); [apply pow_lt; lra|]. rewrite Rinv_r by (apply pow_nonzero; lra). lra. }
    assert (C' : close22 (2 * E / (s * side2 G) * s) (gradient2 G G') (gradient2 G (image2 phi G))).
    { replace (2 * E / (s * side2 G) * s) with (2 * E / side2 G) by (field; lra). exact C. }
    destruct (gap_perturbed _ g _ _ _ _ C' (proj1 Dd) (proj2 Dd) (proj2 Hg) N Nt P Hd) as [G1 G2].
    exists s, t, (2 * E / (s * side2 G)). split; [exact Rs0|]. split; [exact Nt|]. split; [exact Dd'|]. split; [reflexivity|].
    split; [exact G1|]. split; [exact (scaled_perturbed _ _ _ _ _ C' Dd' N Nt Hs G1)|].
    apply Rle_trans with (1 := G2). apply Rmult_le_compat_r; [apply Rmult_le_pos; apply Rle_0_sqr|].
    assert (/ 2 ^ 21 = / 2 ^ 20 / 2) by (change (2 ^ 21) with (2 * 2 ^ 20); rewrite Rinv_mult; lra). lra. }
  destruct (ftle_F lnF gs gs' Gs Gs' p T tau Hln HT Ho Hp Hl HG HG' HS) as (Fs & vs & E1 & E2 & E3).
  { clear - HN HR HE. revert HR. induction HN as [|G G' Gs Gs' (NL & NR & NT & NB) _ IH]; intro HR; [constructor|].
    inversion HR as [|? ? (s & _ & _ & _ & Bd) R2]; subst. constructor; [|exact (IH R2)]. rewrite Forall_forall in Bd.
    apply near_row2 in NL, NR, NT, NB.
    assert (W : forall a b, Rabs (a - b) <= E -> Rabs b <= 2 ^ 199 -> Rabs a <= 2 ^ 200).
    { intros a b Hab Hb. replace a with (b + (a - b)) by ring. eapply Rle_trans; [apply Rabs_triang|]. change (2 ^ 200) with (2 * 2 ^ 199). lra. }
    pose proof (Bd (g_left G) ltac:(cbn; tauto)) as BL. pose proof (Bd (g_right G) ltac:(cbn; tauto)) as BR.
    pose proof (Bd (g_top G) ltac:(cbn; tauto)) as BT. pose proof (Bd (g_bottom G) ltac:(cbn; tauto)) as BB.
    unfold bounded2, corners2. repeat (apply Forall_cons; [split; (eapply W; [|]); intuition eassumption|]). constructor. }
  { clear - K. induction K as [|Q G Qs Gs (s & t & d & _ & Nt & _ & _ & _ & W & D) _ IH]; constructor; [|exact IH].
    split; [exact W|]. exists t. split; assumption. }
  exists Fs, vs. split; [exact E1|]. split; [exact E2|]. clear E1 E2.
  clear HG HG' HS HN HR. set (Qs := gradients2 Gs Gs') in *. clearbody Qs. revert vs E3. induction K as [|Q G Qs Gs (s & t & d & Rs & Nt & Dd & -> & D & W & _) K IH]; intros vs E3; inversion E3; subst; constructor; [|apply IH; assumption].
  match goal with X : exists _ _, _ |- _ => destruct X as (t' & r & Ht' & Rr & Er) end.
  rewrite (spectral_norm_2_unique _ _ _ Ht' Nt) in Er. exists s. split; [exact Rs|]. exists r. split; [exact Rr|].
  destruct Rs as (_ & Hs & _).
  replace (12 * E / (s * side2 G)) with (6 * (2 * E / (s * side2 G))) by (unfold Rdiv; ring).
  apply (ftle_level s t r tau); assumption.
Qed.

(* ---- whole runs ---- *)
Lemma stand2_row x X : stand2 x X <-> stands (row2 x) (row2 X).
Proof.
  destruct x as [a b], X as [A B]. split.
  - intros [H1 H2]. apply Forall2_cons; [exact H1|]. apply Forall2_cons; [exact H2|]. apply Forall2_nil.
  - intro H. inversion H as [|? ? ? ? H1 H2]; subst. inversion H2 as [|? ? ? ? H3 H4]; subst. split; assumption.
Qed.

Lemma row2_of (l : list R) : length l = 2%nat -> exists q, l = row2 q.
Proof. destruct l as [|a [|b [|]]]; try discriminate. intros _. exists (a, b). reflexivity. Qed.

Section Run.
  Context (lnF : PrimFloat.float -> PrimFloat.float) {S P W : Type}.
  Variable intF : S -> mat PrimFloat.float -> S * res (mat PrimFloat.float).
  Variable eigvals : m33 PrimFloat.float -> res (PrimFloat.float * PrimFloat.float * PrimFloat.float).
  Variable mems : nat -> memory (T := PrimFloat.float).
  Variable write : W -> string -> list (xval PrimFloat.float) -> mat PrimFloat.float -> W * res unit.
  Variable IF : (list PrimFloat.float -> list PrimFloat.float) -> S -> Prop.
  Hypothesis HIF : samples_field intF IF.

  Lemma run_F2 : forall m B B0 M delta L n h hF f v, accurate_log lnF -> tame m B B0 M delta L n h -> represents hF h ->
    (forall k, (k < n)%nat -> evaluates 2 B delta (f k) (v k) /\ speed 2 B M (v k) /\ lipschitz_field 2 L (fun _ => v k)) ->
    (forall k x, length x = 2%nat -> length (f k x) = 2%nat) ->
    forall gs Gs, Forall2 seated2 gs Gs -> Forall spaced2 Gs -> Forall (within2 B0) Gs ->
    forall phi E0 E, 0 <= E0 -> E = rounding_bound n h delta B L + E0 -> E <= 2 ^ 199 ->
    (forall G x, In G Gs -> In x (corners2 G) -> near E0 (path Rops m (steps v h n) (row2 x)) (row2 (phi x))) ->
    Forall (fun G => exists s, resolved2 E phi G s) Gs ->
    forall (sv : solver PrimFloat.float S P) (w : world PrimFloat.float S P W) w0 id,
    presents_fields IF (s_source sv) f -> IF w0 (w_interp w) ->
    w_integrator w = fresh m -> s_writer sv = false -> src_id (s_source sv) = Ok id ->
    src_particles (s_source sv) (w_source w) = mk_particles (Fops lnF) (layout2 gs) ->
    src_steps (s_source sv) = n -> src_timestep (s_source sv) = hF ->
    exists xs, snd (run (Fops lnF) intF eigvals mems write sv w) = Ok (Some (map XVal xs)) /\
      Forall2 (fun G x => exists s, spectral_norm_2 (gradient2 G (image2 phi G)) s /\ ftle_within E (side2 G) s ((INR n - 1) * Rabs h) x) Gs xs.
  Proof.
    intros m B B0 M delta L n h hF f v Hln (T1 & T2 & T3 & T4 & T5 & T6 & T7 & T8 & T9 & T10 & T11) Rh Hf Hd gs Gs HG HS HW
      phi E0 E HE0 EE HE Hphi HR sv w w0 id HP HI Hm Hw Eid Ep En Eh.
    destruct (as_map2 (path (Fops lnF) m (run_fields (s_source sv) f))) as (psi & Hpsi).
    { apply path_len. apply run_fields_dim. exact Hd. }
    rewrite mk_particles_2 in Ep.
    rewrite (run_moved2 (Fops lnF) intF eigvals mems write IF HIF sv f m w gs id w0 psi HP HI Hm Eid Ep Hw Hpsi).
    assert (ES : run_fields (s_source sv) f = steps f hF n) by (unfold run_fields, steps; rewrite En, Eh; reflexivity).
    rewrite ES in Hpsi.
    assert (RB : 0 <= rounding_bound n h delta B L).
    { unfold rounding_bound. apply Rmult_le_pos; [|left; apply exp_pos]. apply Rmult_le_pos; [apply pos_INR|].
      assert (0 < 2 ^ 50) by (apply pow_lt; lra). assert (0 < / 2 ^ 100) by (apply Rinv_0_lt_compat, pow_lt; lra).
      assert (0 <= B / 2 ^ 50) by (apply Rmult_le_pos; [lra|left; apply Rinv_0_lt_compat; assumption]).
      assert (0 <= 2 * Rabs h * delta) by (apply Rmult_le_pos; [pose proof (Rabs_pos h); lra|exact T3]). lra. }
    destruct (images_F psi phi E (fun X => exists G, In G Gs /\ In X (corners2 G) /\ sized B0 (row2 X))) with (gs := gs) (Gs := Gs)
      as (Gs' & K1 & K2); [|exact HG| |].
    { intros x X Sx (G & HG1 & HX & HB). apply stand2_row in Sx.
      destruct (point_rounds lnF m 2 B B0 M delta L n h hF f v T1 T2 T3 T4 T5 T6 T8 T10 T11 Rh Hf (row2 x) (row2 X)) as (Y & SY & NY);
        [destruct X; reflexivity|exact Sx|exact HB|].
      pose proof (near_trans _ _ _ _ _ NY (Hphi G X HG1 HX)) as NN. rewrite Hpsi in SY.
      destruct (row2_of Y) as (q & ->). { destruct NN as [-> _]. destruct (phi X). reflexivity. }
      exists q. split; [apply stand2_row; exact SY|]. rewrite EE. exact NN. }
    { apply Forall_forall. intros G HG1. rewrite Forall_forall in HW. pose proof (HW G HG1) as WG. unfold within2 in WG.
      apply Forall_forall. intros x Hx. rewrite Forall_forall in WG. exists G. split; [exact HG1|]. split; [exact Hx|exact (WG x Hx)]. }
    destruct (period_F lnF n h hF T7 T8 Rh T9) as (tau & Rt & Ot & Pt & Et).
    assert (PT : 0 < (INR n - 1) * Rabs h) by (assert (0 < / 2 ^ 199) by (apply Rinv_0_lt_compat, pow_lt; lra); lra).
    destruct (seeds_F lnF E phi _ tau h n gs (map (image2 psi) gs) Gs Gs' (mk2 (Fops lnF) gs) Hln Rt Ot Pt Et PT) as (Fs & xs & E1 & E2 & E3);
      try assumption; [lra|apply mk_particles_2|apply map_length|].
    exists xs. split; [|eapply Forall2_imp; [|exact E3]; intros G x (s & Rs & Hx); exists s; split; [apply Rs|exact Hx]]. rewrite compute_ftle_2, <- jac2_moved. unfold moved2. rewrite E1. cbn [bind].
    rewrite En, Eh, E2. reflexivity.
  Qed.

  Lemma truncation_bounds m v L K J V n h t0 y x : lipschitz_field 2 L v -> 0 <= L -> 0 <= K -> 0 <= J -> (m = MRK4 -> Rabs h * L <= 1) ->
    y t0 = x -> trajectory 2 v t0 (t0 + INR n * h) y -> regular m v t0 (t0 + INR n * h) K J V y ->
    near (truncation m n h L K J V) (path Rops m (snapshots v t0 h n) x) (y (t0 + INR n * h)).
  Proof.
    intros Hv HL HK HJ Hz Hx Hy [Hr Hm]. destruct m; cbn [truncation].
    - eapply euler_order; try eassumption. symmetry; exact Hx.
    - destruct Hm as (acc & Ha & Hj). eapply ab2_order; try eassumption. symmetry; exact Hx.
    - eapply rk4_first_order; try eassumption; [apply Hz; reflexivity|symmetry; exact Hx].
  Qed.

  Lemma run_flow_F2 : forall m B B0 M delta L n h hF f v t0, accurate_log lnF -> tame m B B0 M delta L n h -> represents hF h ->
    lipschitz_field 2 L v ->
    (forall k, (k < n)%nat -> evaluates 2 B delta (f k) (v (t0 + INR k * h)) /\ speed 2 B M (v (t0 + INR k * h))) ->
    (forall k x, length x = 2%nat -> length (f k x) = 2%nat) ->
    forall gs Gs, Forall2 seated2 gs Gs -> Forall spaced2 Gs -> Forall (within2 B0) Gs ->
    forall phi K J V E, 0 <= K -> 0 <= J -> 0 <= V -> E = rounding_bound n h delta B L + truncation m n h L K J V -> E <= 2 ^ 199 ->
    (forall G x, In G Gs -> In x (corners2 G) ->
       flow_along (regular m v t0 (t0 + INR n * h) K J V) v t0 (t0 + INR n * h) phi x) ->
    Forall (fun G => exists s, resolved2 E phi G s) Gs ->
    forall (sv : solver PrimFloat.float S P) (w : world PrimFloat.float S P W) w0 id,
    presents_fields IF (s_source sv) f -> IF w0 (w_interp w) ->
    w_integrator w = fresh m -> s_writer sv = false -> src_id (s_source sv) = Ok id ->
    src_particles (s_source sv) (w_source w) = mk_particles (Fops lnF) (layout2 gs) ->
    src_steps (s_source sv) = n -> src_timestep (s_source sv) = hF ->
    exists xs, snd (run (Fops lnF) intF eigvals mems write sv w) = Ok (Some (map XVal xs)) /\
      Forall2 (fun G x => exists s, spectral_norm_2 (gradient2 G (image2 phi G)) s /\ ftle_within E (side2 G) s ((INR n - 1) * Rabs h) x) Gs xs.
  Proof.
    intros m B B0 M delta L n h hF f v t0 Hln Ht Rh HL Hf Hd gs Gs HG HS HW phi K J V E HK HJ HV EE HE Hphi HR.
    pose proof Ht as (_ & _ & _ & L0 & _ & _ & _ & _ & _ & _ & T11).
    apply (run_F2 m B B0 M delta L n h hF f (fun k => v (t0 + INR k * h))) with (E0 := truncation m n h L K J V); try assumption.
    - intros k Hk. destruct (Hf k Hk) as [A1 A2]. split; [exact A1|]. split; [exact A2|]. 
      destruct HL as [K1 K2]. split; [intro; apply K1|intro; apply K2].
    - pose proof (Rabs_pos h). pose proof (pos_INR n). destruct m; cbn [truncation].
      + apply Rmult_le_pos; [assumption|]. apply Rmult_le_pos; [|left; apply exp_pos]. apply Rmult_le_pos; [|exact HK]. apply Rmult_le_pos; assumption.
      + apply Rmult_le_pos; [apply Rle_0_sqr|]. apply Rmult_le_pos; [|left; apply exp_pos].
        assert (0 <= 3 / 2 * J * (INR n * Rabs h)) by (apply Rmult_le_pos; [lra|apply Rmult_le_pos; assumption]). lra.
      + apply Rmult_le_pos; [assumption|]. apply Rmult_le_pos; [|left; apply exp_pos]. apply Rmult_le_pos; [apply Rmult_le_pos; assumption|].
        assert (0 <= L * V) by (apply Rmult_le_pos; assumption). lra.
    - intros G x HG1 Hx. destruct (Hphi G x HG1 Hx) as (y & Y0 & Yt & Y1 & Yr). rewrite <- Y1.
      exact (truncation_bounds m v L K J V n h t0 y (row2 x) HL L0 HK HJ T11 Y0 Yt Yr).
  Qed.

  (** In exact arithmetic the images are those of the method itself. *)
  Lemma run_exact_F2 : forall m B B0 M delta L n h hF f v, accurate_log lnF -> tame m B B0 M delta L n h -> represents hF h ->
    (forall k, (k < n)%nat -> evaluates 2 B delta (f k) (v k) /\ speed 2 B M (v k) /\ lipschitz_field 2 L (fun _ => v k)) ->
    (forall k x, length x = 2%nat -> length (f k x) = 2%nat) ->
    forall gs Gs, Forall2 seated2 gs Gs -> Forall spaced2 Gs -> Forall (within2 B0) Gs ->
    forall phi, (forall G x, In G Gs -> In x (corners2 G) -> path Rops m (steps v h n) (row2 x) = row2 (phi x)) ->
    forall E, E = rounding_bound n h delta B L -> E <= 2 ^ 199 -> Forall (fun G => exists s, resolved2 E phi G s) Gs ->
    forall (sv : solver PrimFloat.float S P) (w : world PrimFloat.float S P W) w0 id,
    presents_fields IF (s_source sv) f -> IF w0 (w_interp w) ->
    w_integrator w = fresh m -> s_writer sv = false -> src_id (s_source sv) = Ok id ->
    src_particles (s_source sv) (w_source w) = mk_particles (Fops lnF) (layout2 gs) ->
    src_steps (s_source sv) = n -> src_timestep (s_source sv) = hF ->
    exists xs, snd (run (Fops lnF) intF eigvals mems write sv w) = Ok (Some (map XVal xs)) /\
      Forall2 (fun G x => exists s, spectral_norm_2 (gradient2 G (image2 phi G)) s /\ ftle_within E (side2 G) s ((INR n - 1) * Rabs h) x) Gs xs.
  Proof.
    intros m B B0 M delta L n h hF f v Hln Ht Rh Hf Hd gs Gs HG HS HW phi Hphi E EE HE HR.
    apply (run_F2 m B B0 M delta L n h hF f v) with (E0 := 0); try assumption; [lra|lra|].
    intros G x HG1 Hx. rewrite (Hphi G x HG1 Hx). apply near_refl.
  Qed.
End Run.
