(** The FTLE of a whole 3D run in binary64. *)
From Coq Require Import String Reals Lia Lra Psatz Floats.
From Flocq Require Import Core BinarySingleNaN PrimFloat.
From Verif Require Import Base Num Particles Jacobian Ftle Integrate DataSource Solver SpecFtle SpecSeeds SpecIntegrate SpecSolver SpecOrder
  SpecFloat64 SpecAccuracy SpecFloatGrid SpecConverge SpecFloatJac SpecRounding SpecFloatRun SpecEigen SpecFloatRun3 ParticleFacts JacobianFacts FtleFacts3 BatchFloat SolverFacts SolverField
  OrderFacts OrderAB2 OrderRK4 OrderLinear ConvergeFacts ConvergeMain FloatArith FloatGrid FloatKernel FloatAxis FtleAccuracyMain FloatJac FloatPath FloatRuns FloatFtleRun FloatEigen.
Local Open Scope R_scope.

Lemma entries_rounds F Q s : matrix_rounds_3 F Q -> Forall (fun x => Rabs x <= s) (entries3 Q) -> / 2 ^ 199 <= s ->
  exists J, stands_for3 F J /\ close33 (/ 2 ^ 49 * s) J Q /\
    Forall2 (fun q r => Rabs (r - q) <= / 2 ^ 50 * Rabs q + / 2 ^ 1074) (entries3 Q) (entries3 J).
Proof.
  intros ((H00 & H01 & H02) & (H10 & H11 & H12) & (H20 & H21 & H22)) HQ B.
  unfold entries3 in HQ. repeat match goal with H : Forall _ (_ :: _) |- _ => apply Forall_cons_iff in H; destruct H end.
  assert (K : forall x q, rounds_to x q -> Rabs q <= s -> exists r, represents x r /\ Rabs (r - q) <= / 2 ^ 49 * s /\ Rabs (r - q) <= / 2 ^ 50 * Rabs q + / 2 ^ 1074).
  { intros x q Hx Hq. destruct (rounds_near x q s Hx Hq B) as (r & Rr & Er). destruct Hx as (r' & Rr' & Er').
    rewrite (rep_unique _ _ _ Rr' Rr) in Er'. exists r. auto. }
  destruct (K _ _ H00) as (r00 & R00 & E00 & D00); [assumption|]. destruct (K _ _ H01) as (r01 & R01 & E01 & D01); [assumption|].
  destruct (K _ _ H02) as (r02 & R02 & E02 & D02); [assumption|]. destruct (K _ _ H10) as (r10 & R10 & E10 & D10); [assumption|].
  destruct (K _ _ H11) as (r11 & R11 & E11 & D11); [assumption|]. destruct (K _ _ H12) as (r12 & R12 & E12 & D12); [assumption|].
  destruct (K _ _ H20) as (r20 & R20 & E20 & D20); [assumption|]. destruct (K _ _ H21) as (r21 & R21 & E21 & D21); [assumption|].
  destruct (K _ _ H22) as (r22 & R22 & E22 & D22); [assumption|].
  exists (M33 r00 r01 r02 r10 r11 r12 r20 r21 r22). split; [|split].
  - exact (conj (conj R00 (conj R01 R02)) (conj (conj R10 (conj R11 R12)) (conj R20 (conj R21 R22)))).
  - exact (conj (conj E00 (conj E01 E02)) (conj (conj E10 (conj E11 E12)) (conj E20 (conj E21 E22)))).
  - unfold entries3. cbn [b00 b01 b02 b10 b11 b12 b20 b21 b22].
    do 9 (apply Forall2_cons; [assumption|]). constructor.
Qed.

Lemma jac_value3 F Q s : matrix_rounds_3 F Q -> well_scaled3 Q -> spectral_norm_3 Q s ->
  exists J, stands_for3 F J /\ moderate3 J /\ close33 (/ 2 ^ 49 * s) J Q /\ 0 < s.
Proof.
  intros HF [HU HL] Hs. destruct (entry_le_norm3 Q s Hs) as [_ HQ].
  assert (B : / 2 ^ 199 <= s).
  { apply Exists_exists in HL. destruct HL as (x & Hx & Bx). rewrite Forall_forall in HQ. eapply Rle_trans; [exact Bx|apply HQ, Hx]. }
  assert (Q0 : 0 < / 2 ^ 199) by (apply Rinv_0_lt_compat, pow_lt; lra).
  destruct (entries_rounds F Q s HF HQ B) as (J & J1 & J2 & J3). exists J. split; [exact J1|]. split; [|split; [exact J2|lra]].
  assert (T : 2 ^ 200 = 2 * 2 ^ 199) by (change 200%nat with (S 199); reflexivity).
  assert (T' : / 2 ^ 200 = / 2 * / 2 ^ 199) by (rewrite T; apply Rinv_mult).
  assert (T1 : / 2 ^ 1074 <= / 4 * / 2 ^ 199).
  { replace (/ 4) with (bpow radix2 (-2)) by (cbn; lra). rewrite !pow_bpow, <- !bpow_opp, <- bpow_plus. apply bpow_le. lia. }
  assert (T2 : forall q, / 2 ^ 50 * Rabs q <= / 4 * Rabs q).
  { intro q. apply Rmult_le_compat_r; [apply Rabs_pos|]. rewrite pow_bpow. change (bpow radix2 (Z.of_nat 50)) with 1125899906842624. lra. }
  assert (One : / 2 ^ 199 <= 2 ^ 199).
  { rewrite pow_bpow, <- bpow_opp. apply bpow_le. lia. }
  split.
  - clear - HU J3 T T1 T2 One. induction J3 as [|q r l l' H _ IH]; [constructor|]. inversion HU as [|? ? U1 U2]; subst.
    constructor; [|exact (IH U2)]. pose proof (T2 q). replace r with (q + (r - q)) by ring. eapply Rle_trans; [apply Rabs_triang|]. lra.
  - clear - HL J3 T' T1 T2. induction J3 as [|q r l l' H _ IH]; [inversion HL|]. inversion HL as [? ? U1|? ? U1]; subst; [left|right; exact (IH U1)].
    pose proof (T2 q). pose proof (Rabs_triang_inv q (q - r)) as Tr. replace (q - (q - r)) with r in Tr by ring.
    rewrite (Rabs_minus_sym q r) in Tr. lra.
Qed.

Lemma ftle_F3 lnF eigvals gs gs' Gs Gs' p T tau : accurate_log lnF -> accurate_eigvals eigvals -> represents T tau -> ordinary tau ->
  mk_particles (Fops lnF) (layout3 gs) = Ok p -> length gs' = length gs ->
  Forall2 seated3 gs Gs -> Forall2 seated3 gs' Gs' -> Forall spaced3 Gs -> Forall bounded3 Gs' ->
  Forall well_scaled3 (gradients3 Gs Gs') ->
  exists Fs vs, compute_flow_map_jacobian_3x3 (Fops lnF) (set_positions p (layout3 gs')) = Ok Fs /\
    compute_ftle_3x3 (Fops lnF) eigvals Fs T = Ok (map XVal vs) /\
    Forall2 (fun Q v => exists s r, spectral_norm_3 Q s /\ represents v r /\ Rabs (r - ln s / tau) <= / 2 ^ 35 / Rabs tau)
      (gradients3 Gs Gs') vs.
Proof.
  intros Hln He HT Ht Hp Hl H H' HQ HQ' HG.
  destruct (jacobian_F3 lnF gs gs' Gs Gs' p Hp Hl H H' HQ HQ') as (Fs & E & HF). exists Fs.
  set (Qs := gradients3 Gs Gs') in *. clearbody Qs. clear H H' HQ HQ' Hp.
  assert (K : exists Js, Forall2 stands_for3 Fs Js /\ Forall moderate3 Js /\
     Forall2 (fun Q J => exists s t, spectral_norm_3 Q s /\ spectral_norm_3 J t /\ 0 < s /\ Rabs (t - s) <= / 2 ^ 47 * s) Qs Js).
  { clear E. revert HG. induction HF as [|F Q Fs Qs HFQ HF IH]; intro HG.
    - exists []. repeat split; constructor.
    - inversion HG as [|? ? W HG']; subst. destruct (IH HG') as (Js & K1 & K2 & K3).
      destruct (spectral_norm_3_exists Q) as (s & Hs). destruct (jac_value3 F Q s HFQ W Hs) as (J & J1 & J2 & J3 & J4).
      destruct (spectral_norm_3_exists J) as (t & Htn). pose proof (norm_close_3 _ _ _ _ _ J3 Htn Hs) as D. rewrite Rabs_minus_sym in D.
      exists (J :: Js). repeat split; constructor; try assumption. exists s, t. split; [exact Hs|]. split; [exact Htn|]. split; [exact J4|].
      apply Rle_trans with (1 := D). rewrite !pow_bpow. change (bpow radix2 (Z.of_nat 49)) with 562949953421312.
      change (bpow radix2 (Z.of_nat 47)) with 140737488355328. lra. }
  destruct K as (Js & K1 & K2 & K3).
  destruct (accurate_values3 lnF eigvals Fs Js T tau Hln He HT Ht K1 K2) as (vs & Ev & Hv).
  exists vs. split; [exact E|]. split; [exact Ev|]. clear - K3 Hv Ht.
  assert (P : 0 < Rabs tau).
  { destruct Ht as [Ht _]. eapply Rlt_le_trans; [|exact Ht]. apply Rinv_0_lt_compat, pow_lt. lra. }
  revert vs Hv. induction K3 as [|Q J Qs Js (s & t & A & B & C & D) K3 IH]; intros vs Hv; inversion Hv; subst; constructor; [|apply IH; assumption].
  match goal with X : exists _ _, _ |- _ => destruct X as (t' & r & Ht' & Rr & Er) end.
  rewrite (spectral_norm_3_unique _ _ _ Ht' B) in Er. exists s, r. split; [exact A|]. split; [exact Rr|].
  destruct (ln_near t s (/ 2 ^ 47) C) as [_ N]; [rewrite pow_bpow; change (bpow radix2 (Z.of_nat 47)) with 140737488355328; lra|exact D|].
  replace (r - ln s / tau) with ((r - ln t / tau) + (ln t - ln s) / tau) by (field; intro X; rewrite X, Rabs_R0 in P; lra).
  eapply Rle_trans; [apply Rabs_triang|].
  assert (X : Rabs ((ln t - ln s) / tau) <= / 2 ^ 36 / Rabs tau).
  { unfold Rdiv. rewrite Rabs_mult, Rabs_inv. apply Rmult_le_compat_r; [left; apply Rinv_0_lt_compat, P|].
    revert N. rewrite !pow_bpow. change (bpow radix2 (Z.of_nat 47)) with 140737488355328. change (bpow radix2 (Z.of_nat 36)) with 68719476736. lra. }
  replace (/ 2 ^ 35 / Rabs tau) with (/ 2 ^ 36 / Rabs tau + / 2 ^ 36 / Rabs tau); [lra|].
  rewrite !pow_bpow. change (bpow radix2 (Z.of_nat 36)) with 68719476736. change (bpow radix2 (Z.of_nat 35)) with 34359738368. field. lra.
Qed.

Lemma scaled_perturbed3 d Q s J t : close33 (d * s) J Q -> 0 <= d <= / 2 ^ 5 -> spectral_norm_3 Q s -> spectral_norm_3 J t ->
  / 2 ^ 190 <= s <= 2 ^ 190 -> Rabs (t - s) <= 3 * d * s -> well_scaled3 J.
Proof.
  intros Hc Hd HQ HJ [HL HU] Ht. destruct (entry_le_norm3 Q s HQ) as [_ SQ].
  assert (P190 : 0 < / 2 ^ 190) by (apply Rinv_0_lt_compat, pow_lt; lra).
  assert (D : d * s <= / 8 * s).
  { apply Rmult_le_compat_r; [lra|]. apply Rle_trans with (1 := proj2 Hd). replace (/ 8) with (/ 2 ^ 3) by (cbn; lra). apply inv_two_le. lia. }
  assert (U : 2 * s <= 2 ^ 199).
  { apply Rle_trans with (2 ^ 191); [change (2 ^ 191) with (2 * 2 ^ 190); lra|apply two_le; lia]. }
  assert (E : forall x y, Rabs (x - y) <= d * s -> Rabs y <= s -> Rabs x <= 2 ^ 199).
  { intros x y Hxy Hy. replace x with (y + (x - y)) by ring. eapply Rle_trans; [apply Rabs_triang|]. lra. }
  split.
  - destruct Hc as ((C00 & C01 & C02) & (C10 & C11 & C12) & (C20 & C21 & C22)).
    unfold entries3 in *. repeat match goal with H : Forall _ (_ :: _) |- _ => apply Forall_cons_iff in H; destruct H end.
    do 9 (apply Forall_cons; [eapply E; eassumption|]). constructor.
  - destruct (Exists_dec (fun x => / 2 ^ 199 <= Rabs x) (entries3 J)) as [X|X]; [intro x; apply Rle_dec|exact X|]. exfalso.
    assert (N : t <= 3 * / 2 ^ 199).
    { apply (norm3_le_entries J t _ HJ). apply Forall_forall. intros x Hx.
      destruct (Rle_or_lt (/ 2 ^ 199) (Rabs x)) as [Y|Y]; [|left; exact Y]. elim X. apply Exists_exists. exists x. split; assumption. }
    assert (T8 : 8 * / 2 ^ 199 <= / 2 ^ 190).
    { replace 8 with (2 ^ 3) by (cbn; lra). replace (2 ^ 199) with (2 ^ 3 * 2 ^ 196) by (rewrite <- pow_add; reflexivity).
      rewrite Rinv_mult, <- Rmult_assoc, Rinv_r, Rmult_1_l by (apply pow_nonzero; lra). apply inv_two_le. lia. }
    apply Rabs_le_inv in Ht. assert (3 * d * s <= / 2 * s) by (replace (3 * d * s) with (3 * (d * s)) by ring; lra). lra.
Qed.

Lemma ftle_level3 s t r tau T d : / 2 ^ 190 <= s <= 2 ^ 190 -> 0 <= d <= / 2 ^ 5 -> Rabs (t - s) <= 3 * d * s ->
  0 < T -> 0 < tau -> Rabs (tau - T) <= / 2 ^ 51 * T -> Rabs (r - ln t / tau) <= / 2 ^ 35 / Rabs tau ->
  Rabs (r - ln s / T) <= (/ 2 ^ 34 + 6 * d) / T.
Proof.
  intros Hs Hd Ht HT Htau Hp Hr. assert (P190 : 0 < / 2 ^ 190) by (apply Rinv_0_lt_compat, pow_lt; lra).
  pose proof (ln_bounded s Hs) as Ls.
  revert Hd Hp Hr. rewrite !pow_bpow. change (bpow radix2 (Z.of_nat 5)) with 32.
  change (bpow radix2 (Z.of_nat 51)) with 2251799813685248. change (bpow radix2 (Z.of_nat 35)) with 34359738368.
  change (bpow radix2 (Z.of_nat 34)) with 17179869184. intros Hd Hp Hr.
  destruct (ln_near t s (3 * d)) as [Pt Hln]; [lra|lra|lra|].
  assert (Lts : Rabs (ln t - ln s) <= 4 * d) by (assert (2 * (3 * d) * (3 * d) <= d) by nra; lra).
  set (x := T / tau).
  assert (Hx : Rabs (x - 1) <= / 1125899906842624).
  { apply Rabs_le_inv in Hp. unfold x. replace (T / tau - 1) with ((T - tau) * / tau) by (field; lra).
    assert (Ht2 : T <= 2 * tau) by lra.
    assert (0 < / tau) by (apply Rinv_0_lt_compat; exact Htau).
    assert (T * / tau <= 2).
    { apply Rmult_le_reg_r with tau; [exact Htau|]. rewrite Rmult_assoc, Rinv_l by lra. lra. }
    apply Rabs_le. split; nra. }
  rewrite (Rabs_pos_eq tau) in Hr by lra.
  assert (EQ : r - ln s / T = ((r - ln t / tau) * tau * x + ln t * (x - 1) + (ln t - ln s)) / T).
  { unfold x. field. lra. }
  rewrite EQ. unfold Rdiv. rewrite Rabs_mult, (Rabs_pos_eq (/ T)) by (left; apply Rinv_0_lt_compat; exact HT).
  apply Rmult_le_compat_r; [left; apply Rinv_0_lt_compat; exact HT|].
  assert (A : Rabs ((r - ln t / tau) * tau) <= / 34359738368).
  { rewrite Rabs_mult, (Rabs_pos_eq tau) by lra. apply Rmult_le_reg_r with (/ tau); [apply Rinv_0_lt_compat; exact Htau|].
    rewrite Rmult_assoc, Rinv_r, Rmult_1_r by lra. exact Hr. }
  assert (Lt : Rabs (ln t) <= 202).
  { replace (ln t) with (ln s + (ln t - ln s)) by ring. eapply Rle_trans; [apply Rabs_triang|]. lra. }
  assert (AX : Rabs ((r - ln t / tau) * tau * x) <= / 34359738368 * (1 + / 1125899906842624)).
  { apply abs_mul_le; [exact A|]. apply Rabs_le_inv in Hx. apply Rabs_le. lra. }
  pose proof (abs_mul_le _ _ _ _ Lt Hx) as LX.
  eapply Rle_trans; [apply Rabs_triang|]. eapply Rle_trans; [apply Rplus_le_compat_r, Rabs_triang|]. lra.
Qed.

(* ---- the images of the seeds ---- *)
Definition moved_near3 (E : R) (phi : vec3 -> vec3) (G G' : group3 R) : Prop :=
  near E (row3 (h_left G')) (row3 (phi (h_left G))) /\ near E (row3 (h_right G')) (row3 (phi (h_right G))) /\
  near E (row3 (h_top G')) (row3 (phi (h_top G))) /\ near E (row3 (h_bottom G')) (row3 (phi (h_bottom G))) /\
  near E (row3 (h_front G')) (row3 (phi (h_front G))) /\ near E (row3 (h_back G')) (row3 (phi (h_back G))).

Lemma images_F3 (psi : PrimFloat.float * PrimFloat.float * PrimFloat.float -> PrimFloat.float * PrimFloat.float * PrimFloat.float) (phi : vec3 -> vec3) E (Z : vec3 -> Prop) :
  (forall x X, stand3 x X -> Z X -> exists Y, stand3 (psi x) Y /\ near E (row3 Y) (row3 (phi X))) ->
  forall gs Gs, Forall2 seated3 gs Gs -> Forall (fun G => Forall Z (corners3 G)) Gs ->
  exists Gs', Forall2 seated3 (map (image3 psi) gs) Gs' /\ Forall2 (moved_near3 E phi) Gs Gs'.
Proof.
  intros H gs Gs HG. induction HG as [|g G gs Gs (SL & SR & ST & SB & SF & SK) HG IH]; intro HZ.
  - exists []. split; constructor.
  - inversion HZ as [|? ? Z1 Z2]; subst. destruct (IH Z2) as (Gs' & K1 & K2). rewrite Forall_forall in Z1.
    destruct (H _ _ SL (Z1 (h_left G) ltac:(cbn; tauto))) as (YL & AL & NL).
    destruct (H _ _ SR (Z1 (h_right G) ltac:(cbn; tauto))) as (YR & AR & NR).
    destruct (H _ _ ST (Z1 (h_top G) ltac:(cbn; tauto))) as (YT & AT & NT).
    destruct (H _ _ SB (Z1 (h_bottom G) ltac:(cbn; tauto))) as (YB & AB & NB).
    destruct (H _ _ SF (Z1 (h_front G) ltac:(cbn; tauto))) as (YF & AF & NF).
    destruct (H _ _ SK (Z1 (h_back G) ltac:(cbn; tauto))) as (YK & AK & NK).
    exists (Group3 YL YR YT YB YF YK :: Gs'). split; cbn [map]; (apply Forall2_cons; [|assumption]).
    + exact (conj AL (conj AR (conj AT (conj AB (conj AF AK))))).
    + exact (conj NL (conj NR (conj NT (conj NB (conj NF NK))))).
Qed.

Lemma gradient_close3 E phi G G' : spaced3 G -> 0 <= E -> moved_near3 E phi G G' ->
  close33 (2 * E / side3 G) (gradient3 G G') (gradient3 G (image3 phi G)) /\ 0 < side3 G.
Proof.
  intros ([Sx _] & [Sy _] & [Sz _]) HE (NL & NR & NT & NB & NF & NK).
  apply near_row3 in NL, NR, NT, NB, NF, NK.
  destruct NL as (L0 & L1 & L2), NR as (R0 & R1 & R2), NT as (T0 & T1 & T2), NB as (B0 & B1 & B2), NF as (F0 & F1 & F2), NK as (K0 & K1 & K2).
  assert (P : 0 < / 2 ^ 200) by (apply Rinv_0_lt_compat, pow_lt; lra).
  unfold close33, gradient3, image3, side3. cbn [b00 b01 b02 b10 b11 b12 b20 b21 b22 h_left h_right h_top h_bottom h_front h_back].
  set (dx := v0 (h_right G) - v0 (h_left G)) in *. set (dy := v1 (h_top G) - v1 (h_bottom G)) in *. set (dz := v2 (h_front G) - v2 (h_back G)) in *.
  assert (Px : 0 < Rabs dx) by lra. assert (Py : 0 < Rabs dy) by lra. assert (Pz : 0 < Rabs dz) by lra.
  set (q := Rmin (Rmin (Rabs dx) (Rabs dy)) (Rabs dz)).
  assert (Ps : 0 < q) by (apply Rmin_glb_lt; [apply Rmin_glb_lt|]; assumption).
  assert (Nx : dx <> 0) by (intro X; rewrite X, Rabs_R0 in Px; lra).
  assert (Ny : dy <> 0) by (intro X; rewrite X, Rabs_R0 in Py; lra).
  assert (Nz : dz <> 0) by (intro X; rewrite X, Rabs_R0 in Pz; lra).
  assert (Q : forall z, 0 < z -> q <= z -> 2 * E / z <= 2 * E / q).
  { intros z Hz0 Hz. unfold Rdiv. apply Rmult_le_compat_l; [lra|]. apply Rinv_le_contravar; assumption. }
  pose proof (Q _ Px (Rle_trans _ _ _ (Rmin_l _ _) (Rmin_l _ _))) as Qx. pose proof (Q _ Py (Rle_trans _ _ _ (Rmin_l _ _) (Rmin_r _ _))) as Qy.
  pose proof (Q _ Pz (Rmin_r _ _)) as Qz.
  split; [|exact Ps].
  split; [split; [|split]|split; [split; [|split]|split; [|split]]]; (eapply Rle_trans; [apply quotient_close; eassumption|]); assumption.
Qed.

Lemma seeds_F3 lnF eigvals E phi T tau h n (gs gs' : list (group3 PrimFloat.float)) Gs Gs' p : accurate_log lnF -> accurate_eigvals eigvals ->
  represents T tau -> ordinary tau -> 0 < tau -> Rabs (tau - (INR n - 1) * Rabs h) <= / 2 ^ 51 * ((INR n - 1) * Rabs h) ->
  0 < (INR n - 1) * Rabs h -> 0 <= E <= 2 ^ 199 ->
  mk_particles (Fops lnF) (layout3 gs) = Ok p -> length gs' = length gs ->
  Forall2 seated3 gs Gs -> Forall2 seated3 gs' Gs' -> Forall spaced3 Gs -> Forall2 (moved_near3 E phi) Gs Gs' ->
  Forall (fun G => exists s, resolved3 E phi G s) Gs ->
  exists Fs vs, compute_flow_map_jacobian_3x3 (Fops lnF) (set_positions p (layout3 gs')) = Ok Fs /\
    compute_ftle_3x3 (Fops lnF) eigvals Fs T = Ok (map XVal vs) /\
    Forall2 (fun G x => exists s, resolved3 E phi G s /\ ftle_within3 E (side3 G) s ((INR n - 1) * Rabs h) x) Gs vs.
Proof.
  intros Hln He HT Ho Pt Htau PT HE Hp Hl HG HG' HS HN HR.
  assert (K : Forall2 (fun Q G => exists s t d, resolved3 E phi G s /\ spectral_norm_3 Q t /\ 0 <= d <= / 2 ^ 5 /\ d = 2 * E / (s * side3 G) /\
      Rabs (t - s) <= 3 * d * s /\ well_scaled3 Q) (gradients3 Gs Gs') Gs).
  { clear - HS HN HR HE. revert HS HR. induction HN as [|G G' Gs Gs' HN _ IH]; intros HS HR; [constructor|].
    inversion HS as [|? ? S1 S2]; subst. inversion HR as [|? ? (s & Rs) R2]; subst.
    unfold gradients3 in *. cbn [combine map fst snd]. apply Forall2_cons; [|exact (IH S2 R2)].
    destruct (gradient_close3 E phi G G' S1 (proj1 HE) HN) as [C Ps]. pose proof Rs as Rs0.
    destruct Rs as (N & Hs & HE' & _). destruct (spectral_norm_3_exists (gradient3 G G')) as (t & Nt).
    assert (P190 : 0 < / 2 ^ 190) by (apply Rinv_0_lt_compat, pow_lt; lra). assert (P : 0 < s) by lra.
    assert (P0 : 0 < s * side3 G) by (apply Rmult_lt_0_compat; assumption).
    assert (Dd' : 0 <= 2 * E / (s * side3 G) <= / 2 ^ 5).
    { split; [apply Rmult_le_pos; [lra|left; apply Rinv_0_lt_compat; exact P0]|].
      apply Rmult_le_reg_r with (2 ^ 5 * (s * side3 G)); [apply Rmult_lt_0_compat; [apply pow_lt; lra|exact P0]|].
      replace (2 * E / (s * side3 G) * (2 ^ 5 * (s * side3 G))) with (2 ^ 6 * E) by (cbn [pow]; field; lra).
      replace (/ 2 ^ 5 * (2 ^ 5 * (s * side3 G))) with (s * side3 G) by (cbn [pow]; field). exact HE'. }
    assert (C' : close33 (2 * E / (s * side3 G) * s) (gradient3 G G') (gradient3 G (image3 phi G))).
    { replace (2 * E / (s * side3 G) * s) with (2 * E / side3 G) by (field; lra). exact C. }
    pose proof (norm_close_3 _ _ _ _ _ C' Nt N) as G1. rewrite Rabs_minus_sym, <- Rmult_assoc in G1.
    exists s, t, (2 * E / (s * side3 G)). split; [exact Rs0|]. split; [exact Nt|]. split; [exact Dd'|]. split; [reflexivity|].
    split; [exact G1|exact (scaled_perturbed3 _ _ _ _ _ C' Dd' N Nt Hs G1)]. }
  destruct (ftle_F3 lnF eigvals gs gs' Gs Gs' p T tau Hln He HT Ho Hp Hl HG HG' HS) as (Fs & vs & E1 & E2 & E3).
  { clear - HN HR HE. revert HR. induction HN as [|G G' Gs Gs' (NL & NR & NT & NB & NF & NK) _ IH]; intro HR; [constructor|].
    inversion HR as [|? ? (s & _ & _ & _ & Bd) R2]; subst. constructor; [|exact (IH R2)]. rewrite Forall_forall in Bd.
    apply near_row3 in NL, NR, NT, NB, NF, NK.
    assert (W : forall a b, Rabs (a - b) <= E -> Rabs b <= 2 ^ 199 -> Rabs a <= 2 ^ 200).
    { intros a b Hab Hb. replace a with (b + (a - b)) by ring. eapply Rle_trans; [apply Rabs_triang|]. change (2 ^ 200) with (2 * 2 ^ 199). lra. }
    pose proof (Bd (h_left G) ltac:(cbn; tauto)) as BL. pose proof (Bd (h_right G) ltac:(cbn; tauto)) as BR.
    pose proof (Bd (h_top G) ltac:(cbn; tauto)) as BT. pose proof (Bd (h_bottom G) ltac:(cbn; tauto)) as BB.
    pose proof (Bd (h_front G) ltac:(cbn; tauto)) as BF. pose proof (Bd (h_back G) ltac:(cbn; tauto)) as BK.
    unfold bounded3, corners3. do 6 (apply Forall_cons; [split; [|split]; (eapply W; [|]); intuition eassumption|]). constructor. }
  { clear - K. induction K as [|Q G Qs Gs (s & t & d & _ & Nt & _ & _ & _ & W) _ IH]; constructor; [exact W|exact IH]. }
  exists Fs, vs. split; [exact E1|]. split; [exact E2|]. clear E1 E2.
  clear HG HG' HS HN HR. set (Qs := gradients3 Gs Gs') in *. clearbody Qs. revert vs E3. induction K as [|Q G Qs Gs (s & t & d & Rs & Nt & Dd & -> & D & W) K IH]; intros vs E3; inversion E3; subst; constructor; [|apply IH; assumption].
  match goal with X : exists _ _, _ |- _ => destruct X as (t' & r & Ht' & Rr & Er) end.
  rewrite (spectral_norm_3_unique _ _ _ Ht' Nt) in Er. exists s. split; [exact Rs|]. exists r. split; [exact Rr|].
  destruct Rs as (_ & Hs & _).
  replace (12 * E / (s * side3 G)) with (6 * (2 * E / (s * side3 G))) by (unfold Rdiv; ring).
  apply (ftle_level3 s t r tau); assumption.
Qed.

(* ---- whole runs ---- *)
Lemma stand3_row x X : stand3 x X <-> stands (row3 x) (row3 X).
Proof.
  destruct x as [[a b] c], X as [[A B] C]. split.
  - intros (H1 & H2 & H3). apply Forall2_cons; [exact H1|]. apply Forall2_cons; [exact H2|]. apply Forall2_cons; [exact H3|]. apply Forall2_nil.
  - intro H. inversion H as [|? ? ? ? H1 H2]; subst. inversion H2 as [|? ? ? ? H3 H4]; subst. inversion H4 as [|? ? ? ? H5 H6]; subst.
    exact (conj H1 (conj H3 H5)).
Qed.

Lemma row3_of (l : list R) : length l = 3%nat -> exists q, l = row3 q.
Proof. destruct l as [|a [|b [|c [|]]]]; try discriminate. intros _. exists (a, b, c). reflexivity. Qed.

Lemma truncation_pos m n h L K J V : 0 <= L -> 0 <= K -> 0 <= J -> 0 <= V -> 0 <= truncation m n h L K J V.
Proof.
  intros L0 HK HJ HV. pose proof (Rabs_pos h). pose proof (pos_INR n). destruct m; cbn [truncation].
  - apply Rmult_le_pos; [assumption|]. apply Rmult_le_pos; [|left; apply exp_pos]. apply Rmult_le_pos; [|exact HK]. apply Rmult_le_pos; assumption.
  - apply Rmult_le_pos; [apply Rle_0_sqr|]. apply Rmult_le_pos; [|left; apply exp_pos].
    assert (0 <= 3 / 2 * J * (INR n * Rabs h)) by (apply Rmult_le_pos; [lra|apply Rmult_le_pos; assumption]). lra.
  - apply Rmult_le_pos; [assumption|]. apply Rmult_le_pos; [|left; apply exp_pos]. apply Rmult_le_pos; [apply Rmult_le_pos; assumption|].
    assert (0 <= L * V) by (apply Rmult_le_pos; assumption). lra.
Qed.

Lemma truncation_bounds3 d m v L K J V n h t0 y x : lipschitz_field d L v -> 0 <= L -> 0 <= K -> 0 <= J -> (m = MRK4 -> Rabs h * L <= 1) ->
  y t0 = x -> trajectory d v t0 (t0 + INR n * h) y -> regular m v t0 (t0 + INR n * h) K J V y ->
  near (truncation m n h L K J V) (path Rops m (snapshots v t0 h n) x) (y (t0 + INR n * h)).
Proof.
  intros Hv HL HK HJ Hz Hx Hy [Hr Hm]. destruct m; cbn [truncation].
  - eapply euler_order; try eassumption. symmetry; exact Hx.
  - destruct Hm as (acc & Ha & Hj). eapply ab2_order; try eassumption. symmetry; exact Hx.
  - eapply rk4_first_order; try eassumption; [apply Hz; reflexivity|symmetry; exact Hx].
Qed.

Section Run3.
  Context (lnF : PrimFloat.float -> PrimFloat.float) {S P W : Type}.
  Variable intF : S -> mat PrimFloat.float -> S * res (mat PrimFloat.float).
  Variable eigvals : m33 PrimFloat.float -> res (PrimFloat.float * PrimFloat.float * PrimFloat.float).
  Variable mems : nat -> memory (T := PrimFloat.float).
  Variable write : W -> string -> list (xval PrimFloat.float) -> mat PrimFloat.float -> W * res unit.
  Variable IF : (list PrimFloat.float -> list PrimFloat.float) -> S -> Prop.
  Hypothesis HIF : samples_field intF IF.

  Lemma run_F3 : forall m B B0 M delta L n h hF f v, accurate_log lnF -> accurate_eigvals eigvals -> tame m B B0 M delta L n h -> represents hF h ->
    (forall k, (k < n)%nat -> evaluates 3 B delta (f k) (v k) /\ speed 3 B M (v k) /\ lipschitz_field 3 L (fun _ => v k)) ->
    (forall k x, length x = 3%nat -> length (f k x) = 3%nat) ->
    forall gs Gs, Forall2 seated3 gs Gs -> Forall spaced3 Gs -> Forall (within3 B0) Gs ->
    forall phi E0 E, 0 <= E0 -> E = rounding_bound n h delta B L + E0 -> E <= 2 ^ 199 ->
    (forall G x, In G Gs -> In x (corners3 G) -> near E0 (path Rops m (steps v h n) (row3 x)) (row3 (phi x))) ->
    Forall (fun G => exists s, resolved3 E phi G s) Gs ->
    forall (sv : solver PrimFloat.float S P) (w : world PrimFloat.float S P W) w0 id,
    presents_fields IF (s_source sv) f -> IF w0 (w_interp w) ->
    w_integrator w = fresh m -> s_writer sv = false -> src_id (s_source sv) = Ok id ->
    src_particles (s_source sv) (w_source w) = mk_particles (Fops lnF) (layout3 gs) ->
    src_steps (s_source sv) = n -> src_timestep (s_source sv) = hF ->
    exists xs, snd (run (Fops lnF) intF eigvals mems write sv w) = Ok (Some (map XVal xs)) /\
      Forall2 (fun G x => exists s, spectral_norm_3 (gradient3 G (image3 phi G)) s /\ ftle_within3 E (side3 G) s ((INR n - 1) * Rabs h) x) Gs xs.
  Proof.
    intros m B B0 M delta L n h hF f v Hln He (T1 & T2 & T3 & T4 & T5 & T6 & T7 & T8 & T9 & T10 & T11) Rh Hf Hd gs Gs HG HS HW
      phi E0 E HE0 EE HE Hphi HR sv w w0 id HP HI Hm Hw Eid Ep En Eh.
    destruct (as_map3 (path (Fops lnF) m (run_fields (s_source sv) f))) as (psi & Hpsi).
    { apply path_len. apply run_fields_dim. exact Hd. }
    rewrite mk_particles_3 in Ep.
    rewrite (run_moved3 (Fops lnF) intF eigvals mems write IF HIF sv f m w gs id w0 psi HP HI Hm Eid Ep Hw Hpsi).
    assert (ES : run_fields (s_source sv) f = steps f hF n) by (unfold run_fields, steps; rewrite En, Eh; reflexivity).
    rewrite ES in Hpsi.
    assert (RB : 0 <= rounding_bound n h delta B L).
    { unfold rounding_bound. apply Rmult_le_pos; [|left; apply exp_pos]. apply Rmult_le_pos; [apply pos_INR|].
      assert (0 < 2 ^ 50) by (apply pow_lt; lra). assert (0 < / 2 ^ 100) by (apply Rinv_0_lt_compat, pow_lt; lra).
      assert (0 <= B / 2 ^ 50) by (apply Rmult_le_pos; [lra|left; apply Rinv_0_lt_compat; assumption]).
      assert (0 <= 2 * Rabs h * delta) by (apply Rmult_le_pos; [pose proof (Rabs_pos h); lra|exact T3]). lra. }
    destruct (images_F3 psi phi E (fun X => exists G, In G Gs /\ In X (corners3 G) /\ sized B0 (row3 X))) with (gs := gs) (Gs := Gs)
      as (Gs' & K1 & K2); [|exact HG| |].
    { intros x X Sx (G & HG1 & HX & HB). apply stand3_row in Sx.
      destruct (point_rounds lnF m 3 B B0 M delta L n h hF f v T1 T2 T3 T4 T5 T6 T8 T10 T11 Rh Hf (row3 x) (row3 X)) as (Y & SY & NY);
        [destruct X as [[? ?] ?]; reflexivity|exact Sx|exact HB|].
      pose proof (near_trans _ _ _ _ _ NY (Hphi G X HG1 HX)) as NN. rewrite Hpsi in SY.
      destruct (row3_of Y) as (q & ->). { destruct NN as [-> _]. destruct (phi X) as [[? ?] ?]. reflexivity. }
      exists q. split; [apply stand3_row; exact SY|]. rewrite EE. exact NN. }
    { apply Forall_forall. intros G HG1. rewrite Forall_forall in HW. pose proof (HW G HG1) as WG. unfold within3 in WG.
      apply Forall_forall. intros x Hx. rewrite Forall_forall in WG. exists G. split; [exact HG1|]. split; [exact Hx|exact (WG x Hx)]. }
    destruct (period_F lnF n h hF T7 T8 Rh T9) as (tau & Rt & Ot & Pt & Et).
    assert (PT : 0 < (INR n - 1) * Rabs h) by (assert (0 < / 2 ^ 199) by (apply Rinv_0_lt_compat, pow_lt; lra); lra).
    destruct (seeds_F3 lnF eigvals E phi _ tau h n gs (map (image3 psi) gs) Gs Gs' (mk3 (Fops lnF) gs) Hln He Rt Ot Pt Et PT) as (Fs & xs & E1 & E2 & E3);
      try assumption; [lra|apply mk_particles_3|apply map_length|].
    exists xs. split; [|eapply Forall2_imp; [|exact E3]; intros G x (s & Rs & Hx); exists s; split; [apply Rs|exact Hx]]. rewrite compute_ftle_3, <- jac3_moved. unfold moved3. rewrite E1. cbn [bind].
    rewrite En, Eh, E2. reflexivity.
  Qed.

  Lemma run_flow_F3 : forall m B B0 M delta L n h hF f v t0, accurate_log lnF -> accurate_eigvals eigvals -> tame m B B0 M delta L n h -> represents hF h ->
    lipschitz_field 3 L v ->
    (forall k, (k < n)%nat -> evaluates 3 B delta (f k) (v (t0 + INR k * h)) /\ speed 3 B M (v (t0 + INR k * h))) ->
    (forall k x, length x = 3%nat -> length (f k x) = 3%nat) ->
    forall gs Gs, Forall2 seated3 gs Gs -> Forall spaced3 Gs -> Forall (within3 B0) Gs ->
    forall phi K J V E, 0 <= K -> 0 <= J -> 0 <= V -> E = rounding_bound n h delta B L + truncation m n h L K J V -> E <= 2 ^ 199 ->
    (forall G x, In G Gs -> In x (corners3 G) ->
       flow_along3 (regular m v t0 (t0 + INR n * h) K J V) v t0 (t0 + INR n * h) phi x) ->
    Forall (fun G => exists s, resolved3 E phi G s) Gs ->
    forall (sv : solver PrimFloat.float S P) (w : world PrimFloat.float S P W) w0 id,
    presents_fields IF (s_source sv) f -> IF w0 (w_interp w) ->
    w_integrator w = fresh m -> s_writer sv = false -> src_id (s_source sv) = Ok id ->
    src_particles (s_source sv) (w_source w) = mk_particles (Fops lnF) (layout3 gs) ->
    src_steps (s_source sv) = n -> src_timestep (s_source sv) = hF ->
    exists xs, snd (run (Fops lnF) intF eigvals mems write sv w) = Ok (Some (map XVal xs)) /\
      Forall2 (fun G x => exists s, spectral_norm_3 (gradient3 G (image3 phi G)) s /\ ftle_within3 E (side3 G) s ((INR n - 1) * Rabs h) x) Gs xs.
  Proof.
    intros m B B0 M delta L n h hF f v t0 Hln He Ht Rh HL Hf Hd gs Gs HG HS HW phi K J V E HK HJ HV EE HE Hphi HR.
    pose proof Ht as (_ & _ & _ & L0 & _ & _ & _ & _ & _ & _ & T11).
    apply (run_F3 m B B0 M delta L n h hF f (fun k => v (t0 + INR k * h))) with (E0 := truncation m n h L K J V); try assumption.
    - intros k Hk. destruct (Hf k Hk) as [A1 A2]. split; [exact A1|]. split; [exact A2|].
      destruct HL as [K1 K2]. split; [intro; apply K1|intro; apply K2].
    - apply truncation_pos; assumption.
    - intros G x HG1 Hx. destruct (Hphi G x HG1 Hx) as (y & Y0 & Yt & Y1 & Yr). rewrite <- Y1.
      exact (truncation_bounds3 3 m v L K J V n h t0 y (row3 x) HL L0 HK HJ T11 Y0 Yt Yr).
  Qed.

  (** In exact arithmetic the images are those of the method itself. *)
  Lemma run_exact_F3 : forall m B B0 M delta L n h hF f v, accurate_log lnF -> accurate_eigvals eigvals -> tame m B B0 M delta L n h -> represents hF h ->
    (forall k, (k < n)%nat -> evaluates 3 B delta (f k) (v k) /\ speed 3 B M (v k) /\ lipschitz_field 3 L (fun _ => v k)) ->
    (forall k x, length x = 3%nat -> length (f k x) = 3%nat) ->
    forall gs Gs, Forall2 seated3 gs Gs -> Forall spaced3 Gs -> Forall (within3 B0) Gs ->
    forall phi, (forall G x, In G Gs -> In x (corners3 G) -> path Rops m (steps v h n) (row3 x) = row3 (phi x)) ->
    forall E, E = rounding_bound n h delta B L -> E <= 2 ^ 199 -> Forall (fun G => exists s, resolved3 E phi G s) Gs ->
    forall (sv : solver PrimFloat.float S P) (w : world PrimFloat.float S P W) w0 id,
    presents_fields IF (s_source sv) f -> IF w0 (w_interp w) ->
    w_integrator w = fresh m -> s_writer sv = false -> src_id (s_source sv) = Ok id ->
    src_particles (s_source sv) (w_source w) = mk_particles (Fops lnF) (layout3 gs) ->
    src_steps (s_source sv) = n -> src_timestep (s_source sv) = hF ->
    exists xs, snd (run (Fops lnF) intF eigvals mems write sv w) = Ok (Some (map XVal xs)) /\
      Forall2 (fun G x => exists s, spectral_norm_3 (gradient3 G (image3 phi G)) s /\ ftle_within3 E (side3 G) s ((INR n - 1) * Rabs h) x) Gs xs.
  Proof.
    intros m B B0 M delta L n h hF f v Hln He Ht Rh Hf Hd gs Gs HG HS HW phi Hphi E EE HE HR.
    apply (run_F3 m B B0 M delta L n h hF f v) with (E0 := 0); try assumption; [lra|lra|].
    intros G x HG1 Hx. rewrite (Hphi G x HG1 Hx). apply near_refl.
  Qed.
End Run3.
