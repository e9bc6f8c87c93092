(** The flow-map Jacobian in binary64. *)
From Coq Require Import Reals Lia Lra Psatz Floats.
From Flocq Require Import Core BinarySingleNaN PrimFloat.
From Verif Require Import Base Num Particles Jacobian Ftle SpecFtle SpecSeeds SpecFloat64 SpecAccuracy SpecFloatGrid SpecConverge
  SpecFloatJac ParticleFacts JacobianFacts FtleFacts2 ConvergeFacts FloatArith FloatGrid FloatKernel FloatAxis FtleAccuracyMain GridInterpFacts.
Local Open Scope R_scope.

Lemma tiny_pow : tiny <= / 2 ^ 1074.
Proof.
  rewrite pow_bpow, <- bpow_opp. unfold tiny. apply bpow_le. lia.
Qed.

Lemma small_50 : 5 * uround <= / 2 ^ 50.
Proof. rewrite pow_bpow. change (bpow radix2 (Z.of_nat 50)) with 1125899906842624. unfold uround. lra. Qed.

Lemma diff_rep a b A B : represents a A -> represents b B -> Rabs (A - B) <= bpow radix2 500 ->
  exists e, Rabs e <= uround /\ represents (PrimFloat.sub a b) ((A - B) * (1 + e)).
Proof.
  intros Ra Rb H. apply sub_rep; [exact Ra|exact Rb|]. eapply Rle_trans; [exact H|]. apply bpow_le. lia.
Qed.

(** One entry. *)
Lemma entry_F lnF a b c d A B C D : represents a A -> represents b B -> represents c C -> represents d D ->
  Rabs A <= 2 ^ 200 -> Rabs B <= 2 ^ 200 -> ordinary (C - D) ->
  exists x, py_div (Fops lnF) (PrimFloat.sub a b) (PrimFloat.sub c d) = Ok x /\ rounds_to x ((A - B) / (C - D)).
Proof.
  intros Ra Rb Rc Rd HA HB [HL HU]. rewrite pow_bpow in *. rewrite <- bpow_opp in HL.
  change (- Z.of_nat 200)%Z with (-200)%Z in HL. change (Z.of_nat 200) with 200%Z in *.
  destruct uround_val as [U0 U1]. pose proof (bpow_gt_0 radix2 (-200)) as P200.
  assert (NE : C - D <> 0) by (intro E; rewrite E, Rabs_R0 in HL; lra).
  assert (HN : Rabs (A - B) <= bpow radix2 201).
  { change 201%Z with (1 + 200)%Z. rewrite bpow_plus. change (bpow radix2 1) with 2.
    eapply Rle_trans; [apply Rabs_triang|]. rewrite Rabs_Ropp. lra. }
  destruct (diff_rep a b A B Ra Rb) as (e1 & He1 & R1); [eapply Rle_trans; [exact HN|apply bpow_le; lia]|].
  destruct (diff_rep c d C D Rc Rd) as (e2 & He2 & R2); [eapply Rle_trans; [exact HU|apply bpow_le; lia]|].
  apply Rabs_le_inv in He1 as He1'. apply Rabs_le_inv in He2 as He2'.
  assert (NE2 : (C - D) * (1 + e2) <> 0) by (apply Rmult_integral_contrapositive_currified; lra).
  unfold py_div. change (o_eqb (Fops lnF)) with PrimFloat.eqb. change (o_zero (Fops lnF)) with 0%float.
  rewrite (eqb_zero_rep _ _ R2 NE2). eexists. split; [reflexivity|].
  set (q := (A - B) / (C - D)).
  assert (Eq : (A - B) * (1 + e1) / ((C - D) * (1 + e2)) = q * ((1 + e1) / (1 + e2))) by (unfold q; field; lra).
  assert (Hq : Rabs q <= bpow radix2 401).
  { unfold q, Rdiv. rewrite Rabs_mult, Rabs_inv. change 401%Z with (201 + 200)%Z. rewrite bpow_plus.
    apply Rmult_le_compat; [apply Rabs_pos|left; apply Rinv_0_lt_compat; lra|exact HN|].
    rewrite <- (Rinv_inv (bpow radix2 200)).
    apply Rinv_le; [apply Rinv_0_lt_compat, bpow_gt_0|]. rewrite <- bpow_opp. exact HL. }
  assert (Hr : Rabs ((1 + e1) / (1 + e2)) <= 2).
  { rewrite Rabs_pos_eq.
    - apply Rmult_le_reg_r with (1 + e2); [lra|]. unfold Rdiv. rewrite Rmult_assoc, Rinv_l by lra. lra.
    - apply Rmult_le_pos; [lra|]. left. apply Rinv_0_lt_compat. lra. }
  destruct (div_rep_any _ _ _ _ R1 R2 NE2) as (e3 & h & He3 & Hh & R3 & _).
  { rewrite Eq, Rabs_mult. apply Rle_trans with (bpow radix2 401 * 2).
    - apply Rmult_le_compat; try apply Rabs_pos; assumption.
    - change 2 with (bpow radix2 1). rewrite <- bpow_plus. apply bpow_le. lia. }
  exists ((A - B) * (1 + e1) / ((C - D) * (1 + e2)) * (1 + e3) + h). split; [exact R3|]. rewrite Eq.
  pose proof (quotient_err e1 e3 e2 0 He1 He3 He2 ltac:(rewrite Rabs_R0; lra)) as QE.
  apply Rabs_le_inv in He3.
  replace (q * ((1 + e1) / (1 + e2)) * (1 + e3) + h - q)
    with (q * ((1 + e1) * (1 + e3) / ((1 + e2) * (1 + 0)) - 1) + h) by (field; lra).
  eapply Rle_trans; [apply Rabs_triang|]. rewrite Rabs_mult. pose proof tiny_pow. pose proof small_50. pose proof (Rabs_pos q).
  assert (Rabs q * Rabs ((1 + e1) * (1 + e3) / ((1 + e2) * (1 + 0)) - 1) <= / 2 ^ 50 * Rabs q).
  { rewrite Rmult_comm. apply Rmult_le_compat_r; lra. }
  lra.
Qed.

Ltac corners H := repeat match type of H with Forall _ (_ :: _) => let X := fresh "B" in let Y := fresh "R" in
   inversion H as [|? ? X Y]; subst; clear H; rename Y into H end.

Lemma group_F2 lnF g g' G G' : seated2 g G -> seated2 g' G' -> spaced2 G -> bounded2 G' ->
  exists F, jac2_group (Fops lnF) (g, g') = Ok F /\ matrix_rounds_2 F (gradient2 G G').
Proof.
  intros (L & Rt & T & Bo) (L' & Rt' & T' & Bo') (Sx & Sy) Hb.
  destruct L as [L0 L1], Rt as [R0 R1], T as [T0 T1], Bo as [B0 B1].
  destruct L' as [L0' L1'], Rt' as [R0' R1'], T' as [T0' T1'], Bo' as [B0' B1'].
  unfold bounded2, corners2 in Hb. corners Hb. destruct B as [BL0 BL1], B2 as [BR0 BR1], B3 as [BT0 BT1], B4 as [BB0 BB1].
  destruct (entry_F lnF _ _ _ _ _ _ _ _ R0' L0' R0 L0 BR0 BL0 Sx) as (x00 & E00 & X00).
  destruct (entry_F lnF _ _ _ _ _ _ _ _ T0' B0' T1 B1 BT0 BB0 Sy) as (x01 & E01 & X01).
  destruct (entry_F lnF _ _ _ _ _ _ _ _ R1' L1' R0 L0 BR1 BL1 Sx) as (x10 & E10 & X10).
  destruct (entry_F lnF _ _ _ _ _ _ _ _ T1' B1' T1 B1 BT1 BB1 Sy) as (x11 & E11 & X11).
  exists (M22 x00 x01 x10 x11). split; [|exact (conj X00 (conj X01 (conj X10 X11)))].
  unfold jac2_group, rl2, tb2, pt2. cbn [fst snd]. change (o_sub (Fops lnF)) with PrimFloat.sub.
  rewrite E00, E01, E10, E11. reflexivity.
Qed.

Lemma group_F3 lnF g g' G G' : seated3 g G -> seated3 g' G' -> spaced3 G -> bounded3 G' ->
  exists F, jac3_group (Fops lnF) (g, g') = Ok F /\ matrix_rounds_3 F (gradient3 G G').
Proof.
  intros (L & Rt & T & Bo & Fr & Ba) (L' & Rt' & T' & Bo' & Fr' & Ba') (Sx & Sy & Sz) Hb.
  destruct L as (L0 & L1 & L2), Rt as (R0 & R1 & R2), T as (T0 & T1 & T2), Bo as (B0 & B1 & B2),
    Fr as (F0 & F1 & F2), Ba as (K0 & K1 & K2).
  destruct L' as (L0' & L1' & L2'), Rt' as (R0' & R1' & R2'), T' as (T0' & T1' & T2'), Bo' as (B0' & B1' & B2'),
    Fr' as (F0' & F1' & F2'), Ba' as (K0' & K1' & K2').
  unfold bounded3, corners3 in Hb. rewrite Forall_forall in Hb.
  destruct (Hb (h_left G') ltac:(cbn; tauto)) as (bL0 & bL1 & bL2).
  destruct (Hb (h_right G') ltac:(cbn; tauto)) as (bR0 & bR1 & bR2).
  destruct (Hb (h_top G') ltac:(cbn; tauto)) as (bT0 & bT1 & bT2).
  destruct (Hb (h_bottom G') ltac:(cbn; tauto)) as (bB0 & bB1 & bB2).
  destruct (Hb (h_front G') ltac:(cbn; tauto)) as (bF0 & bF1 & bF2).
  destruct (Hb (h_back G') ltac:(cbn; tauto)) as (bK0 & bK1 & bK2).
  destruct (entry_F lnF _ _ _ _ _ _ _ _ R0' L0' R0 L0 bR0 bL0 Sx) as (x00 & E00 & X00).
  destruct (entry_F lnF _ _ _ _ _ _ _ _ T0' B0' T1 B1 bT0 bB0 Sy) as (x01 & E01 & X01).
  destruct (entry_F lnF _ _ _ _ _ _ _ _ F0' K0' F2 K2 bF0 bK0 Sz) as (x02 & E02 & X02).
  destruct (entry_F lnF _ _ _ _ _ _ _ _ R1' L1' R0 L0 bR1 bL1 Sx) as (x10 & E10 & X10).
  destruct (entry_F lnF _ _ _ _ _ _ _ _ T1' B1' T1 B1 bT1 bB1 Sy) as (x11 & E11 & X11).
  destruct (entry_F lnF _ _ _ _ _ _ _ _ F1' K1' F2 K2 bF1 bK1 Sz) as (x12 & E12 & X12).
  destruct (entry_F lnF _ _ _ _ _ _ _ _ R2' L2' R0 L0 bR2 bL2 Sx) as (x20 & E20 & X20).
  destruct (entry_F lnF _ _ _ _ _ _ _ _ T2' B2' T1 B1 bT2 bB2 Sy) as (x21 & E21 & X21).
  destruct (entry_F lnF _ _ _ _ _ _ _ _ F2' K2' F2 K2 bF2 bK2 Sz) as (x22 & E22 & X22).
  exists (M33 x00 x01 x02 x10 x11 x12 x20 x21 x22). split.
  - unfold jac3_group, rl3, tb3, fb3, pt3, p0, p1, p2. cbn [fst snd]. change (o_sub (Fops lnF)) with PrimFloat.sub.
    rewrite E00, E01, E02, E10, E11, E12, E20, E21, E22. reflexivity.
  - exact (conj (conj X00 (conj X01 X02)) (conj (conj X10 (conj X11 X12)) (conj X20 (conj X21 X22)))).
Qed.

Lemma mapr_pairs {A B C} (f : A * A -> res B) (S : A -> C -> Prop) (Q : C -> Prop) (Q' : C -> Prop) (P : B -> C * C -> Prop) :
  (forall a a' c c', S a c -> S a' c' -> Q c -> Q' c' -> exists b, f (a, a') = Ok b /\ P b (c, c')) ->
  forall l cs, Forall2 S (map fst l) cs -> forall cs', Forall2 S (map snd l) cs' -> Forall Q cs -> Forall Q' cs' ->
  exists bs, mapr f l = Ok bs /\ Forall2 P bs (combine cs cs').
Proof.
  intros Hf. induction l as [|[a a'] l IH]; intros cs H cs' H' HQ HQ'; inversion H; inversion H'; subst.
  - exists []. split; [reflexivity|constructor].
  - inversion HQ; inversion HQ'; subst. cbn [fst snd] in *.
    match goal with A1 : S a ?c, A2 : S a' ?c', A3 : Q ?c, A4 : Q' ?c' |- _ =>
      destruct (Hf a a' c c' A1 A2 A3 A4) as (b & Eb & Pb) end.
    match goal with A1 : Forall2 S (map fst l) ?c, A2 : Forall2 S (map snd l) ?c' |- _ =>
      destruct (IH c A1 c' A2) as (bs & Ebs & Pbs); try assumption end.
    exists (b :: bs). cbn [mapr]. rewrite Eb. cbn [bind]. rewrite Ebs. split; [reflexivity|]. constructor; assumption.
Qed.

Lemma Forall2_map_r {A B C} (f : B -> C) (P : A -> C -> Prop) l m : Forall2 (fun a b => P a (f b)) l m -> Forall2 P l (map f m).
Proof. induction 1; cbn; constructor; assumption. Qed.

Lemma jacobian_F2 lnF gs gs' Gs Gs' p : mk_particles (Fops lnF) (layout2 gs) = Ok p ->
  length gs' = length gs -> Forall2 seated2 gs Gs -> Forall2 seated2 gs' Gs' -> Forall spaced2 Gs -> Forall bounded2 Gs' ->
  exists Fs, compute_flow_map_jacobian_2x2 (Fops lnF) (set_positions p (layout2 gs')) = Ok Fs /\
    Forall2 matrix_rounds_2 Fs (gradients2 Gs Gs').
Proof.
  intros Hp Hl H H' HQ HQ'. rewrite mk_particles_2 in Hp. injection Hp as <-.
  destruct (split_pairs gs gs' (eq_sym Hl)) as (l & -> & ->). rewrite jac2_pairs.
  destruct (mapr_pairs (jac2_group (Fops lnF)) seated2 spaced2 bounded2 (fun F c => matrix_rounds_2 F (gradient2 (fst c) (snd c)))
     (fun a a' c c' => group_F2 lnF a a' c c') l Gs H Gs' H' HQ HQ') as (Fs & E & HF).
  exists Fs. split; [exact E|]. apply Forall2_map_r. exact HF.
Qed.

Lemma jacobian_F3 lnF gs gs' Gs Gs' p : mk_particles (Fops lnF) (layout3 gs) = Ok p ->
  length gs' = length gs -> Forall2 seated3 gs Gs -> Forall2 seated3 gs' Gs' -> Forall spaced3 Gs -> Forall bounded3 Gs' ->
  exists Fs, compute_flow_map_jacobian_3x3 (Fops lnF) (set_positions p (layout3 gs')) = Ok Fs /\
    Forall2 matrix_rounds_3 Fs (gradients3 Gs Gs').
Proof.
  intros Hp Hl H H' HQ HQ'. rewrite mk_particles_3 in Hp. injection Hp as <-.
  destruct (split_pairs gs gs' (eq_sym Hl)) as (l & -> & ->). rewrite jac3_pairs.
  destruct (mapr_pairs (jac3_group (Fops lnF)) seated3 spaced3 bounded3 (fun F c => matrix_rounds_3 F (gradient3 (fst c) (snd c)))
     (fun a a' c c' => group_F3 lnF a a' c c') l Gs H Gs' H' HQ HQ') as (Fs & E & HF).
  exists Fs. split; [exact E|]. apply Forall2_map_r. exact HF.
Qed.

(* ---- the FTLE ---- *)

Lemma entry_le_norm Q s : spectral_norm_2 Q s ->
  Rabs (a00 Q) <= s /\ Rabs (a01 Q) <= s /\ Rabs (a10 Q) <= s /\ Rabs (a11 Q) <= s.
Proof.
  intros H. pose proof (spectral_norm_2_nonneg _ _ H) as Hs. destruct H as [H _].
  assert (K : forall x y, R_sqrt.sqrt (x * x + y * y) <= s -> Rabs x <= s /\ Rabs y <= s).
  { intros x y Hxy.
    assert (E : x * x + y * y <= s * s).
    { rewrite <- (sqrt_sqrt (x * x + y * y)) by nra. pose proof (sqrt_pos (x * x + y * y)). nra. }
    split; apply Rabs_le; split; nra. }
  pose proof (H (1, 0)) as H1. pose proof (H (0, 1)) as H2. unfold norm2, dot2, app22 in H1, H2. cbn [fst snd] in H1, H2.
  replace (1 * 1 + 0 * 0) with 1 in H1 by ring. replace (0 * 0 + 1 * 1) with 1 in H2 by ring.
  rewrite sqrt_1, Rmult_1_r in H1, H2.
  rewrite !Rmult_1_r, !Rmult_0_r, !Rplus_0_r in H1. rewrite !Rmult_1_r, !Rmult_0_r, !Rplus_0_l in H2.
  destruct (K _ _ H1), (K _ _ H2). repeat split; assumption.
Qed.

Lemma rounds_near x q s : rounds_to x q -> Rabs q <= s -> / 2 ^ 199 <= s ->
  exists r, represents x r /\ Rabs (r - q) <= / 2 ^ 49 * s.
Proof.
  intros (r & Rr & H) Hq Hs. exists r. split; [exact Rr|]. apply Rle_trans with (1 := H).
  assert (T : / 2 ^ 1074 <= / 2 ^ 50 * s).
  { apply Rle_trans with (/ 2 ^ 50 * / 2 ^ 199).
    - rewrite !pow_bpow, <- !bpow_opp, <- bpow_plus. apply bpow_le. lia.
    - apply Rmult_le_compat_l; [|exact Hs]. rewrite pow_bpow. left. apply Rinv_0_lt_compat, bpow_gt_0. }
  revert T. rewrite !pow_bpow. change (bpow radix2 (Z.of_nat 50)) with 1125899906842624.
  change (bpow radix2 (Z.of_nat 49)) with 562949953421312. lra.
Qed.

Lemma jac_value F Q s : matrix_rounds_2 F Q -> well_scaled Q -> spectral_norm_2 Q s ->
  exists J, stands_for F J /\ moderate J /\ close22 (/ 2 ^ 49 * s) J Q /\ 0 < s.
Proof.
  intros (H00 & H01 & H10 & H11) [HU HL] Hs. destruct (entry_le_norm Q s Hs) as (S00 & S01 & S10 & S11).
  assert (B : / 2 ^ 199 <= s).
  { apply Exists_exists in HL. destruct HL as (x & Hx & Bx). cbn in Hx.
    destruct Hx as [<-|[<-|[<-|[<-|[]]]]]; eapply Rle_trans; eassumption. }
  assert (Q0 : 0 < / 2 ^ 199) by (rewrite pow_bpow; apply Rinv_0_lt_compat, bpow_gt_0).
  destruct (rounds_near _ _ s H00 S00 B) as (r00 & R00 & E00). destruct (rounds_near _ _ s H01 S01 B) as (r01 & R01 & E01).
  destruct (rounds_near _ _ s H10 S10 B) as (r10 & R10 & E10). destruct (rounds_near _ _ s H11 S11 B) as (r11 & R11 & E11).
  exists (M22 r00 r01 r10 r11). split; [exact (conj R00 (conj R01 (conj R10 R11)))|].
  split; [|split; [exact (conj E00 (conj E01 (conj E10 E11)))|lra]].
  assert (T : 2 ^ 200 = 2 * 2 ^ 199) by (change 200%nat with (S 199); reflexivity).
  assert (T' : / 2 ^ 200 = / 2 * / 2 ^ 199).
  { rewrite T. apply Rinv_mult. }
  assert (L : forall x q r, rounds_to x q -> represents x r -> / 2 ^ 199 <= Rabs q -> / 2 ^ 200 <= Rabs r).
  { intros x q r (r' & Rr' & H) Rr HL'. rewrite (rep_unique _ _ _ Rr Rr').
    assert (T1 : / 2 ^ 1074 <= / 4 * / 2 ^ 199).
    { replace (/ 4) with (bpow radix2 (-2)) by (cbn; lra). rewrite !pow_bpow, <- !bpow_opp, <- bpow_plus. apply bpow_le. lia. }
    assert (T2 : / 2 ^ 50 * Rabs q <= / 4 * Rabs q).
    { apply Rmult_le_compat_r; [apply Rabs_pos|]. rewrite pow_bpow. change (bpow radix2 (Z.of_nat 50)) with 1125899906842624. lra. }
    pose proof (Rabs_triang_inv q (q - r')) as Tr. replace (q - (q - r')) with r' in Tr by ring.
    rewrite (Rabs_minus_sym q r') in Tr. lra. }
  assert (One : / 2 ^ 199 <= 2 ^ 199).
  { rewrite pow_bpow, <- bpow_opp. apply bpow_le. lia. }
  assert (U : forall x q r, rounds_to x q -> represents x r -> Rabs q <= 2 ^ 199 -> Rabs r <= 2 ^ 200).
  { intros x q r (r' & Rr' & H) Rr HU'. rewrite (rep_unique _ _ _ Rr Rr').
    assert (T1 : / 2 ^ 1074 <= / 4 * / 2 ^ 199).
    { replace (/ 4) with (bpow radix2 (-2)) by (cbn; lra). rewrite !pow_bpow, <- !bpow_opp, <- bpow_plus. apply bpow_le. lia. }
    assert (T2 : / 2 ^ 50 * Rabs q <= / 4 * Rabs q).
    { apply Rmult_le_compat_r; [apply Rabs_pos|]. rewrite pow_bpow. change (bpow radix2 (Z.of_nat 50)) with 1125899906842624. lra. }
    replace r' with (q + (r' - q)) by ring. eapply Rle_trans; [apply Rabs_triang|]. rewrite T. lra. }
  rewrite Forall_forall in HU. split.
  - cbn [a00 a01 a10 a11]. apply Forall_cons; [|apply Forall_cons; [|apply Forall_cons; [|apply Forall_cons; [|constructor]]]].
    + exact (U _ _ _ H00 R00 (HU (a00 Q) ltac:(cbn; tauto))).
    + exact (U _ _ _ H01 R01 (HU (a01 Q) ltac:(cbn; tauto))).
    + exact (U _ _ _ H10 R10 (HU (a10 Q) ltac:(cbn; tauto))).
    + exact (U _ _ _ H11 R11 (HU (a11 Q) ltac:(cbn; tauto))).
  - cbn [a00 a01 a10 a11]. inversion HL as [? ? A|? ? A]; subst; [left; exact (L _ _ _ H00 R00 A)|right]. clear HL. rename A into HL.
    inversion HL as [? ? A|? ? A]; subst; [left; exact (L _ _ _ H01 R01 A)|right]. clear HL. rename A into HL.
    inversion HL as [? ? A|? ? A]; subst; [left; exact (L _ _ _ H10 R10 A)|right]. clear HL. rename A into HL.
    inversion HL as [? ? A|? ? A]; subst; [left; exact (L _ _ _ H11 R11 A)|]. inversion A.
Qed.

(** Perturbation of the determinant. *)
Lemma det_close d s J Q : close22 (d * s) J Q -> 0 <= d <= 1 / 8 -> 0 <= s ->
  Rabs (a00 Q) <= s -> Rabs (a01 Q) <= s -> Rabs (a10 Q) <= s -> Rabs (a11 Q) <= s ->
  Rabs (det22 J - det22 Q) <= 5 * d * (s * s).
Proof.
  intros (H00 & H01 & H10 & H11) Hd Hs A00 A01 A10 A11. unfold det22.
  set (x := a00 J - a00 Q) in *. set (y := a01 J - a01 Q) in *. set (z := a10 J - a10 Q) in *. set (w := a11 J - a11 Q) in *.
  replace (a00 J * a11 J - a01 J * a10 J - (a00 Q * a11 Q - a01 Q * a10 Q))
    with (a00 Q * w + x * a11 Q + x * w - (a01 Q * z + y * a10 Q + y * z)) by (unfold x, y, z, w; ring).
  pose proof (abs_mul_le _ _ _ _ A00 H11). pose proof (abs_mul_le _ _ _ _ H00 A11). pose proof (abs_mul_le _ _ _ _ H00 H11).
  pose proof (abs_mul_le _ _ _ _ A01 H10). pose proof (abs_mul_le _ _ _ _ H01 A10). pose proof (abs_mul_le _ _ _ _ H01 H10).
  clearbody x y z w.
  repeat match goal with H : Rabs (_ * _) <= _ |- _ => apply Rabs_le_inv in H end.
  assert (0 <= d * (s * s)) by (apply Rmult_le_pos; nra).
  assert (d * s * (d * s) <= / 8 * (d * (s * s))).
  { replace (d * s * (d * s)) with (d * (d * (s * s))) by ring. apply Rmult_le_compat_r; lra. }
  apply Rabs_le. split; nra.
Qed.

Lemma gap_kept Q s J t : close22 (/ 2 ^ 49 * s) J Q -> spectral_norm_2 Q s -> spectral_norm_2 J t -> 0 < s ->
  det22 Q * det22 Q <= (1 - / 2 ^ 21) * (s * s * (s * s)) ->
  Rabs (t - s) <= / 2 ^ 47 * s /\ det22 J * det22 J <= (1 - / 2 ^ 22) * (t * t * (t * t)).
Proof.
  intros Hc HQ HJ Ps Hd.
  destruct (entry_le_norm Q s HQ) as (S00 & S01 & S10 & S11).
  pose proof (norm_close_2 _ _ _ _ _ Hc HJ HQ) as Ht. pose proof (det_bound_2 _ _ HQ) as Db.
  assert (D : 0 <= / 2 ^ 49 <= 1 / 8).
  { rewrite pow_bpow. change (bpow radix2 (Z.of_nat 49)) with 562949953421312. lra. }
  pose proof (det_close _ _ _ _ Hc D ltac:(lra) S00 S01 S10 S11) as Dc.
  revert Ht Dc Hd. rewrite !pow_bpow. change (bpow radix2 (Z.of_nat 49)) with 562949953421312.
  change (bpow radix2 (Z.of_nat 47)) with 140737488355328. change (bpow radix2 (Z.of_nat 21)) with 2097152.
  change (bpow radix2 (Z.of_nat 22)) with 4194304. intros Ht Dc Hd. clear Hc D.
  rewrite Rabs_minus_sym in Ht. apply Rabs_le_inv in Ht. split; [apply Rabs_le; lra|].
  set (q := det22 Q) in *. set (j := det22 J) in *. clearbody q j.
  assert (P2 : 0 < s * s) by nra. assert (P4 : 0 < s * s * (s * s)) by nra.
  apply Rabs_le_inv in Dc, Db. set (k := / 35184372088832) in *.
  assert (Lt : (1 - k) * s <= t) by (unfold k; lra).
  assert (L2 : (1 - k) * (1 - k) * (s * s) <= t * t).
  { replace ((1 - k) * (1 - k) * (s * s)) with (((1 - k) * s) * ((1 - k) * s)) by ring.
    assert (0 <= (1 - k) * s) by (apply Rmult_le_pos; unfold k; lra). nra. }
  assert (L4 : (1 - k) * (1 - k) * ((1 - k) * (1 - k)) * (s * s * (s * s)) <= t * t * (t * t)).
  { replace ((1 - k) * (1 - k) * ((1 - k) * (1 - k)) * (s * s * (s * s))) with (((1 - k) * (1 - k) * (s * s)) * ((1 - k) * (1 - k) * (s * s))) by ring.
    assert (0 <= (1 - k) * (1 - k) * (s * s)) by (apply Rmult_le_pos; [unfold k; lra|lra]). nra. }
  assert (B : Rabs (j - q) <= k * (s * s)) by (apply Rabs_le; unfold k; lra).
  assert (J2 : j * j <= q * q + 3 * k * (s * s * (s * s))).
  { replace (j * j) with (q * q + 2 * (q * (j - q)) + (j - q) * (j - q)) by ring.
    assert (X : Rabs (q * (j - q)) <= s * s * (k * (s * s))) by (apply abs_mul_le; [apply Rabs_le; lra|exact B]).
    assert (Y : Rabs ((j - q) * (j - q)) <= k * (s * s) * (k * (s * s))) by (apply abs_mul_le; exact B).
    apply Rabs_le_inv in X, Y.
    assert (k * (s * s) * (k * (s * s)) <= k * (s * s * (s * s))).
    { replace (k * (s * s) * (k * (s * s))) with (k * (k * (s * s * (s * s)))) by ring. apply Rmult_le_compat_l; unfold k; lra. }
    lra. }
  apply Rle_trans with ((1 - / 4194304) * ((1 - k) * (1 - k) * ((1 - k) * (1 - k)) * (s * s * (s * s)))); [|lra].
  apply Rle_trans with (1 := J2). unfold k in *. lra.
Qed.

Lemma ftle_F lnF gs gs' Gs Gs' p T tau : accurate_log lnF -> represents T tau -> ordinary tau ->
  mk_particles (Fops lnF) (layout2 gs) = Ok p -> length gs' = length gs ->
  Forall2 seated2 gs Gs -> Forall2 seated2 gs' Gs' -> Forall spaced2 Gs -> Forall bounded2 Gs' ->
  Forall (fun Q => well_scaled Q /\ exists s, spectral_norm_2 Q s /\ det22 Q * det22 Q <= (1 - / 2 ^ 21) * (s * s * (s * s))) (gradients2 Gs Gs') ->
  exists Fs vs, compute_flow_map_jacobian_2x2 (Fops lnF) (set_positions p (layout2 gs')) = Ok Fs /\
    compute_ftle_2x2 (Fops lnF) Fs T = Ok (map XVal vs) /\
    Forall2 (fun Q v => exists s r, spectral_norm_2 Q s /\ represents v r /\ Rabs (r - ln s / tau) <= / 2 ^ 22 / Rabs tau)
      (gradients2 Gs Gs') vs.
Proof.
  intros Hln HT Ht Hp Hl H H' HQ HQ' HG.
  destruct (jacobian_F2 lnF gs gs' Gs Gs' p Hp Hl H H' HQ HQ') as (Fs & E & HF). exists Fs.
  set (Qs := gradients2 Gs Gs') in *. clearbody Qs. clear H H' HQ HQ' Hp.
  assert (K : exists Js, Forall2 stands_for Fs Js /\ Forall moderate Js /\
     Forall2 (fun Q J => exists s t, spectral_norm_2 Q s /\ spectral_norm_2 J t /\ 0 < s /\
        Rabs (t - s) <= / 2 ^ 47 * s /\ det22 J * det22 J <= (1 - / 2 ^ 22) * (t * t * (t * t))) Qs Js).
  { clear E. revert HG. induction HF as [|F Q Fs Qs HFQ HF IH]; intro HG.
    - exists []. repeat split; constructor.
    - inversion HG as [|? ? (W & s & Hs & Hd) HG']; subst. destruct (IH HG') as (Js & K1 & K2 & K3).
      destruct (jac_value F Q s HFQ W Hs) as (J & J1 & J2 & J3 & J4).
      destruct (spectral_norm_2_exists J) as (t & Htn). destruct (gap_kept Q s J t J3 Hs Htn J4 Hd) as (G1 & G2).
      exists (J :: Js). repeat split; constructor; try assumption. exists s, t. tauto. }
  destruct K as (Js & K1 & K2 & K3).
  destruct (accurate_values lnF Fs Js T tau Hln HT Ht K1 K2) as (vs & Ev & Hv).
  { clear - K3. induction K3 as [|Q J Qs Js (s & t & A & B & C & D & G) K3 IH]; constructor; [|exact IH]. exists t. split; assumption. }
  exists vs. split; [exact E|]. split; [exact Ev|]. clear - K3 Hv Ht.
  assert (P : 0 < Rabs tau).
  { destruct Ht as [Ht _]. eapply Rlt_le_trans; [|exact Ht]. rewrite pow_bpow. apply Rinv_0_lt_compat, bpow_gt_0. }
  revert vs Hv. induction K3 as [|Q J Qs Js (s & t & A & B & C & D & G) K3 IH]; intros vs Hv; inversion Hv; subst; constructor; [|apply IH; assumption].
  match goal with X : exists _ _, _ |- _ => destruct X as (t' & r & Ht' & Rr & Er) end.
  rewrite (spectral_norm_2_unique _ _ _ Ht' B) in Er. exists s, r. split; [exact A|]. split; [exact Rr|].
  destruct (ln_near t s (/ 2 ^ 47) C) as [_ N]; [rewrite pow_bpow; change (bpow radix2 (Z.of_nat 47)) with 140737488355328; lra|exact D|].
  replace (r - ln s / tau) with ((r - ln t / tau) + (ln t - ln s) / tau) by (field; intro X; rewrite X, Rabs_R0 in P; lra).
  eapply Rle_trans; [apply Rabs_triang|].
  assert (X : Rabs ((ln t - ln s) / tau) <= / 2 ^ 23 / Rabs tau).
  { unfold Rdiv. rewrite Rabs_mult, Rabs_inv. apply Rmult_le_compat_r; [left; apply Rinv_0_lt_compat, P|].
    revert N. rewrite !pow_bpow. change (bpow radix2 (Z.of_nat 47)) with 140737488355328. change (bpow radix2 (Z.of_nat 23)) with 8388608. lra. }
  replace (/ 2 ^ 22 / Rabs tau) with (/ 2 ^ 23 / Rabs tau + / 2 ^ 23 / Rabs tau); [lra|].
  rewrite !pow_bpow. change (bpow radix2 (Z.of_nat 23)) with 8388608. change (bpow radix2 (Z.of_nat 22)) with 4194304. field. lra.
Qed.

(* ---- a case: one seed, stretched along x ---- *)
Definition seed_F : group2 PrimFloat.float := Group2 (-1, 0)%float (1, 0)%float (0, 1)%float (0, -1)%float.
Definition seed_R : group2 R := Group2 (-1, 0) (1, 0) (0, 1) (0, -1).
Definition moved_F : group2 PrimFloat.float := Group2 (-2, 0)%float (2, 0)%float (0, 0.5)%float (0, -0.5)%float.
Definition moved_R : group2 R := Group2 (-2, 0) (2, 0) (0, / 2) (0, - / 2).
Definition seed3_F : group3 PrimFloat.float :=
  Group3 (-1, 0, 0)%float (1, 0, 0)%float (0, 1, 0)%float (0, -1, 0)%float (0, 0, 1)%float (0, 0, -1)%float.
Definition seed3_R : group3 R := Group3 (-1, 0, 0) (1, 0, 0) (0, 1, 0) (0, -1, 0) (0, 0, 1) (0, 0, -1).

Lemma rep_0 : represents 0%float 0. Proof. exact (int_rep 0 ltac:(lia)). Qed.
Lemma rep_1 : represents 1%float 1. Proof. exact (int_rep 1 ltac:(lia)). Qed.
Lemma rep_m1 : represents (-1)%float (-1). Proof. exact (int_rep (-1) ltac:(lia)). Qed.
Lemma rep_2 : represents 2%float 2. Proof. exact (int_rep 2 ltac:(lia)). Qed.
Lemma rep_m2 : represents (-2)%float (-2). Proof. exact (int_rep (-2) ltac:(lia)). Qed.
Lemma rep_mhalf : represents (-0.5)%float (- / 2).
Proof.
  split; [reflexivity|]. change (Prim2SF (-0.5)) with (S754_finite true 4503599627370496 (-53)).
  unfold SF2R, F2R. cbn. lra.
Qed.

Lemma ordinary_2 : ordinary 2.
Proof.
  unfold ordinary. rewrite (Rabs_pos_eq 2) by lra. rewrite pow_bpow, <- bpow_opp. split.
  - apply Rle_trans with (bpow radix2 0); [apply bpow_le; lia|cbn; lra].
  - change 2 with (bpow radix2 1). apply bpow_le. lia.
Qed.

Lemma le_200 x : Rabs x <= 2 -> Rabs x <= 2 ^ 200.
Proof. intro H. apply Rle_trans with (1 := H). destruct ordinary_2 as [_ H2]. rewrite Rabs_pos_eq in H2 by lra. exact H2. Qed.

Lemma stretched : gradients2 [seed_R] [moved_R] = [M22 2 0 0 (/ 2)].
Proof. unfold gradients2, gradient2, seed_R, moved_R. cbn. f_equal. f_equal; field. Qed.

Ltac seat := unfold seated2, seated3, stand2, stand3; cbn [g_left g_right g_top g_bottom h_left h_right h_top h_bottom h_front h_back fst snd seed_F seed_R moved_F moved_R seed3_F seed3_R];
  repeat match goal with |- _ /\ _ => split end; assumption.

Lemma jac_case : seated2 seed_F seed_R /\ seated2 moved_F moved_R /\ spaced2 seed_R /\ bounded2 moved_R /\
  gradients2 [seed_R] [moved_R] = [M22 2 0 0 (/ 2)] /\ well_scaled (M22 2 0 0 (/ 2)) /\ spectral_norm_2 (M22 2 0 0 (/ 2)) 2 /\
  det22 (M22 2 0 0 (/ 2)) * det22 (M22 2 0 0 (/ 2)) <= (1 - / 2 ^ 21) * (2 * 2 * (2 * 2)).
Proof.
  pose proof rep_0. pose proof rep_1. pose proof rep_m1. pose proof rep_2. pose proof rep_m2. pose proof rep_half. pose proof rep_mhalf.
  split; [seat|]. split; [seat|].
  split. { unfold spaced2, seed_R. cbn. replace (1 - -1) with 2 by ring. split; apply ordinary_2. }
  split. { unfold bounded2, corners2, moved_R. cbn [g_left g_right g_top g_bottom].
    repeat (apply Forall_cons; [split; apply le_200; apply Rabs_le; cbn [fst snd]; lra|]). constructor. }
  split; [exact stretched|]. destruct diag_case as (_ & _ & N & _).
  split. { split; cbn [a00 a01 a10 a11].
    - assert (T : 2 <= 2 ^ 199) by (rewrite pow_bpow; change 2 with (bpow radix2 1); apply bpow_le; lia).
      repeat (apply Forall_cons; [eapply Rle_trans; [|exact T]; apply Rabs_le; lra|]). constructor.
    - left. rewrite (Rabs_pos_eq 2) by lra. apply Rle_trans with (bpow radix2 0); [|cbn; lra].
      rewrite pow_bpow, <- bpow_opp. apply bpow_le. lia. }
  split; [exact N|]. unfold det22. cbn [a00 a01 a10 a11]. rewrite pow_bpow.
  change (bpow radix2 (Z.of_nat 21)) with 2097152. lra.
Qed.

Lemma jac_case_3 : seated3 seed3_F seed3_R /\ spaced3 seed3_R /\ bounded3 seed3_R.
Proof.
  pose proof rep_0. pose proof rep_1. pose proof rep_m1.
  split; [seat|]. split.
  - unfold spaced3, seed3_R, v0, v1, v2. cbn. replace (1 - -1) with 2 by ring. exact (conj ordinary_2 (conj ordinary_2 ordinary_2)).
  - unfold bounded3, corners3, seed3_R, v0, v1, v2. cbn [h_left h_right h_top h_bottom h_front h_back fst snd].
    repeat (apply Forall_cons; [split; [|split]; apply le_200; apply Rabs_le; cbn [fst snd]; lra|]). constructor.
Qed.
