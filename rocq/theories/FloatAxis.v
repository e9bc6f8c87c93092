(** Index coordinates in binary64. *)
From Coq Require Import Reals Lia Lra Psatz Floats.
From Flocq Require Import Core Relative Plus_error BinarySingleNaN PrimFloat.
From Verif Require Import Base Num NdArray GridInterp Interpolate SpecFloat64 SpecFloatGrid
  BatchFloat FloatArith FloatGrid HighPerfReal FloatKernel.
Local Open Scope R_scope.

Local Instance prec53 : Prec_gt_0 53 := eq_refl.

Lemma div_rep_any x y X Y : represents x X -> represents y Y -> Y <> 0 -> Rabs (X / Y) <= bpow radix2 1000 ->
  exists e h, Rabs e <= uround /\ Rabs h <= tiny /\ represents (PrimFloat.div x y) (X / Y * (1 + e) + h) /\
    (0 <= X / Y -> 0 <= X / Y * (1 + e) + h).
Proof.
  rewrite !represents_B. intros [Hxf HX] [Hyf HY] Hne Hb.
  pose proof (Bdiv_correct prec emax Hprec Hmax mode_NE (Prim2B x) (Prim2B y)) as H.
  rewrite HY in H. specialize (H Hne).
  rewrite HX in H. change (round_mode mode_NE) with ZnearestE in H.
  change (SpecFloat.fexp prec emax) with fexp64 in H. change emax with 1024%Z in H.
  rewrite (Rlt_bool_true _ _ (rnd_lt _ Hb)) in H. destruct H as (Hv & Hf & _).
  destruct (rnd_err (X / Y)) as (e & h & He & Hh & E). exists e, h. split; [exact He|]. split; [exact Hh|]. split.
  - rewrite represents_B, div_equiv. rewrite E in Hv. change 1024%Z with emax in *.
    split; [rewrite Hf; exact Hxf|exact Hv].
  - intro P. rewrite <- E. apply round_ge_generic; [apply (FLT_exp_valid (-1074) 53)|apply valid_rnd_N|apply generic_format_0|exact P].
Qed.

Lemma rep_unique x X Y : represents x X -> represents x Y -> X = Y.
Proof. intros [_ <-] [_ <-]. reflexivity. Qed.

Lemma zero_mul_rep y Y : represents y Y -> represents (PrimFloat.mul (F_ofZ 0) y) 0.
Proof.
  rewrite !represents_B. intros [Hyf HY].
  pose proof (Bmult_correct prec emax Hprec Hmax mode_NE (Prim2B (F_ofZ 0)) (Prim2B y)) as H.
  assert (R0 : represents (F_ofZ 0) 0) by exact (int_rep 0 ltac:(lia)). rewrite represents_B in R0. destruct R0 as [F0 V0].
  rewrite V0, Rmult_0_l, round_0 in H by (apply valid_rnd_round_mode). rewrite Rabs_R0, Rlt_bool_true in H by (apply bpow_gt_0).
  destruct H as (Hv & Hf & _). rewrite mul_equiv. split; [rewrite Hf, F0, Hyf; reflexivity|exact Hv].
Qed.

Lemma zero_add_rep x y X : represents x 0 -> represents y X -> represents (PrimFloat.add x y) X.
Proof.
  intros Rx Ry. pose proof (format_rep _ _ Ry) as FX. revert Rx Ry. rewrite !represents_B. intros [Hxf HX] [Hyf HY].
  pose proof (Bplus_correct prec emax Hprec Hmax mode_NE _ _ Hxf Hyf) as H. rewrite HX, HY, Rplus_0_l in H.
  change (round_mode mode_NE) with ZnearestE in H. change (SpecFloat.fexp prec emax) with fexp64 in H.
  rewrite (round_generic _ _ _ _ FX) in H. rewrite Rlt_bool_true in H.
  - destruct H as (Hv & Hf & _). rewrite add_equiv. split; assumption.
  - rewrite <- HY. apply abs_B2R_lt_emax.
Qed.

Section Axis.
  Context (lnF : PrimFloat.float -> PrimFloat.float).
  Local Notation O := (Fops lnF).

  Lemma o_min_rep a b A B : represents a A -> represents b B -> represents (o_min O a b) (Rmin A B).
  Proof.
    intros Ra Rb. unfold o_min. cbn [o_ltb Fops]. rewrite (ltb_rep _ _ _ _ Rb Ra). unfold Rmin.
    destruct (Rlt_bool_spec B A), (Rle_dec A B); try lra; try assumption.
  Qed.
  Lemma o_max_rep a b A B : represents a A -> represents b B -> represents (o_max O a b) (Rmax A B).
  Proof.
    intros Ra Rb. unfold o_max. cbn [o_ltb Fops]. rewrite (ltb_rep _ _ _ _ Ra Rb). unfold Rmax.
    destruct (Rlt_bool_spec A B), (Rle_dec A B); try lra; try assumption. replace B with A by lra. assumption.
  Qed.

  Lemma fold_min l a A : represents a A -> (forall x, In x l -> exists X, represents x X) ->
    exists B, represents (fold_left (o_min O) l a) B /\ B <= A /\
      (forall x X, In x l -> represents x X -> B <= X) /\ (B = A \/ exists x, In x l /\ represents x B).
  Proof.
    revert a A. induction l as [|y l IH]; intros a A Ra H; cbn [fold_left].
    - exists A. split; [exact Ra|]. split; [lra|]. split; [intros ? ? []|left; reflexivity].
    - destruct (H y (or_introl eq_refl)) as [Y Ry].
      destruct (IH _ _ (o_min_rep _ _ _ _ Ra Ry) (fun x Hx => H x (or_intror Hx))) as (B & RB & LB & HB & EB).
      exists B. split; [exact RB|]. split; [pose proof (Rmin_l A Y); lra|]. split.
      + intros x X [<-|Hx] Rx; [rewrite (rep_unique _ _ _ Rx Ry); pose proof (Rmin_r A Y); lra|exact (HB x X Hx Rx)].
      + destruct EB as [->|(x & Hx & Rx)]; [|right; exists x; split; [right; exact Hx|exact Rx]].
        unfold Rmin. destruct (Rle_dec A Y); [left; reflexivity|right; exists y; split; [left; reflexivity|exact Ry]].
  Qed.
  Lemma fold_max l a A : represents a A -> (forall x, In x l -> exists X, represents x X) ->
    exists B, represents (fold_left (o_max O) l a) B /\ A <= B /\
      (forall x X, In x l -> represents x X -> X <= B) /\ (B = A \/ exists x, In x l /\ represents x B).
  Proof.
    revert a A. induction l as [|y l IH]; intros a A Ra H; cbn [fold_left].
    - exists A. split; [exact Ra|]. split; [lra|]. split; [intros ? ? []|left; reflexivity].
    - destruct (H y (or_introl eq_refl)) as [Y Ry].
      destruct (IH _ _ (o_max_rep _ _ _ _ Ra Ry) (fun x Hx => H x (or_intror Hx))) as (B & RB & LB & HB & EB).
      exists B. split; [exact RB|]. split; [pose proof (Rmax_l A Y); lra|]. split.
      + intros x X [<-|Hx] Rx; [rewrite (rep_unique _ _ _ Rx Ry); pose proof (Rmax_r A Y); lra|exact (HB x X Hx Rx)].
      + destruct EB as [->|(x & Hx & Rx)]; [|right; exists x; split; [right; exact Hx|exact Rx]].
        unfold Rmax. destruct (Rle_dec A Y); [right; exists y; split; [left; reflexivity|exact Ry]|left; reflexivity].
  Qed.

  Lemma extremes xs lo hi : spans xs lo hi -> exists a b, np_min O xs = Ok a /\ np_max O xs = Ok b /\
    represents a lo /\ represents b hi.
  Proof.
    intros (H & (xl & Il & Rl) & (xh & Ih & Rh)). destruct xs as [|x xs]; [destruct Il|].
    destruct (H x (or_introl eq_refl)) as (X & RX & BX).
    assert (F : forall y, In y xs -> exists Y, represents y Y).
    { intros y Hy. destruct (H y (or_intror Hy)) as (Y & RY & _). exists Y. exact RY. }
    destruct (fold_min xs x X RX F) as (B & RB & LB & HB & EB). destruct (fold_max xs x X RX F) as (C & RC & LC & HC & EC).
    exists (fold_left (o_min O) xs x), (fold_left (o_max O) xs x). split; [reflexivity|]. split; [reflexivity|].
    assert (EBl : B = lo).
    { apply Rle_antisym.
      - destruct Il as [<-|Il]; [rewrite <- (rep_unique _ _ _ RX Rl); exact LB|exact (HB _ _ Il Rl)].
      - destruct EB as [->|(y & Hy & Ry)]; [apply BX|]. destruct (H y (or_intror Hy)) as (Y & RY & BY).
        rewrite (rep_unique _ _ _ Ry RY). apply BY. }
    assert (ECh : C = hi).
    { apply Rle_antisym.
      - destruct EC as [->|(y & Hy & Ry)]; [apply BX|]. destruct (H y (or_intror Hy)) as (Y & RY & BY).
        rewrite (rep_unique _ _ _ Ry RY). apply BY.
      - destruct Ih as [<-|Ih]; [rewrite <- (rep_unique _ _ _ RX Rh); exact LC|exact (HC _ _ Ih Rh)]. }
    subst. split; assumption.
  Qed.

  Lemma pow_bpow n : 2 ^ n = bpow radix2 (Z.of_nat n).
  Proof. rewrite <- IZR_Zpower by lia. rewrite pow_IZR. reflexivity. Qed.

  Lemma quotient_err a b c d : Rabs a <= uround -> Rabs b <= uround -> Rabs c <= uround -> Rabs d <= uround ->
    Rabs ((1 + a) * (1 + b) / ((1 + c) * (1 + d)) - 1) <= 5 * uround.
  Proof.
    intros Ha Hb Hc Hd. destruct uround_val as [U0 U1].
    apply Rabs_le_inv in Ha, Hb, Hc, Hd.
    assert (P : 0 < (1 + c) * (1 + d)) by (apply Rmult_lt_0_compat; lra).
    replace ((1 + a) * (1 + b) / ((1 + c) * (1 + d)) - 1) with ((a + b + a * b - c - d - c * d) / ((1 + c) * (1 + d))) by (field; lra).
    unfold Rdiv. rewrite Rabs_mult, (Rabs_pos_eq (/ _)) by (left; apply Rinv_0_lt_compat; exact P).
    apply Rmult_le_reg_r with ((1 + c) * (1 + d)); [exact P|]. rewrite Rmult_assoc, Rinv_l, Rmult_1_r by lra.
    assert (Ab : Rabs (a * b) <= uround * uround) by (apply abs_mul_le; apply Rabs_le; lra).
    assert (Cd : Rabs (c * d) <= uround * uround) by (apply abs_mul_le; apply Rabs_le; lra).
    apply Rabs_le_inv in Ab, Cd. pose proof (small_mul uround ltac:(lra)) as SU.
    assert (Pd : 1 - 3 * uround <= (1 + c) * (1 + d)) by lra.
    apply Rle_trans with (4.5 * uround); [apply Rabs_le; lra|].
    apply Rle_trans with (5 * uround * (1 - 3 * uround)); [lra|]. apply Rmult_le_compat_l; lra.
  Qed.

  (** The index coordinate of a point. *)
  Lemma index_F a b lo hi n ax : (2 <= n)%nat -> (Z.of_nat n <= INT_MAX)%Z -> represents a lo -> represents b hi ->
    sane_extent lo hi -> mk_axis O (linspace O a b n) = Ok ax ->
    forall x X, represents x X -> Rabs (position n lo hi X) <= 2147483648 ->
    exists t T, to_grid O ax x = Some t /\ represents t T /\
      Rabs (T - position n lo hi X) <= 5 * uround * Rabs (position n lo hi X) + tiny /\
      (0 <= position n lo hi X -> 0 <= T).
  Proof.
    intros Hn Bn Ra Rb [S1 S2] Hax x X Rx Hp.
    destruct uround_val as [U0 U1].
    rewrite pow_bpow in S1, S2. change (Z.of_nat 900) with 900%Z in *. rewrite <- bpow_opp in S1.
    assert (E10 : bpow radix2 900 * 2 ^ 100 = bpow radix2 1000) by (rewrite pow_bpow, <- bpow_plus; reflexivity).
    assert (P900 : 1 <= bpow radix2 900) by (change 1 with (bpow radix2 0); apply bpow_le; lia).
    assert (Hpos : 0 < hi - lo) by (pose proof (bpow_gt_0 radix2 (- (900))); lra).
    assert (NR : INR n - 1 = IZR (Z.of_nat n - 1)) by (rewrite minus_IZR, <- INR_IZR_INZ; reflexivity).
    assert (N1 : 1 <= INR n - 1) by (rewrite NR; apply IZR_le; lia).
    assert (N2 : INR n - 1 <= 2147483647) by (rewrite NR; apply IZR_le; unfold INT_MAX in Bn; lia).
    assert (RN : represents (F_ofZ (Z.of_nat n - 1)) (INR n - 1)).
    { rewrite NR. apply int_rep. unfold INT_MAX in Bn. lia. }
    (* the step *)
    destruct (sub_rep _ _ _ _ Rb Ra) as (e1 & He1 & R1).
    { rewrite Rabs_pos_eq by lra. rewrite <- E10. lra. }
    assert (B1 : / 2 * (hi - lo) <= (hi - lo) * (1 + e1) <= 2 * (hi - lo)).
    { apply Rabs_le_inv in He1. split; nra. }
    assert (Q1 : bpow radix2 (-1022) <= Rabs ((hi - lo) * (1 + e1) / (INR n - 1)) <= bpow radix2 1000).
    { rewrite Rabs_pos_eq by (apply Rle_mult_inv_pos; lra). split.
      - apply Rmult_le_reg_r with (INR n - 1); [lra|]. unfold Rdiv. rewrite Rmult_assoc, Rinv_l, Rmult_1_r by lra.
        apply Rle_trans with (/ 2 * bpow radix2 (- (900))); [|lra].
        change (-1022)%Z with (-900 + -122)%Z. rewrite bpow_plus. change (- (900))%Z with (-900)%Z.
        pose proof (bpow_gt_0 radix2 (-900)). assert (bpow radix2 (-122) * (INR n - 1) <= / 2).
        { apply Rle_trans with (bpow radix2 (-122) * 2147483647); [apply Rmult_le_compat_l; [apply bpow_ge_0|lra]|]. cbn. lra. }
        nra.
      - apply Rle_trans with ((hi - lo) * (1 + e1)).
        + unfold Rdiv. rewrite <- (Rmult_1_r ((hi - lo) * (1 + e1))) at 2. apply Rmult_le_compat_l; [lra|].
          rewrite <- Rinv_1. apply Rinv_le_contravar; lra.
        + rewrite <- E10. lra. }
    destruct (div_rep _ _ _ _ R1 RN ltac:(lra) (proj2 Q1) (proj1 Q1)) as (e2 & He2 & R2).
    set (D := (hi - lo) * (1 + e1) / (INR n - 1) * (1 + e2)) in *.
    assert (HD : 0 < D).
    { unfold D. apply Rmult_lt_0_compat; [apply Rdiv_lt_0_compat; [nra|lra]|apply Rabs_le_inv in He2; lra]. }
    (* the object *)
    unfold mk_axis in Hax. rewrite linspace_length in Hax. destruct n as [|[|m]]; try lia.
    set (n := S (S m)) in *.
    assert (E1 : get (linspace O a b n) (n - 1) = Ok b).
    { unfold n, linspace, get. replace (S (S m) - 1)%nat with (S m) by lia.
      rewrite nth_error_app2 by (rewrite map_length, seq_length; lia).
      rewrite map_length, seq_length, Nat.sub_diag. reflexivity. }
    assert (E0 : exists a', get (linspace O a b n) 0 = Ok a' /\ represents a' lo).
    { unfold n, linspace, get. replace (S (S m) - 1)%nat with (S m) by lia. cbn [seq map app nth_error].
      eexists. split; [reflexivity|]. cbn [o_add o_mul o_ofZ Fops].
      apply zero_add_rep; [|exact Ra]. exact (zero_mul_rep _ _ R2). }
    destruct E0 as (a' & E0 & Ra'). clearbody n. rewrite E0, E1 in Hax. cbn [bind] in Hax. injection Hax as <-.
    unfold to_grid. cbn [a_delta a_min].
    destruct (sub_rep _ _ _ _ Rb Ra') as (e1' & He1' & R1').
    { rewrite Rabs_pos_eq by lra. rewrite <- E10. lra. }
    assert (B1' : / 2 * (hi - lo) <= (hi - lo) * (1 + e1') <= 2 * (hi - lo)).
    { apply Rabs_le_inv in He1'. split; nra. }
    assert (Q1' : bpow radix2 (-1022) <= Rabs ((hi - lo) * (1 + e1') / (INR n - 1)) <= bpow radix2 1000).
    { rewrite Rabs_pos_eq by (apply Rle_mult_inv_pos; lra). split.
      - apply Rmult_le_reg_r with (INR n - 1); [lra|]. unfold Rdiv. rewrite Rmult_assoc, Rinv_l, Rmult_1_r by lra.
        apply Rle_trans with (/ 2 * bpow radix2 (- (900))); [|lra].
        change (-1022)%Z with (-900 + -122)%Z. rewrite bpow_plus. change (- (900))%Z with (-900)%Z.
        pose proof (bpow_gt_0 radix2 (-900)). assert (bpow radix2 (-122) * (INR n - 1) <= / 2).
        { apply Rle_trans with (bpow radix2 (-122) * 2147483647); [apply Rmult_le_compat_l; [apply bpow_ge_0|lra]|]. cbn. lra. }
        nra.
      - apply Rle_trans with ((hi - lo) * (1 + e1')).
        + unfold Rdiv. rewrite <- (Rmult_1_r ((hi - lo) * (1 + e1'))) at 2. apply Rmult_le_compat_l; [lra|].
          rewrite <- Rinv_1. apply Rinv_le_contravar; lra.
        + rewrite <- E10. lra. }
    clear D HD R2 e2 He2 R1 B1 Q1 e1 He1.
    destruct (div_rep _ _ _ _ R1' RN ltac:(lra) (proj2 Q1') (proj1 Q1')) as (e2 & He2 & R2).
    set (D := (hi - lo) * (1 + e1') / (INR n - 1) * (1 + e2)) in *.
    assert (HD : 0 < D).
    { unfold D. apply Rmult_lt_0_compat; [apply Rdiv_lt_0_compat; [nra|lra]|apply Rabs_le_inv in He2; lra]. }
    unfold np_div. cbn [o_eqb o_sub o_div o_ofZ Fops].
    change (o_zero O) with 0%float.
    rewrite (eqb_zero_rep _ _ RN) by lra. cbv iota.
    rewrite (eqb_zero_rep _ _ R2) by lra. cbv iota.
    set (p := position n lo hi X) in *.
    assert (EX : X - lo = p * (hi - lo) / (INR n - 1)) by (unfold p, position; field; lra).
    assert (BX : Rabs (X - lo) <= bpow radix2 1000).
    { rewrite EX. unfold Rdiv. rewrite 2!Rabs_mult. rewrite (Rabs_pos_eq (hi - lo)) by lra.
      rewrite (Rabs_pos_eq (/ _)) by (left; apply Rinv_0_lt_compat; lra).
      apply Rle_trans with (2147483648 * (hi - lo) * 1); [|rewrite <- E10; lra].
      apply Rmult_le_compat; [apply Rmult_le_pos; [apply Rabs_pos|lra]|left; apply Rinv_0_lt_compat; lra| |].
      - apply Rmult_le_compat_r; [lra|exact Hp].
      - rewrite <- Rinv_1. apply Rinv_le_contravar; lra. }
    destruct (sub_rep _ _ _ _ Rx Ra' BX) as (e3 & He3 & R3).
    set (g := (1 + e3) / ((1 + e1') * (1 + e2))).
    assert (NZ : (1 + e1') * (1 + e2) <> 0).
    { apply Rabs_le_inv in He1', He2. apply Rmult_integral_contrapositive_currified; lra. }
    assert (EQ : (X - lo) * (1 + e3) / D = p * g).
    { rewrite EX. unfold D, g. apply Rabs_le_inv in He1', He2. field. repeat split; lra. }
    assert (G : Rabs (g - 1) <= 5 * uround).
    { pose proof (quotient_err e3 0 e1' e2 He3 ltac:(rewrite Rabs_R0; lra) He1' He2) as H. rewrite Rplus_0_r, Rmult_1_r in H. exact H. }
    destruct (div_rep_any _ _ _ _ R3 R2 ltac:(lra)) as (e4 & h & He4 & Hh & R4 & Pos).
    { rewrite EQ, Rabs_mult. apply Rabs_le_inv in G. rewrite (Rabs_pos_eq g) by lra.
      apply Rle_trans with (2147483648 * 2); [apply Rmult_le_compat; [apply Rabs_pos|lra|exact Hp|lra]|rewrite <- E10; nra]. }
    eexists _, _. split; [reflexivity|]. split; [exact R4|]. split.
    - rewrite EQ. pose proof (quotient_err e3 e4 e1' e2 He3 He4 He1' He2) as H.
      replace (p * g * (1 + e4) + h - p) with (p * ((1 + e3) * (1 + e4) / ((1 + e1') * (1 + e2)) - 1) + h)
        by (unfold g; field; apply Rabs_le_inv in He1', He2; split; lra).
      eapply Rle_trans; [apply Rabs_triang|]. apply Rplus_le_compat; [|exact Hh]. rewrite Rabs_mult, Rmult_comm.
      apply Rmult_le_compat_r; [apply Rabs_pos|exact H].
    - intro Hp0. apply Pos. rewrite EQ. apply Rabs_le_inv in G. apply Rmult_le_pos; lra.
  Qed.
End Axis.
