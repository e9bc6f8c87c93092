(** Floors, integers and weighted sums in binary64. *)
From Coq Require Import Reals Lia Lra Psatz Floats.
From Flocq Require Import Core Relative Plus_error Sterbenz BinarySingleNaN PrimFloat.
From Verif Require Import Base Num SpecFloat64 BatchFloat FloatArith.
Local Open Scope R_scope.

Local Instance prec53 : Prec_gt_0 53 := eq_refl.

Lemma floor_B2R (b : binary_float prec emax) : is_finite b = true ->
  Z_of_sf_floor (B2SF b) = Some (Int_part (B2R b)).
Proof.
  change Int_part with Zfloor.
  destruct b as [s|s| |s m e Hm]; cbn [is_finite B2SF B2R]; try discriminate; intros _.
  - cbn. rewrite Zfloor_IZR. reflexivity.
  - cbn [Z_of_sf_floor]. f_equal. replace (cond_Zopp s (Z.pos m)) with (if s then Z.neg m else Z.pos m) by (destruct s; reflexivity).
    set (v := if s then Z.neg m else Z.pos m). unfold F2R. cbn [Fnum Fexp]. destruct e as [|k|k].
    + cbn. rewrite Rmult_1_r. symmetry. apply Zfloor_IZR.
    + rewrite <- IZR_Zpower by lia. rewrite <- mult_IZR, Zfloor_IZR, Z.shiftl_mul_pow2 by lia. reflexivity.
    + rewrite Z.shiftr_div_pow2 by lia.
      change (Zneg k) with (- Zpos k)%Z. rewrite bpow_opp, <- IZR_Zpower by lia.
      change (IZR v * / IZR (radix2 ^ Z.pos k)) with (IZR v / IZR (radix2 ^ Z.pos k)).
      assert (Hp : (0 < radix2 ^ Z.pos k)%Z) by (apply Z.pow_pos_nonneg; cbn; lia).
      rewrite Zfloor_div by lia. reflexivity.
Qed.

Lemma floor_rep lnF x X : represents x X -> o_floor (Fops lnF) x = Some (Int_part X).
Proof.
  rewrite represents_B. intros [Hf <-]. cbn [o_floor Fops]. rewrite <- B2SF_Prim2B. apply floor_B2R. exact Hf.
Qed.

Lemma int_rep z : (Z.abs z <= 2 ^ 53)%Z -> represents (F_ofZ z) (IZR z).
Proof.
  intro Hz.
  assert (G : forall sz, represents (SF2Prim (SpecFloat.binary_normalize prec emax z 0 sz)) (IZR z)).
  { intro sz. rewrite binary_normalize_equiv. fold (B2Prim (BinarySingleNaN.binary_normalize prec emax Hprec Hmax mode_NE z 0 sz)).
    rewrite represents_B, Prim2B_B2Prim.
    pose proof (binary_normalize_correct prec emax Hprec Hmax mode_NE z 0 sz) as H. cbv zeta in H.
    change (round_mode mode_NE) with ZnearestE in H. change (SpecFloat.fexp prec emax) with fexp64 in H.
    assert (E : F2R (Float radix2 z 0) = IZR z) by (unfold F2R; cbn; ring). rewrite E in H.
    rewrite (round_generic radix2 fexp64 ZnearestE (IZR z) (int_format z Hz)) in H.
    rewrite Rlt_bool_true in H.
    - destruct H as (Hv & Hf & _). split; assumption.
    - rewrite <- abs_IZR. apply Rle_lt_trans with (bpow radix2 53).
      + rewrite <- IZR_Zpower by lia. apply IZR_le. exact Hz.
      + apply bpow_lt. reflexivity. }
  destruct z as [|p|p]; [|apply G|apply G].
  split; [reflexivity|]. change (Prim2SF (F_ofZ 0)) with (S754_zero false). reflexivity.
Qed.

(** Removing the integer part is exact. *)
Lemma frac_rep x X : represents x X -> 0 <= X -> X <= 2147483648 ->
  represents (PrimFloat.sub x (F_ofZ (Int_part X))) (X - IZR (Int_part X)).
Proof.
  intros Rx H0 H1. destruct (base_Int_part X) as [A B].
  assert (P0 : (0 <= Int_part X)%Z).
  { assert (IZR (-1) < IZR (Int_part X)) by lra. apply lt_IZR in H. lia. }
  assert (P1 : (Int_part X <= 2147483648)%Z) by (apply le_IZR; lra).
  pose proof (int_rep (Int_part X) ltac:(rewrite Z.abs_eq by exact P0; lia)) as Rz.
  set (z := Int_part X) in *.
  assert (F : generic_format radix2 fexp64 (X - IZR z)).
  { destruct (Z_le_lt_eq_dec _ _ P0) as [Pz|<-].
    - apply sterbenz; [apply (FLT_exp_valid (-1074) 53)|apply FLT_exp_monotone|exact (format_rep _ _ Rx)|exact (format_rep _ _ Rz)|].
      assert (1 <= IZR z) by (apply IZR_le; lia). lra.
    - rewrite Rminus_0_r. exact (format_rep _ _ Rx). }
  revert Rx Rz. rewrite !represents_B. intros [Hxf HX] [Hyf HY].
  pose proof (Bminus_correct prec emax Hprec Hmax mode_NE _ _ Hxf Hyf) as H.
  rewrite HX, HY in H. change (round_mode mode_NE) with ZnearestE in H.
  change (SpecFloat.fexp prec emax) with fexp64 in H. rewrite (round_generic _ _ _ _ F) in H.
  rewrite Rlt_bool_true in H.
  - destruct H as (Hv & Hf & _). rewrite sub_equiv. split; assumption.
  - apply Rle_lt_trans with (bpow radix2 31); [|apply bpow_lt; reflexivity].
    change (bpow radix2 31) with 2147483648. apply Rabs_le. assert (0 <= IZR z) by (apply IZR_le; exact P0). lra.
Qed.

(* ---- error propagation ---- *)

Lemma uround_val : 0 < uround /\ uround <= / 1000000.
Proof. unfold uround. lra. Qed.

Lemma big_950 : 4 * bpow radix2 950 <= bpow radix2 1000 /\ 1 <= bpow radix2 950.
Proof.
  split.
  - change 4 with (bpow radix2 2). rewrite <- bpow_plus. apply bpow_le. lia.
  - change 1 with (bpow radix2 0). apply bpow_le. lia.
Qed.

Lemma abs_mul_le a b A B : Rabs a <= A -> Rabs b <= B -> Rabs (a * b) <= A * B.
Proof. intros. rewrite Rabs_mult. apply Rmult_le_compat; try apply Rabs_pos; assumption. Qed.

(** The complement of a weight. *)
Lemma complement_rep d D : represents d D -> 0 <= D <= 1 ->
  exists W, represents (PrimFloat.sub (F_ofZ 1) d) W /\ Rabs (W - (1 - D)) <= uround.
Proof.
  intros Rd HD. pose proof (int_rep 1 ltac:(lia)) as R1. destruct big_950 as [B1 B2]. destruct uround_val as [U0 U1].
  destruct (sub_rep _ _ _ _ R1 Rd) as (e & He & R).
  - apply Rle_trans with 1; [apply Rabs_le; lra|lra].
  - eexists. split; [exact R|]. replace ((1 - D) * (1 + e) - (1 - D)) with ((1 - D) * e) by ring.
    replace uround with (1 * uround) by ring. apply abs_mul_le; [apply Rabs_le; lra|exact He].
Qed.

(** A product with a weight. *)
Lemma weighted x w X W M E X0 W0 : represents x X -> represents w W -> Rabs (X - X0) <= E -> Rabs X0 <= M ->
  0 <= W0 <= 1 -> Rabs (W - W0) <= uround -> M + E <= bpow radix2 950 ->
  exists P, represents (PrimFloat.mul x w) P /\ Rabs (P - X0 * W0) <= W0 * E + 3 * uround * (M + E) + tiny.
Proof.
  intros Rx Rw HX HM HW HWe Hb. destruct big_950 as [B1 B2]. destruct uround_val as [U0 U1].
  assert (PE : 0 <= E) by (eapply Rle_trans; [apply Rabs_pos|exact HX]).
  assert (PM : 0 <= M) by (eapply Rle_trans; [apply Rabs_pos|exact HM]).
  assert (AX : Rabs X <= M + E) by (replace X with (X0 + (X - X0)) by ring; eapply Rle_trans; [apply Rabs_triang|lra]).
  assert (AW : Rabs W <= 1 + uround).
  { replace W with (W0 + (W - W0)) by ring. eapply Rle_trans; [apply Rabs_triang|]. rewrite (Rabs_pos_eq W0) by lra. lra. }
  pose proof (abs_mul_le _ _ _ _ AX AW) as AXW.
  destruct (mul_rep _ _ _ _ Rx Rw) as (e & h & He & Hh & R).
  - eapply Rle_trans; [exact AXW|]. nra.
  - eexists. split; [exact R|].
    replace (X * W * (1 + e) + h - X0 * W0) with ((X * (W - W0) + W0 * (X - X0)) + X * W * e + h) by ring.
    pose proof (abs_mul_le _ _ _ _ AX HWe) as T1.
    pose proof (abs_mul_le W0 (X - X0) W0 E ltac:(rewrite Rabs_pos_eq; lra) HX) as T2.
    pose proof (abs_mul_le _ _ _ _ AXW He) as T3.
    eapply Rle_trans; [apply Rabs_triang|]. eapply Rle_trans; [apply Rplus_le_compat; [apply Rabs_triang|exact Hh]|].
    eapply Rle_trans; [apply Rplus_le_compat_r, Rplus_le_compat; [apply Rabs_triang|exact T3]|].
    assert ((M + E) * (1 + uround) * uround <= 2 * uround * (M + E)).
    { replace ((M + E) * (1 + uround) * uround) with (uround * (M + E) * (1 + uround)) by ring.
      replace (2 * uround * (M + E)) with (uround * (M + E) * 2) by ring. apply Rmult_le_compat_l; [apply Rmult_le_pos; lra|lra]. }
    nra.
Qed.

Lemma summed x y X Y X0 Y0 E F M : represents x X -> represents y Y -> Rabs (X - X0) <= E -> Rabs (Y - Y0) <= F ->
  Rabs (X0 + Y0) <= M -> M + E + F <= bpow radix2 950 ->
  exists S, represents (PrimFloat.add x y) S /\ Rabs (S - (X0 + Y0)) <= E + F + uround * (M + E + F).
Proof.
  intros Rx Ry HX HY HM Hb. destruct big_950 as [B1 B2]. destruct uround_val as [U0 U1].
  assert (A : Rabs (X + Y - (X0 + Y0)) <= E + F).
  { replace (X + Y - (X0 + Y0)) with ((X - X0) + (Y - Y0)) by ring. eapply Rle_trans; [apply Rabs_triang|lra]. }
  assert (B : Rabs (X + Y) <= M + E + F).
  { replace (X + Y) with ((X0 + Y0) + (X + Y - (X0 + Y0))) by ring. eapply Rle_trans; [apply Rabs_triang|lra]. }
  destruct (add_rep _ _ _ _ Rx Ry ltac:(lra)) as (e & He & R). eexists. split; [exact R|].
  replace ((X + Y) * (1 + e) - (X0 + Y0)) with ((X + Y - (X0 + Y0)) + (X + Y) * e) by ring.
  pose proof (abs_mul_le _ _ _ _ B He). eapply Rle_trans; [apply Rabs_triang|]. lra.
Qed.
