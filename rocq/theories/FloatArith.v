(** Error bounds of the binary64 operations, on numbers far from overflow. *)
From Coq Require Import Reals Lia Lra Psatz Floats.
From Flocq Require Import Core Relative Plus_error BinarySingleNaN PrimFloat.
From Verif Require Import Base Num SpecFloat64 BatchFloat.
Local Open Scope R_scope.

Local Instance prec53 : Prec_gt_0 53 := eq_refl.

Definition uround : R := / 9007199254740992.
Definition tiny : R := bpow radix2 (-1075).

Lemma uround_bpow : uround = bpow radix2 (-53).
Proof. unfold uround. cbn. reflexivity. Qed.

Lemma rnd_err x : exists e h, Rabs e <= uround /\ Rabs h <= tiny /\ rnd64 x = x * (1 + e) + h.
Proof.
  destruct (error_N_FLT radix2 (-1074) 53 ltac:(lia) (fun x => negb (Z.even x)) x) as (e & h & He & Hh & _ & E).
  exists e, h. split; [|split; [|exact E]].
  - rewrite uround_bpow. replace (bpow radix2 (-53)) with (/2 * bpow radix2 (-53 + 1)); [exact He|]. cbn. lra.
  - unfold tiny. replace (bpow radix2 (-1075)) with (/2 * bpow radix2 (-1074)); [exact Hh|].
    change (-1074)%Z with (1 + -1075)%Z. rewrite bpow_plus. change (bpow radix2 1) with 2. field.
Qed.

Lemma tiny_small : 0 < tiny /\ tiny <= / 1000000.
Proof.
  split; [apply bpow_gt_0|]. unfold tiny. apply Rle_trans with (bpow radix2 (-20)); [apply bpow_le; lia|]. cbn. lra.
Qed.

Lemma rnd_lt x : Rabs x <= bpow radix2 1000 -> Rabs (rnd64 x) < bpow radix2 1024.
Proof.
  intro H. apply Rle_lt_trans with (bpow radix2 1000); [|apply bpow_lt; lia].
  apply abs_round_le_generic; [apply (FLT_exp_valid (-1074) 53)|apply valid_rnd_N|apply generic_format_bpow; unfold FLT_exp; lia|exact H].
Qed.

Lemma format_rep x X : represents x X -> generic_format radix2 fexp64 X.
Proof. rewrite represents_B. intros [_ <-]. apply (generic_format_B2R prec emax). Qed.

Lemma mul_rep x y X Y : represents x X -> represents y Y -> Rabs (X * Y) <= bpow radix2 1000 ->
  exists e h, Rabs e <= uround /\ Rabs h <= tiny /\ represents (PrimFloat.mul x y) (X * Y * (1 + e) + h).
Proof.
  rewrite !represents_B. intros [Hxf HX] [Hyf HY] Hb.
  pose proof (Bmult_correct prec emax Hprec Hmax mode_NE (Prim2B x) (Prim2B y)) as H.
  rewrite HX, HY in H. change (round_mode mode_NE) with ZnearestE in H.
  change (SpecFloat.fexp prec emax) with fexp64 in H. change emax with 1024%Z in H.
  rewrite (Rlt_bool_true _ _ (rnd_lt _ Hb)) in H. destruct H as (Hv & Hf & _).
  destruct (rnd_err (X * Y)) as (e & h & He & Hh & E). exists e, h. split; [exact He|]. split; [exact Hh|].
  rewrite represents_B, mul_equiv. rewrite E in Hv. change 1024%Z with emax in *.
  split; [rewrite Hf, Hxf, Hyf; reflexivity|exact Hv].
Qed.

Lemma plus_err X Y : generic_format radix2 fexp64 X -> generic_format radix2 fexp64 Y ->
  exists e, Rabs e <= uround /\ rnd64 (X + Y) = (X + Y) * (1 + e).
Proof.
  intros FX FY. destruct (FLT_plus_error_N_ex radix2 (-1074) 53 (fun x => negb (Z.even x)) X Y FX FY) as (e & He & E).
  exists e. split; [|exact E]. apply Rle_trans with (1 := He).
  assert (Hu : u_ro radix2 53 = uround) by (unfold u_ro; rewrite uround_bpow; cbn; lra).
  rewrite Hu. assert (0 < uround) by (unfold uround; lra).
  apply Rmult_le_reg_r with (1 + uround); [lra|]. unfold Rdiv. rewrite Rmult_assoc, Rinv_l by lra. nra.
Qed.

Lemma add_rep x y X Y : represents x X -> represents y Y -> Rabs (X + Y) <= bpow radix2 1000 ->
  exists e, Rabs e <= uround /\ represents (PrimFloat.add x y) ((X + Y) * (1 + e)).
Proof.
  intros Rx Ry Hb. destruct (plus_err X Y (format_rep _ _ Rx) (format_rep _ _ Ry)) as (e & He & E).
  revert Rx Ry. rewrite !represents_B. intros [Hxf HX] [Hyf HY].
  pose proof (Bplus_correct prec emax Hprec Hmax mode_NE (Prim2B x) (Prim2B y) Hxf Hyf) as H.
  rewrite HX, HY in H. change (round_mode mode_NE) with ZnearestE in H.
  change (SpecFloat.fexp prec emax) with fexp64 in H. change emax with 1024%Z in H.
  rewrite (Rlt_bool_true _ _ (rnd_lt _ Hb)) in H. destruct H as (Hv & Hf & _).
  exists e. split; [exact He|]. rewrite represents_B, add_equiv. rewrite E in Hv. split; [exact Hf|exact Hv].
Qed.

Lemma sub_rep x y X Y : represents x X -> represents y Y -> Rabs (X - Y) <= bpow radix2 1000 ->
  exists e, Rabs e <= uround /\ represents (PrimFloat.sub x y) ((X - Y) * (1 + e)).
Proof.
  intros Rx Ry Hb.
  destruct (plus_err X (- Y) (format_rep _ _ Rx) (generic_format_opp _ _ _ (format_rep _ _ Ry))) as (e & He & E).
  revert Rx Ry. rewrite !represents_B. intros [Hxf HX] [Hyf HY].
  pose proof (Bminus_correct prec emax Hprec Hmax mode_NE (Prim2B x) (Prim2B y) Hxf Hyf) as H.
  rewrite HX, HY in H. change (round_mode mode_NE) with ZnearestE in H.
  change (SpecFloat.fexp prec emax) with fexp64 in H. change emax with 1024%Z in H.
  rewrite (Rlt_bool_true _ _ (rnd_lt _ Hb)) in H. destruct H as (Hv & Hf & _).
  exists e. split; [exact He|]. rewrite represents_B, sub_equiv. unfold Rminus in *.
  rewrite E in Hv. split; [exact Hf|exact Hv].
Qed.

Lemma rep_zero_or_big x X : represents x X -> X = 0 \/ bpow radix2 (-1074) <= Rabs X.
Proof.
  intro H. apply format_rep in H. destruct (Req_dec X 0) as [|Hn]; [left; assumption|right].
  apply generic_format_ge_bpow with fexp64.
  - intro e. unfold FLT_exp. lia.
  - apply Rabs_pos_lt. exact Hn.
  - apply generic_format_abs. exact H.
Qed.

(** The square root of a non-negative number. *)
Lemma sqrt_rep x X : represents x X -> 0 <= X -> X <= bpow radix2 1000 ->
  exists e, Rabs e <= uround /\ represents (PrimFloat.sqrt x) (R_sqrt.sqrt X * (1 + e)).
Proof.
  intros Rx H0 Hb. pose proof (rep_zero_or_big _ _ Rx) as Hz.
  assert (He : exists e, Rabs e <= uround /\ rnd64 (R_sqrt.sqrt X) = R_sqrt.sqrt X * (1 + e)).
  { destruct Hz as [-> | Hz].
    - exists 0. rewrite sqrt_0, round_0, Rabs_R0 by apply valid_rnd_N. unfold uround. split; lra.
    - rewrite uround_bpow. apply rel64. rewrite (Rabs_pos_eq X H0) in Hz.
      rewrite Rabs_pos_eq by apply sqrt_pos.
      apply Rle_trans with (bpow radix2 (-537)); [apply bpow_le; lia|].
      rewrite <- (sqrt_Rsqr (bpow radix2 (-537))) by apply bpow_ge_0.
      apply sqrt_le_1_alt. unfold Rsqr. rewrite <- bpow_plus. exact Hz. }
  destruct He as (e & He & E). exists e. split; [exact He|].
  revert Rx. rewrite !represents_B. intros [Hxf HX].
  destruct (Bsqrt_correct prec emax Hprec Hmax mode_NE (Prim2B x)) as (Hv & Hf & _).
  rewrite HX in Hv. change (round_mode mode_NE) with ZnearestE in Hv.
  change (SpecFloat.fexp prec emax) with fexp64 in Hv. rewrite E in Hv. rewrite sqrt_equiv.
  split; [|exact Hv]. rewrite Hf. destruct (Prim2B x) as [s|s| |s m ex Hm]; try discriminate; try reflexivity.
  destruct s; [|reflexivity]. exfalso. cbn in HX.
  assert (F2R (Float radix2 (Z.neg m) ex) < 0) by (apply F2R_lt_0; cbn; lia). rewrite HX in H. lra.
Qed.

(** The square root of a negative number is a NaN. *)
Lemma sqrt_nan x X : represents x X -> X < 0 -> PrimFloat.sqrt x = PrimFloat.nan.
Proof.
  rewrite represents_B. intros [Hxf HX] Hn.
  assert (E : Prim2B (PrimFloat.sqrt x) = Prim2B PrimFloat.nan).
  { rewrite sqrt_equiv. destruct (Prim2B x) as [s|s| |s m ex Hm]; try discriminate.
    - cbn in HX. lra.
    - destruct s.
      + reflexivity.
      + exfalso. cbn in HX. assert (0 < F2R (Float radix2 (Z.pos m) ex)) by (apply F2R_gt_0; cbn; lia). rewrite HX in H. lra. }
  rewrite <- (B2Prim_Prim2B (PrimFloat.sqrt x)), E, B2Prim_Prim2B. reflexivity.
Qed.

Lemma ltb_rep x y X Y : represents x X -> represents y Y -> PrimFloat.ltb x y = Rlt_bool X Y.
Proof.
  rewrite !represents_B. intros [Hxf HX] [Hyf HY]. rewrite ltb_equiv, <- HX, <- HY. apply Bltb_correct; assumption.
Qed.

Lemma div_rep x y X Y : represents x X -> represents y Y -> Y <> 0 -> Rabs (X / Y) <= bpow radix2 1000 ->
  bpow radix2 (-1022) <= Rabs (X / Y) ->
  exists e, Rabs e <= uround /\ represents (PrimFloat.div x y) (X / Y * (1 + e)).
Proof.
  rewrite !represents_B. intros [Hxf HX] [Hyf HY] Hne Hb Hl.
  pose proof (Bdiv_correct prec emax Hprec Hmax mode_NE (Prim2B x) (Prim2B y)) as H.
  rewrite HY in H. specialize (H Hne).
  rewrite HX in H. change (round_mode mode_NE) with ZnearestE in H.
  change (SpecFloat.fexp prec emax) with fexp64 in H. change emax with 1024%Z in H.
  rewrite (Rlt_bool_true _ _ (rnd_lt _ Hb)) in H. destruct H as (Hv & Hf & _).
  destruct (rel64 _ Hl) as (e & He & E). rewrite E in Hv.
  exists e. rewrite uround_bpow. split; [exact He|]. rewrite represents_B, div_equiv. change 1024%Z with emax in *.
  split; [rewrite Hf; exact Hxf|exact Hv].
Qed.

Lemma eqb_zero_rep x X : represents x X -> X <> 0 -> PrimFloat.eqb x 0 = false.
Proof.
  rewrite represents_B. intros [Hxf HX] Hn. rewrite eqb_equiv.
  rewrite Beqb_correct by (try assumption; reflexivity). rewrite HX. apply Req_bool_false.
  cbn. exact Hn.
Qed.
