(** Window lengths in binary64. *)
From Coq Require Import Reals Lia Lra Psatz Floats.
From Flocq Require Import Core Relative BinarySingleNaN PrimFloat.
From Verif Require Import Base Num Batches SpecFloat64.
Local Open Scope R_scope.

Notation fexp64 := (FLT_exp (-1074) 53).
Notation rnd64 := (round radix2 fexp64 ZnearestE).

Lemma trunc_B2R (b : binary_float prec emax) : is_finite b = true ->
  Z_of_sf_trunc (B2SF b) = Some (Ztrunc (B2R b)).
Proof.
  destruct b as [s|s| |s m e Hm]; cbn [is_finite B2SF B2R]; try discriminate; intros _.
  - cbn. rewrite Ztrunc_IZR. reflexivity.
  - cbn [Z_of_sf_trunc]. f_equal.
    assert (G : Ztrunc (F2R (Float radix2 (Zpos m) e)) =
                match e with Z0 => Zpos m | Zpos k => Z.shiftl (Zpos m) (Zpos k) | Zneg k => Z.shiftr (Zpos m) (Zpos k) end).
    { unfold F2R. cbn [Fnum Fexp]. destruct e as [|k|k].
      - cbn. rewrite Rmult_1_r. apply Ztrunc_IZR.
      - rewrite <- IZR_Zpower by lia. rewrite <- mult_IZR, Ztrunc_IZR, Z.shiftl_mul_pow2 by lia. reflexivity.
      - rewrite Z.shiftr_div_pow2 by lia.
        change (Zneg k) with (- Zpos k)%Z. rewrite bpow_opp, <- IZR_Zpower by lia.
        change (IZR (Zpos m) * / IZR (radix2 ^ Z.pos k)) with (IZR (Zpos m) / IZR (radix2 ^ Z.pos k)).
        assert (Hp : (0 < radix2 ^ Z.pos k)%Z) by (apply Z.pow_pos_nonneg; cbn; lia).
        rewrite Ztrunc_floor by (apply Rle_mult_inv_pos; [apply IZR_le; lia|apply IZR_lt; exact Hp]).
        rewrite Zfloor_div by lia. reflexivity. }
    destruct s; cbn [cond_Zopp].
    + replace (F2R (Float radix2 (- Zpos m) e)) with (- F2R (Float radix2 (Zpos m) e)) by (symmetry; apply F2R_Zopp).
      rewrite Ztrunc_opp, G. reflexivity.
    + symmetry. exact G.
Qed.

Lemma represents_B x r : represents x r <-> is_finite (Prim2B x) = true /\ B2R (Prim2B x) = r.
Proof.
  unfold represents. rewrite <- B2SF_Prim2B, is_finite_SF_B2SF, SF2R_B2SF. reflexivity.
Qed.

Lemma window_B lnF period h P H : represents period P -> represents h H -> H <> 0 ->
  Rabs (rnd64 (P / Rabs H)) < bpow radix2 1024 ->
  window_length (Fops lnF) period h = Ok (Ztrunc (rnd64 (P / Rabs H)) + 1)%Z.
Proof.
  rewrite !represents_B. intros [HPf HP] [HHf HH] Hn Hlt. unfold window_length, py_div. cbn [Fops o_eqb o_abs o_div o_trunc].
  assert (Ea : is_finite (Prim2B (PrimFloat.abs h)) = true /\ B2R (Prim2B (PrimFloat.abs h)) = Rabs H).
  { rewrite abs_equiv, is_finite_Babs, B2R_Babs, HH. split; [exact HHf|reflexivity]. }
  destruct Ea as [Eaf Ea].
  assert (Eq : PrimFloat.eqb (PrimFloat.abs h) (o_zero (Fops lnF)) = false).
  { change (o_zero (Fops lnF)) with Coq.Floats.PrimFloat.zero. rewrite eqb_equiv. rewrite Beqb_correct by (exact Eaf || reflexivity).
    rewrite Ea. apply Req_bool_false. cbn. pose proof (Rabs_pos_lt _ Hn). lra. }
  rewrite Eq. cbn [bind].
  assert (Hne : B2R (Prim2B (PrimFloat.abs h)) <> 0) by (rewrite Ea; pose proof (Rabs_pos_lt _ Hn); lra).
  pose proof (Bdiv_correct prec emax Hprec Hmax mode_NE (Prim2B period) _ Hne) as Hd.
  rewrite Ea, HP in Hd. change (round_mode mode_NE) with ZnearestE in Hd.
  change (SpecFloat.fexp prec emax) with fexp64 in Hd. change emax with 1024%Z in Hd.
  rewrite (Rlt_bool_true _ _ Hlt) in Hd. destruct Hd as (Hv & Hf & _).
  rewrite <- B2SF_Prim2B, div_equiv, trunc_B2R by (rewrite <- HPf; exact Hf).
  change emax with 1024%Z. rewrite Hv. reflexivity.
Qed.

Lemma int_format k : (Z.abs k <= 2 ^ 53)%Z -> generic_format radix2 fexp64 (IZR k).
Proof.
  intros Hk. destruct (Z.eq_dec (Z.abs k) (2 ^ 53)) as [E|E].
  - assert (G : generic_format radix2 fexp64 (IZR (2 ^ 53))).
    { change (2 ^ 53)%Z with (radix2 ^ 53)%Z. rewrite IZR_Zpower by lia. apply generic_format_bpow. cbn. lia. }
    destruct (Z.abs_spec k) as [[_ Ea]|[_ Ea]]; rewrite Ea in E.
    + rewrite E. exact G.
    + replace k with (- 2 ^ 53)%Z by lia. rewrite opp_IZR. apply generic_format_opp. exact G.
  - apply generic_format_FLT. exists (Float radix2 k 0).
    + unfold F2R. cbn. ring.
    + cbn [Fnum]. change (radix2 ^ 53)%Z with (2 ^ 53)%Z. lia.
    + cbn. lia.
Qed.

Lemma window_exact lnF period h d k : represents h d -> d <> 0 -> (Z.abs k <= 2 ^ 53)%Z ->
  represents period (IZR k * Rabs d) -> window_length (Fops lnF) period h = Ok (k + 1)%Z.
Proof.
  intros Hh Hd Hk Hp. pose proof (Rabs_pos_lt _ Hd).
  assert (E : rnd64 (IZR k * Rabs d / Rabs d) = IZR k).
  { replace (IZR k * Rabs d / Rabs d) with (IZR k) by (field; lra). apply round_generic; [typeclasses eauto|]. apply int_format. exact Hk. }
  rewrite (window_B _ _ _ _ _ Hp Hh Hd); rewrite E.
  - rewrite Ztrunc_IZR. reflexivity.
  - rewrite <- abs_IZR. apply Rle_lt_trans with (IZR (2 ^ 53)); [apply IZR_le; exact Hk|].
    change (2 ^ 53)%Z with (radix2 ^ 53)%Z. rewrite IZR_Zpower by lia. apply bpow_lt. lia.
Qed.

Lemma rel64 x : bpow radix2 (-1022) <= Rabs x -> exists e, Rabs e <= bpow radix2 (-53) /\ rnd64 x = x * (1 + e).
Proof.
  intro Hx. destruct (relative_error_N_FLT_ex radix2 (-1074) 53 eq_refl (fun x => negb (Z.even x)) x Hx) as (e & He & E).
  exists e. split; [|exact E]. replace (bpow radix2 (-53)) with (/2 * bpow radix2 (-53 + 1)); [exact He|].
  cbn. lra.
Qed.

Lemma window_near lnF period h d k : nearest h d -> nearest period (IZR k * Rabs d) ->
  bpow radix2 (-1000) <= Rabs d -> (1 <= k <= 2 ^ 50)%Z ->
  window_length (Fops lnF) period h = Ok k \/ window_length (Fops lnF) period h = Ok (k + 1)%Z.
Proof.
  intros Hh Hp Hd Hk. set (u := bpow radix2 (-53)).
  assert (Hu : 0 < u /\ u * IZR (2 ^ 50) = 1/8).
  { split; [apply bpow_gt_0|]. unfold u. change (2 ^ 50)%Z with (radix2 ^ 50)%Z. rewrite IZR_Zpower by lia.
    rewrite <- bpow_plus. cbn. lra. }
  destruct Hu as [Hu Hu50].
  assert (HK : 1 <= IZR k <= IZR (2 ^ 50)) by (split; apply IZR_le; lia).
  assert (Hu4 : u <= 1/1000) by (assert (1000 <= IZR (2 ^ 50)) by (apply IZR_le; lia); nra).
  assert (Hd0 : 0 < Rabs d) by (pose proof (bpow_gt_0 radix2 (-1000)); lra).
  assert (Hmon : bpow radix2 (-1022) <= bpow radix2 (-1000)) by (apply bpow_le; lia).
  destruct (rel64 d) as (b & Hb & Eb); [lra|]. fold u in Hb.
  destruct (rel64 (IZR k * Rabs d)) as (a & Ha & Ea).
  { rewrite Rabs_mult, Rabs_Rabsolu, (Rabs_pos_eq (IZR k)) by lra. nra. }
  fold u in Ha. apply Rabs_le_inv in Ha, Hb.
  unfold nearest in Hh, Hp. rewrite Eb in Hh. rewrite Ea in Hp.
  assert (EH : Rabs (d * (1 + b)) = Rabs d * (1 + b)) by (rewrite Rabs_mult, (Rabs_pos_eq (1 + b)) by lra; reflexivity).
  assert (Hn : d * (1 + b) <> 0).
  { intro E. rewrite E, Rabs_R0 in EH. assert (0 < Rabs d * (1 + b)) by (apply Rmult_lt_0_compat; lra). lra. }
  set (x := IZR k * Rabs d * (1 + a) / Rabs (d * (1 + b))).
  assert (Ex : x = IZR k * ((1 + a) / (1 + b))) by (unfold x; rewrite EH; field; lra).
  assert (Hr : 1 - 3 * u <= (1 + a) / (1 + b) <= 1 + 3 * u).
  { split; apply Rmult_le_reg_r with (1 + b); try lra; unfold Rdiv; rewrite Rmult_assoc, Rinv_l, Rmult_1_r by lra; nra. }
  assert (Hx : IZR k * (1 - 3 * u) <= x <= IZR k * (1 + 3 * u)) by (rewrite Ex; split; apply Rmult_le_compat_l; lra).
  assert (Hx1 : 1/2 <= x) by nra.
  destruct (rel64 x) as (c & Hc & Ec).
  { rewrite Rabs_pos_eq by lra. apply Rle_trans with (bpow radix2 (-1)); [apply bpow_le; lia|cbn; lra]. }
  fold u in Hc. apply Rabs_le_inv in Hc.
  assert (Hy : IZR k - 1 < rnd64 x < IZR k + 1).
  { rewrite Ec. assert (IZR k * u <= 1/8) by nra. split; nra. }
  assert (Hy0 : 0 <= rnd64 x) by (rewrite Ec; apply Rmult_le_pos; lra).
  assert (Hw : window_length (Fops lnF) period h = Ok (Ztrunc (rnd64 x) + 1)%Z).
  { apply window_B; [exact Hp|exact Hh|exact Hn|]. fold x. rewrite Rabs_pos_eq by exact Hy0.
    apply Rlt_trans with (bpow radix2 51); [|apply bpow_lt; lia].
    apply Rlt_le_trans with (IZR (2 ^ 50) + 1); [lra|].
    rewrite <- IZR_Zpower by lia. rewrite <- plus_IZR. apply IZR_le. cbn. lia. }
  rewrite Hw. rewrite Ztrunc_floor by exact Hy0.
  assert (Hz : (k - 1 <= Zfloor (rnd64 x) <= k)%Z).
  { split.
    - apply Zfloor_lub. rewrite minus_IZR. lra.
    - pose proof (Zfloor_lb (rnd64 x)) as Hl. assert (IZR (Zfloor (rnd64 x)) < IZR (k + 1)) by (rewrite plus_IZR; lra).
      apply lt_IZR in H. lia. }
  destruct (Z.eq_dec (Zfloor (rnd64 x)) k) as [E|E]; [right|left]; f_equal; lia.
Qed.
