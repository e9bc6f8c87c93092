(** Accuracy of the 2D FTLE in binary64: the theorems. *)
From Coq Require Import Reals Lia Lra Psatz Floats.
From Flocq Require Import Core BinarySingleNaN PrimFloat.
From Verif Require Import Base Num Jacobian Ftle SpecFtle SpecFloat64 SpecAccuracy BatchFloat FloatArith FtleFacts2 FtleAccuracy.
Local Open Scope R_scope.

Lemma by_B x y : Prim2B x = Prim2B y -> x = y.
Proof. intro E. rewrite <- (B2Prim_Prim2B x), E. apply B2Prim_Prim2B. Qed.

Lemma add_nan x : PrimFloat.add x PrimFloat.nan = PrimFloat.nan.
Proof. apply by_B. rewrite add_equiv. destruct (Prim2B x); reflexivity. Qed.
Lemma sub_nan x : PrimFloat.sub x PrimFloat.nan = PrimFloat.nan.
Proof. apply by_B. rewrite sub_equiv. destruct (Prim2B x); reflexivity. Qed.
Lemma mul_nan x : PrimFloat.mul x PrimFloat.nan = PrimFloat.nan.
Proof. apply by_B. rewrite mul_equiv. destruct (Prim2B x); reflexivity. Qed.

Lemma pow_bpow n : 2 ^ n = bpow radix2 (Z.of_nat n).
Proof.
  induction n as [|n IH]; [reflexivity|]. cbn [pow]. rewrite IH.
  replace (Z.of_nat (S n)) with (1 + Z.of_nat n)%Z by lia. rewrite bpow_plus. reflexivity.
Qed.

Lemma represents_of x e m : Prim2SF x = S754_finite false m e -> represents x (IZR (Z.pos m) * bpow radix2 e).
Proof. intro E. unfold represents. rewrite E. split; reflexivity. Qed.

Lemma represents_four : represents (F_ofZ 4) 4.
Proof.
  replace 4 with (IZR (Z.pos 4503599627370496) * bpow radix2 (-50)).
  - apply represents_of. vm_compute. reflexivity.
  - cbn. lra.
Qed.

Lemma represents_half : represents (PrimFloat.div (F_ofZ 1) (F_ofZ 2)) (1 / 2).
Proof.
  replace (1 / 2) with (IZR (Z.pos 4503599627370496) * bpow radix2 (-53)).
  - apply represents_of. vm_compute. reflexivity.
  - cbn. lra.
Qed.

Lemma represents_one : represents (F_ofZ 1) 1.
Proof.
  replace 1 with (IZR (Z.pos 4503599627370496) * bpow radix2 (-52)).
  - apply represents_of. vm_compute. reflexivity.
  - cbn. lra.
Qed.

(** Range of the sum of the squares. *)
Lemma moderate_range G : moderate G ->
  let t := (a00 G * a00 G + a10 G * a10 G) + (a01 G * a01 G + a11 G * a11 G) in
  bpow radix2 (-400) <= t <= bpow radix2 402.
Proof.
  intros [Hu Hl] t.
  assert (Hsq : forall x, Rabs x * Rabs x = x * x).
  { intro x. rewrite <- Rabs_mult. apply Rabs_pos_eq. nra. }
  assert (U : forall x, Rabs x <= 2 ^ 200 -> x * x <= bpow radix2 400).
  { intros x Hx. rewrite <- Hsq. change (bpow radix2 400) with (bpow radix2 (200 + 200)).
    rewrite bpow_plus. rewrite pow_bpow in Hx. pose proof (Rabs_pos x). apply Rmult_le_compat; assumption. }
  assert (L : forall x, / 2 ^ 200 <= Rabs x -> bpow radix2 (-400) <= x * x).
  { intros x Hx. rewrite <- Hsq. change (bpow radix2 (-400)) with (bpow radix2 (-200 + -200)).
    rewrite bpow_plus. rewrite pow_bpow, <- bpow_opp in Hx. change (- Z.of_nat 200)%Z with (-200)%Z in Hx.
    pose proof (bpow_ge_0 radix2 (-200)). apply Rmult_le_compat; assumption. }
  assert (P : forall x, 0 <= x * x) by (intro; nra).
  pose proof (P (a00 G)). pose proof (P (a01 G)). pose proof (P (a10 G)). pose proof (P (a11 G)).
  split.
  - repeat match goal with
      | H : Exists _ (_ :: _) |- _ => inversion H as [? ? Hx|? ? Hx]; clear H; subst; [apply L in Hx; unfold t; lra|rename Hx into Hl]
      | H : Exists _ [] |- _ => inversion H
      end.
  - change (bpow radix2 402) with (bpow radix2 (2 + 400)). rewrite bpow_plus. change (bpow radix2 2) with 4.
    inversion Hu as [|? ? H4 Hu1]; subst. inversion Hu1 as [|? ? H5 Hu2]; subst.
    inversion Hu2 as [|? ? H6 Hu3]; subst. inversion Hu3 as [|? ? H7 _]; subst.
    apply U in H4, H5, H6, H7. unfold t. lra.
Qed.

Lemma range_use t : bpow radix2 (-400) <= t <= bpow radix2 402 ->
  0 < t /\ 100 * t <= bpow radix2 1000 /\ 100 * (t * t) <= bpow radix2 1000 /\
  1000000 * tiny <= uround * t /\ 1000000 * tiny <= uround * (t * t).
Proof.
  intros [L U]. pose proof (bpow_gt_0 radix2 (-400)) as P. assert (Hp : 0 < t) by lra.
  assert (L2 : bpow radix2 (-800) <= t * t).
  { change (bpow radix2 (-800)) with (bpow radix2 (-400 + -400)). rewrite bpow_plus. apply Rmult_le_compat; lra. }
  assert (U2 : t * t <= bpow radix2 804).
  { change (bpow radix2 804) with (bpow radix2 (402 + 402)). rewrite bpow_plus. apply Rmult_le_compat; lra. }
  assert (B7 : 100 <= bpow radix2 7) by (cbn; lra).
  assert (B20 : 1000000 <= bpow radix2 20) by (cbn; lra).
  assert (T1 : 1000000 * tiny <= bpow radix2 (-1055)).
  { change (-1055)%Z with (20 + -1075)%Z. rewrite bpow_plus. apply Rmult_le_compat_r; [apply bpow_ge_0|exact B20]. }
  rewrite uround_bpow. split; [exact Hp|]. split; [|split; [|split]].
  - apply Rle_trans with (bpow radix2 7 * bpow radix2 402); [apply Rmult_le_compat; lra|].
    rewrite <- bpow_plus. apply bpow_le. lia.
  - apply Rle_trans with (bpow radix2 7 * bpow radix2 804); [apply Rmult_le_compat; nra|].
    rewrite <- bpow_plus. apply bpow_le. lia.
  - apply Rle_trans with (1 := T1). apply Rle_trans with (bpow radix2 (-53) * bpow radix2 (-400)).
    + rewrite <- bpow_plus. apply bpow_le. lia.
    + apply Rmult_le_compat_l; [apply bpow_ge_0|exact L].
  - apply Rle_trans with (1 := T1). apply Rle_trans with (bpow radix2 (-53) * bpow radix2 (-800)).
    + rewrite <- bpow_plus. apply bpow_le. lia.
    + apply Rmult_le_compat_l; [apply bpow_ge_0|exact L2].
Qed.

(** What is known about the number whose logarithm is taken. *)
Definition good_arg (G : m22 R) (x : PrimFloat.float) (s : R) : Prop :=
  (x = PrimFloat.nan /\ (1 - / 2 ^ 22) * (s * s * (s * s)) < det22 G * det22 G) \/
  exists r, represents x r /\ Rabs (r - s) <= / 2 ^ 24 * s.

Lemma entry_accurate lnF F G : stands_for F G -> moderate G ->
  exists x s, spectral_norm_2 G s /\ bpow radix2 (-401) <= s * s <= bpow radix2 402 /\ 0 < s /\
    log_sqrt (Fops lnF) (max_eig_2x2 (Fops lnF) (cauchy_green_2x2 (Fops lnF) F)) = XVal (lnF x) /\ good_arg G x s.
Proof.
  intros (R0 & R1 & R2 & R3) Hm. pose proof (moderate_range G Hm) as Hr. cbv zeta in Hr.
  set (t := (a00 G * a00 G + a10 G * a10 G) + (a01 G * a01 G + a11 G * a11 G)) in *.
  destruct (range_use t Hr) as (Hp & Hb & Hb2 & Hs & Hs2).
  pose proof (step_eig _ _ _ _ _ _ _ _ t R0 R1 R2 R3 eq_refl Hp Hb Hb2 Hs Hs2 _ _ lnF represents_four represents_half) as He.
  cbv zeta in He.
  set (A := a00 G * a00 G + a10 G * a10 G) in *.
  set (D := a01 G * a01 G + a11 G * a11 G) in *.
  set (B := a00 G * a01 G + a10 G * a11 G) in *.
  assert (El : lam (a00 (mul22 (tr22 G) G)) (a01 (mul22 (tr22 G) G)) (a11 (mul22 (tr22 G) G)) = lam A B D).
  { reflexivity. }
  pose proof (spectral_norm_lam G) as Hn. cbv zeta in Hn. rewrite El in Hn.
  pose proof (disc_pos A B D) as Hd. pose proof (sqrt_pos ((A - D) * (A - D) + 4 * B * B)) as HS.
  pose proof (sqrt_sqrt _ Hd) as HSS.
  assert (EA : A + D = t) by reflexivity.
  assert (Hdet : det22 G * det22 G = A * D - B * B) by (unfold det22, A, B, D; ring).
  assert (E4 : (A - D) * (A - D) + 4 * B * B = t * t - 4 * (det22 G * det22 G)) by (rewrite Hdet, <- EA; ring).
  assert (Hl : lam A B D = / 2 * (t + R_sqrt.sqrt ((A - D) * (A - D) + 4 * B * B))) by reflexivity.
  assert (HSt : R_sqrt.sqrt ((A - D) * (A - D) + 4 * B * B) <= t).
  { rewrite <- (sqrt_square t) by lra. apply sqrt_le_1_alt. rewrite E4. nra. }
  set (S := R_sqrt.sqrt ((A - D) * (A - D) + 4 * B * B)) in *.
  assert (Hlp : 0 < lam A B D) by lra.
  assert (Hss : R_sqrt.sqrt (lam A B D) * R_sqrt.sqrt (lam A B D) = lam A B D) by (apply sqrt_sqrt; lra).
  assert (Hsp : 0 < R_sqrt.sqrt (lam A B D)) by (apply sqrt_lt_R0; exact Hlp).
  set (s := R_sqrt.sqrt (lam A B D)) in *.
  unfold max_eig_2x2. cbn [o_sqrt Fops].
  eexists. exists s. split; [exact Hn|]. split; [|split; [exact Hsp|split; [reflexivity|]]].
  { rewrite Hss. split; [|lra]. change (-401)%Z with (-1 + -400)%Z. rewrite bpow_plus. change (bpow radix2 (-1)) with (/ 2). lra. }
  destruct He as [[En Hlt]|He].
  - left. split.
    + match goal with |- PrimFloat.sqrt (o_max _ ?u ?v) = _ => assert (u = PrimFloat.nan); [|assert (v = PrimFloat.nan)] end.
      * etransitivity; [|apply mul_nan]. cbn [o_mul Fops]. f_equal. etransitivity; [|apply add_nan].
        cbn [o_add Fops]. f_equal. exact En.
      * etransitivity; [|apply mul_nan]. cbn [o_mul Fops]. f_equal. etransitivity; [|apply sub_nan].
        cbn [o_sub Fops]. f_equal. exact En.
      * rewrite H, H0. reflexivity.
    + rewrite Hss, Hl. rewrite <- HSS in Hlt, E4.
      assert (HSm : S <= / 14000000 * t).
      { apply Rnot_lt_le. intro C. assert (/ 14000000 * t * (/ 14000000 * t) <= S * S) by (apply Rmult_le_compat; lra).
        unfold uround in Hlt. lra. }
      rewrite pow_bpow. change (bpow radix2 (Z.of_nat 22)) with 4194304.
      assert (Ed : det22 G * det22 G = / 2 * (t + S) * (/ 2 * (t - S))) by lra. rewrite Ed.
      rewrite <- Rmult_assoc. rewrite (Rmult_comm (1 - _)), !Rmult_assoc. rewrite <- (Rmult_assoc (/ 2) (t + S)).
      rewrite <- (Rmult_assoc (/ 2) (t + S) (/ 2 * (t - S))). apply Rmult_lt_compat_l; lra.
  - right. destruct He as (m & Rm & Em).
    assert (Em' : Rabs (m - s * s) <= / 13000000 * (s * s)) by (rewrite Hss; lra).
    destruct (sqrt_rel m s (/ 13000000) Hsp) as [Hm0 Hms]; [lra|exact Em'|].
    assert (Hmb : m <= bpow radix2 1000).
    { assert (m <= 2 * t) by (revert Em'; rewrite Hss; unfold Rabs; destruct (Rcase_abs _); lra). lra. }
    destruct (sqrt_rep _ _ Rm Hm0 Hmb) as (e & He & Rx).
    eexists. split; [exact Rx|].
    replace (R_sqrt.sqrt m * (1 + e) - s) with ((R_sqrt.sqrt m - s) + R_sqrt.sqrt m * e) by ring.
    pose proof (Rabs_triang (R_sqrt.sqrt m - s) (R_sqrt.sqrt m * e)).
    pose proof (scaled_err (R_sqrt.sqrt m) e He).
    assert (Rabs (R_sqrt.sqrt m) <= 2 * s).
    { rewrite Rabs_pos_eq by apply sqrt_pos. revert Hms. unfold Rabs. destruct (Rcase_abs _); lra. }
    rewrite pow_bpow. change (bpow radix2 (Z.of_nat 24)) with 16777216. unfold uround in *. lra.
Qed.

Lemma accurate_list lnF Fs Gs T : PrimFloat.eqb T 0 = false -> Forall2 stands_for Fs Gs -> Forall moderate Gs ->
  exists xs, compute_ftle_2x2 (Fops lnF) Fs T =
      Ok (map (fun x => XVal (PrimFloat.mul (PrimFloat.div 1 T) (lnF x))) xs) /\
    Forall2 (fun G x => exists s, spectral_norm_2 G s /\ bpow radix2 (-401) <= s * s <= bpow radix2 402 /\ 0 < s /\ good_arg G x s) Gs xs.
Proof.
  intros HT HF. unfold compute_ftle_2x2, ftle_of_eigs, py_div. cbn [o_eqb Fops].
  replace (PrimFloat.eqb T (o_zero (Fops lnF))) with false.
  replace (o_div (Fops lnF) (o_one (Fops lnF)) T) with (PrimFloat.div 1 T).
  2:{ unfold o_one. cbn [o_div o_ofZ Fops]. f_equal; vm_compute; reflexivity. }
  cbn [bind]. generalize (PrimFloat.div 1 T) as inv. intros inv Hm.
  unfold max_eigenvalue_2x2, compute_cauchy_green_2x2. rewrite !map_map.
  assert (K : exists xs, map (fun F => xscale (Fops lnF) inv (log_sqrt (Fops lnF) (max_eig_2x2 (Fops lnF) (cauchy_green_2x2 (Fops lnF) F)))) Fs
      = map (fun x => XVal (PrimFloat.mul inv (lnF x))) xs /\
    Forall2 (fun G x => exists s, spectral_norm_2 G s /\ bpow radix2 (-401) <= s * s <= bpow radix2 402 /\ 0 < s /\ good_arg G x s) Gs xs).
  { revert Hm. induction HF as [|F G Fs Gs H1 HF IH]; intro Hm.
    - exists []. split; [reflexivity|constructor].
    - inversion Hm as [|? ? Hg Hm']; subst. destruct (IH Hm') as (xs & E & H).
      destruct (entry_accurate lnF F G H1 Hg) as (x & s & Hs & Hr & Hp & Ex & Hx).
      exists (x :: xs). split; [|constructor; [exists s; auto|exact H]].
      cbn [map]. rewrite E, Ex. reflexivity. }
  destruct K as (xs & E & H). exists xs. split; [f_equal; exact E|exact H].
Qed.

Lemma ln2_le : ln 2 <= 1.
Proof.
  rewrite <- (ln_exp 1). apply Rlt_le, ln_increasing; [lra|]. pose proof (exp_ineq1 1). lra.
Qed.

Lemma ln_bpow e : ln (bpow radix2 e) = IZR e * ln 2.
Proof.
  assert (Hn : forall n, ln (bpow radix2 (Z.of_nat n)) = INR n * ln 2).
  { intro n. rewrite <- pow_bpow. rewrite ln_pow by lra. reflexivity. }
  destruct (Z_le_gt_dec 0 e) as [H|H].
  - replace e with (Z.of_nat (Z.to_nat e)) by lia. rewrite Hn, INR_IZR_INZ. reflexivity.
  - replace e with (- Z.of_nat (Z.to_nat (- e)))%Z by lia. rewrite bpow_opp, ln_Rinv by apply bpow_gt_0.
    rewrite Hn, INR_IZR_INZ, opp_IZR. ring.
Qed.

Lemma ln_range s : 0 < s -> bpow radix2 (-401) <= s * s <= bpow radix2 402 -> Rabs (ln s) <= 201.
Proof.
  intros Hs [L U]. assert (E : ln (s * s) = 2 * ln s) by (rewrite ln_mult by exact Hs; ring).
  pose proof ln2_le. pose proof ln_lt_2.
  assert (H1 : ln (bpow radix2 (-401)) <= ln (s * s)).
  { destruct L as [L|L]; [apply Rlt_le, ln_increasing; [apply bpow_gt_0|exact L]|rewrite L; apply Rle_refl]. }
  assert (H2 : ln (s * s) <= ln (bpow radix2 402)).
  { destruct U as [U|U]; [apply Rlt_le, ln_increasing; [nra|exact U]|rewrite U; apply Rle_refl]. }
  rewrite ln_bpow, E in H1, H2. unfold Rabs. destruct (Rcase_abs (ln s)); lra.
Qed.

Lemma ln_near r s d : 0 < s -> 0 <= d <= 1 / 2 -> Rabs (r - s) <= d * s -> 0 < r /\ Rabs (ln r - ln s) <= d + 2 * d * d.
Proof.
  intros Hs Hd H.
  assert (Hl : (1 - d) * s <= r) by (revert H; unfold Rabs; destruct (Rcase_abs _); lra).
  assert (Hu : r <= (1 + d) * s) by (revert H; unfold Rabs; destruct (Rcase_abs _); lra).
  assert (Hr : 0 < r) by nra. split; [exact Hr|].
  assert (K : forall y, 0 < y -> ln y <= y - 1).
  { intros y Hy. rewrite <- (ln_exp (y - 1)). destruct (Req_dec y 1) as [-> | Hn].
    - replace (1 - 1) with 0 by ring. rewrite exp_0. apply Rle_refl.
    - apply Rlt_le, ln_increasing; [exact Hy|]. pose proof (exp_ineq1 (y - 1)). lra. }
  assert (H1 : ln r - ln s <= d).
  { replace (ln r - ln s) with (ln (r / s)).
    - apply Rle_trans with (r / s - 1); [apply K; apply Rdiv_lt_0_compat; assumption|].
      apply Rmult_le_reg_r with s; [exact Hs|]. unfold Rdiv. rewrite Rmult_minus_distr_r, Rmult_assoc, Rinv_l by lra. lra.
    - unfold Rdiv. rewrite ln_mult, ln_Rinv by (try apply Rinv_0_lt_compat; assumption). ring. }
  assert (H2 : ln s - ln r <= d + 2 * d * d).
  { replace (ln s - ln r) with (ln (s / r)).
    - apply Rle_trans with (s / r - 1); [apply K; apply Rdiv_lt_0_compat; assumption|].
      apply Rmult_le_reg_r with r; [exact Hr|]. unfold Rdiv. rewrite Rmult_minus_distr_r, Rmult_assoc, Rinv_l by lra.
      assert (s <= r * (1 + (d + 2 * d * d))); [|lra].
      assert (P : 1 <= (1 - d) * (1 + (d + 2 * d * d))).
      { replace ((1 - d) * (1 + (d + 2 * d * d))) with (1 + d * d * (1 - 2 * d)) by ring.
        assert (0 <= d * d * (1 - 2 * d)) by (apply Rmult_le_pos; nra). lra. }
      apply Rle_trans with ((1 - d) * s * (1 + (d + 2 * d * d))); [|apply Rmult_le_compat_r; nra].
      replace ((1 - d) * s * (1 + (d + 2 * d * d))) with (s * ((1 - d) * (1 + (d + 2 * d * d)))) by ring. nra.
    - unfold Rdiv. rewrite ln_mult, ln_Rinv by (try apply Rinv_0_lt_compat; assumption). ring. }
  assert (0 <= d * d) by nra. unfold Rabs. destruct (Rcase_abs _); lra.
Qed.

(** (1 / T) * L, for a logarithm L close to that of s. *)
Lemma scale_accurate T L tau s l : represents T tau -> / 2 ^ 200 <= Rabs tau <= 2 ^ 200 ->
  represents L l -> Rabs (ln s) <= 201 -> Rabs (l - ln s) <= / 2 ^ 24 + / 2 ^ 39 ->
  exists v, represents (PrimFloat.mul (PrimFloat.div 1 T) L) v /\ Rabs (v - ln s / tau) <= / 2 ^ 23 / Rabs tau.
Proof.
  intros HT [Ht1 Ht2] HL Hs Hl. rewrite !pow_bpow in *.
  change (bpow radix2 (Z.of_nat 24)) with 16777216 in Hl. change (bpow radix2 (Z.of_nat 39)) with 549755813888 in Hl.
  change (bpow radix2 (Z.of_nat 23)) with 8388608.
  rewrite <- bpow_opp in Ht1. change (- Z.of_nat 200)%Z with (-200)%Z in Ht1. change (Z.of_nat 200) with 200%Z in Ht2.
  pose proof (bpow_gt_0 radix2 (-200)) as P. assert (Pt : 0 < Rabs tau) by lra.
  assert (Hn : tau <> 0) by (intros ->; rewrite Rabs_R0 in Pt; lra).
  assert (Ew : Rabs (1 / tau) = / Rabs tau).
  { unfold Rdiv. rewrite Rmult_1_l. apply Rabs_inv. }
  set (w := 1 / tau) in *.
  assert (Hw1 : / Rabs tau <= bpow radix2 200).
  { change 200%Z with (- (-200))%Z. rewrite bpow_opp. apply Rinv_le; assumption. }
  assert (Hw2 : bpow radix2 (-200) <= / Rabs tau).
  { change (-200)%Z with (- (200))%Z. rewrite bpow_opp. apply Rinv_le; assumption. }
  destruct (div_rep 1%float T 1 tau) as (e & He & Ri); [|exact HT|exact Hn| | |].
  { replace 1%float with (F_ofZ 1) by (vm_compute; reflexivity). exact represents_one. }
  { fold w. rewrite Ew. apply Rle_trans with (1 := Hw1). apply bpow_le. lia. }
  { fold w. rewrite Ew. apply Rle_trans with (2 := Hw2). apply bpow_le. lia. }
  fold w in Ri.
  assert (Hlb : Rabs l <= 202).
  { replace l with (ln s + (l - ln s)) by ring. pose proof (Rabs_triang (ln s) (l - ln s)). lra. }
  assert (Hu : Rabs (1 + e) <= 2).
  { pose proof (Rabs_triang 1 e). rewrite Rabs_R1 in H. unfold uround in He. lra. }
  pose proof (Rabs_pos (1 + e)) as P1. pose proof (Rabs_pos l) as P2. pose proof (Rabs_pos w) as P3.
  destruct (mul_rep _ _ _ _ Ri HL) as (e2 & h & He2 & Hh & Rv).
  { rewrite !Rabs_mult, Ew. apply Rle_trans with (bpow radix2 200 * bpow radix2 10); [|rewrite <- bpow_plus; apply bpow_le; lia].
    rewrite Rmult_assoc. apply Rmult_le_compat; [lra|nra|exact Hw1|]. change (bpow radix2 10) with 1024. nra. }
  eexists. split; [exact Rv|].
  replace (ln s / tau) with (w * ln s) by (unfold w; field; exact Hn).
  replace (w * (1 + e) * l * (1 + e2) + h - w * ln s)
    with (w * ((l - ln s) + (l * e + (l * e2 + l * (e * e2)))) + h) by ring.
  eapply Rle_trans; [apply Rabs_triang|]. rewrite Rabs_mult, Ew.
  assert (He3 : Rabs (e * e2) <= uround).
  { rewrite Rabs_mult. pose proof (Rabs_pos e). pose proof (Rabs_pos e2). unfold uround in *. nra. }
  pose proof (scaled_err l e He) as S1. pose proof (scaled_err l e2 He2) as S2. pose proof (scaled_err l (e * e2) He3) as S3.
  assert (Hsum : Rabs ((l - ln s) + (l * e + (l * e2 + l * (e * e2)))) <= / 8388608 - / 100000000).
  { eapply Rle_trans; [apply Rabs_triang|]. pose proof (Rabs_triang (l * e) (l * e2 + l * (e * e2))).
    pose proof (Rabs_triang (l * e2) (l * (e * e2))). unfold uround in *. lra. }
  assert (Hh' : Rabs h <= / Rabs tau * / 100000000).
  { apply Rle_trans with (1 := Hh). apply Rle_trans with (bpow radix2 (-200) * bpow radix2 (-30)).
    - unfold tiny. rewrite <- bpow_plus. apply bpow_le. lia.
    - apply Rmult_le_compat; [lra|apply bpow_ge_0|exact Hw2|]. cbn. lra. }
  assert (0 < / Rabs tau) by lra. unfold Rdiv. nra.
Qed.

Lemma accurate_values lnF Fs Gs T tau : accurate_log lnF -> represents T tau -> / 2 ^ 200 <= Rabs tau <= 2 ^ 200 ->
  Forall2 stands_for Fs Gs -> Forall moderate Gs ->
  Forall (fun G => exists s, spectral_norm_2 G s /\ det22 G * det22 G <= (1 - / 2 ^ 22) * (s * s * (s * s))) Gs ->
  exists vs, compute_ftle_2x2 (Fops lnF) Fs T = Ok (map XVal vs) /\
    Forall2 (fun G v => exists s r, spectral_norm_2 G s /\ represents v r /\
      Rabs (r - ln s / tau) <= / 2 ^ 23 / Rabs tau) Gs vs.
Proof.
  intros Hln HT Ht HF Hm Hd.
  assert (Hn : tau <> 0).
  { intros ->. rewrite Rabs_R0 in Ht. destruct Ht as [Ht _]. pose proof (bpow_gt_0 radix2 (-200)) as P.
    change (-200)%Z with (- Z.of_nat 200)%Z in P. rewrite bpow_opp, <- pow_bpow in P. lra. }
  destruct (accurate_list lnF Fs Gs T (eqb_zero_rep _ _ HT Hn) HF Hm) as (xs & E & H).
  exists (map (fun x => PrimFloat.mul (PrimFloat.div 1 T) (lnF x)) xs). rewrite map_map. split; [exact E|].
  clear E Hm HF. revert Hd. induction H as [|G x Gs xs Hx H IH]; intro Hd; [constructor|].
  inversion Hd as [|? ? Hg Hd']; subst. constructor; [|apply IH; exact Hd'].
  destruct Hx as (s & Hs & Hr & Hp & Hx). destruct Hg as (s' & Hs' & Hdet).
  rewrite (spectral_norm_2_unique _ _ _ Hs' Hs) in Hdet.
  destruct Hx as [[_ C]|(r & Rx & Er)]; [lra|].
  destruct (ln_near r s (/ 2 ^ 24) Hp) as [Hr0 Hnear]; [rewrite pow_bpow; change (bpow radix2 (Z.of_nat 24)) with 16777216; lra|exact Er|].
  destruct (Hln x r Rx Hr0) as (l & Rl & El).
  destruct (scale_accurate T (lnF x) tau s l HT Ht Rl (ln_range s Hp Hr)) as (v & Rv & Ev).
  { replace (l - ln s) with ((l - ln r) + (ln r - ln s)) by ring.
    eapply Rle_trans; [apply Rabs_triang|]. revert Hnear El. rewrite !pow_bpow.
    change (bpow radix2 (Z.of_nat 24)) with 16777216. change (bpow radix2 (Z.of_nat 39)) with 549755813888.
    change (bpow radix2 (Z.of_nat 40)) with 1099511627776. lra. }
  exists s, v. split; [exact Hs|]. split; [exact Rv|exact Ev].
Qed.

(** A logarithm that is accurate in this sense: the real logarithm rounded to a multiple of 2^-41. *)
Definition lnR_rounded (x : PrimFloat.float) : PrimFloat.float :=
  B2Prim (binary_normalize prec emax Hprec Hmax mode_NE
    (ZnearestE (ln (SF2R radix2 (Prim2SF x)) * 2199023255552)) (-41) false).

Lemma ln_finite x r : represents x r -> 0 < r -> Rabs (ln r) <= 1100.
Proof.
  intros H Hr. pose proof (rep_zero_or_big _ _ H) as Hb. rewrite Rabs_pos_eq in Hb by lra.
  assert (L : bpow radix2 (-1074) <= r) by (destruct Hb; lra). clear Hb.
  assert (U : r < bpow radix2 1024).
  { rewrite represents_B in H. destruct H as [_ <-]. apply Rle_lt_trans with (1 := Rle_abs _).
    apply (abs_B2R_lt_emax prec emax). }
  pose proof ln2_le as Q1. pose proof ln_lt_2 as Q2.
  assert (H1 : ln (bpow radix2 (-1074)) <= ln r).
  { destruct L as [L|L]; [apply Rlt_le, ln_increasing; [apply bpow_gt_0|exact L]|rewrite L; apply Rle_refl]. }
  assert (H2 : ln r < ln (bpow radix2 1024)) by (apply ln_increasing; assumption).
  rewrite ln_bpow in H1, H2. unfold Rabs. destruct (Rcase_abs (ln r)); lra.
Qed.

Lemma lnR_rounded_accurate : accurate_log lnR_rounded.
Proof.
  intros x r Hx Hr. pose proof (ln_finite x r Hx Hr) as Hl. unfold lnR_rounded.
  destruct Hx as [_ ->]. set (m := ZnearestE (ln r * 2199023255552)).
  pose proof (Znearest_half (fun x => negb (Z.even x)) (ln r * 2199023255552)) as Hm. fold m in Hm.
  set (y := IZR m * / 2199023255552).
  assert (Hy : Rabs (y - ln r) <= / 4000000000000).
  { replace (y - ln r) with (- (ln r * 2199023255552 - IZR m) * / 2199023255552) by (unfold y; field).
    rewrite Rabs_mult, Rabs_Ropp, (Rabs_pos_eq (/ _)) by lra.
    match goal with |- ?u * _ <= _ => assert (u <= / 2) by exact Hm end. lra. }
  assert (Hyb : Rabs y <= 1101).
  { replace y with (ln r + (y - ln r)) by ring. pose proof (Rabs_triang (ln r) (y - ln r)). lra. }
  pose proof (binary_normalize_correct prec emax Hprec Hmax mode_NE m (-41) false) as H.
  cbv zeta in H. change (round_mode mode_NE) with ZnearestE in H.
  change (SpecFloat.fexp prec emax) with (FLT_exp (-1074) 53) in H. change emax with 1024%Z in H.
  replace (F2R (Float radix2 m (-41))) with y in H by reflexivity.
  rewrite Rlt_bool_true in H.
  2:{ apply rnd_lt. apply Rle_trans with (bpow radix2 11); [change (bpow radix2 11) with 2048; lra|apply bpow_le; lia]. }
  destruct H as (Hv & Hf & _). destruct (rnd_err y) as (e & h & He & Hh & E). rewrite E in Hv.
  exists (y * (1 + e) + h). split.
  - rewrite represents_B, Prim2B_B2Prim. split; [exact Hf|exact Hv].
  - replace (y * (1 + e) + h - ln r) with ((y - ln r) + (y * e + h)) by ring.
    pose proof (Rabs_triang (y - ln r) (y * e + h)). pose proof (Rabs_triang (y * e) h).
    pose proof (scaled_err y e He).
    assert (Ht : tiny <= / 100000000000000).
    { unfold tiny. apply Rle_trans with (bpow radix2 (-50)); [apply bpow_le; lia|]. cbn. lra. }
    rewrite pow_bpow. change (bpow radix2 (Z.of_nat 40)) with 1099511627776. unfold uround in *. lra.
Qed.

Lemma accurate_args lnF Fs Gs T : PrimFloat.eqb T 0 = false -> Forall2 stands_for Fs Gs -> Forall moderate Gs ->
  exists xs, compute_ftle_2x2 (Fops lnF) Fs T =
      Ok (map (fun x => XVal (PrimFloat.mul (PrimFloat.div 1 T) (lnF x))) xs) /\
    Forall2 (fun G x => exists s, spectral_norm_2 G s /\
      ((x = PrimFloat.nan /\ (1 - / 2 ^ 22) * (s * s * (s * s)) < det22 G * det22 G) \/
       exists r, represents x r /\ Rabs (r - s) <= / 2 ^ 24 * s)) Gs xs.
Proof.
  intros HT HF Hm. destruct (accurate_list lnF Fs Gs T HT HF Hm) as (xs & E & H). exists xs. split; [exact E|].
  clear E HF Hm. induction H as [|G x Gs' xs' (s & Hs & _ & _ & Hx) H IH]; constructor; [|exact IH].
  exists s. split; [exact Hs|exact Hx].
Qed.

(** The matrix diag(2, 1/2). *)
Lemma rep_two : represents 2%float 2.
Proof.
  replace 2 with (IZR (Z.pos 4503599627370496) * bpow radix2 (-51)).
  - apply represents_of. vm_compute. reflexivity.
  - cbn. lra.
Qed.
Lemma rep_half : represents 0.5%float (/ 2).
Proof.
  replace (/ 2) with (IZR (Z.pos 4503599627370496) * bpow radix2 (-53)).
  - apply represents_of. vm_compute. reflexivity.
  - cbn. lra.
Qed.
Lemma rep_zero : represents 0%float 0.
Proof. split; reflexivity. Qed.

Lemma diag_case : stands_for (M22 2 0 0 0.5)%float (M22 2 0 0 (/ 2)) /\ moderate (M22 2 0 0 (/ 2)) /\
  spectral_norm_2 (M22 2 0 0 (/ 2)) 2 /\
  det22 (M22 2 0 0 (/ 2)) * det22 (M22 2 0 0 (/ 2)) <= (1 - / 2 ^ 22) * (2 * 2 * (2 * 2)).
Proof.
  assert (B1 : 2 <= 2 ^ 200) by (rewrite pow_bpow; change 2 with (bpow radix2 1) at 1; apply bpow_le; lia).
  assert (B2 : / 2 ^ 200 <= 1).
  { rewrite pow_bpow, <- bpow_opp. change 1 with (bpow radix2 0). apply bpow_le. lia. }
  split; [|split; [|split]].
  - repeat split; cbn [a00 a01 a10 a11]; first [apply rep_two|apply rep_half|apply rep_zero].
  - split; cbn [a00 a01 a10 a11].
    + repeat constructor; rewrite ?Rabs_R0; try rewrite Rabs_pos_eq; lra.
    + apply Exists_cons_hd. rewrite Rabs_pos_eq; lra.
  - assert (E : lam 4 0 (/ 4) = 2 * 2).
    { unfold lam. replace ((4 - / 4) * (4 - / 4) + 4 * 0 * 0) with ((4 - / 4) * (4 - / 4)) by ring.
      rewrite sqrt_square by lra. lra. }
    pose proof (spectral_norm_lam (M22 2 0 0 (/ 2))) as H. cbn in H.
    replace (lam _ _ _) with (2 * 2) in H.
    + rewrite sqrt_square in H by lra. exact H.
    + rewrite <- E. f_equal; lra.
  - unfold det22. cbn [a00 a01 a10 a11]. rewrite pow_bpow. change (bpow radix2 (Z.of_nat 22)) with 4194304. lra.
Qed.
