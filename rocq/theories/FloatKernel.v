(** Accuracy of the interpolation kernels in binary64. *)
From Coq Require Import Reals Lia Lra Psatz Floats.
From Flocq Require Import Core BinarySingleNaN PrimFloat.
From Verif Require Import Base Num NdArray GridInterp SpecGrid SpecKernel SpecFloat64 SpecFloatGrid
  NdFacts GridInterpFacts GridPlace BatchFloat FloatArith FloatGrid.
Local Open Scope R_scope.

Lemma accurate_of M x y r : represents x y -> Rabs (y - r) <= 32 * uround * M + 16 * tiny -> accurate M x r.
Proof.
  intros R H. exists y. split; [exact R|].
  replace (/ 2 ^ 48) with (32 * uround) by (unfold uround; field).
  replace (/ 2 ^ 1071) with (16 * tiny); [exact H|].
  unfold tiny. change 16 with (bpow radix2 4). rewrite <- bpow_plus. change (4 + -1075)%Z with (- (1071))%Z.
  rewrite bpow_opp, <- IZR_Zpower by lia. change (radix2 ^ 1071)%Z with (2 ^ 1071)%Z.
  rewrite (pow_IZR 2 1071). reflexivity.
Qed.

Lemma small_mul t : 0 <= t -> 0 <= uround * t <= t / 1000000.
Proof. intro H. destruct uround_val as [U0 U1]. split; [apply Rmult_le_pos; lra|]. unfold Rdiv. rewrite Rmult_comm. apply Rmult_le_compat_l; assumption. Qed.

Section Any.
  Context (lnF : PrimFloat.float -> PrimFloat.float).
  Local Notation O := (Fops lnF).

  Lemma floor_F x X : represents x X -> fits X ->
    floor_int O (Some x) = Ok (Int_part X) /\ c_int (Int_part X + 1) = Ok (Int_part X + 1)%Z /\
    frac O (Some x) (Int_part X) = Ok (PrimFloat.sub x (F_ofZ (Int_part X))).
  Proof.
    intros Rx Hf. destruct (floor_R X _ Hf eq_refl) as (F & C & _). unfold floor_int in *. rewrite (floor_rep lnF x X Rx).
    cbn in F. split; [exact F|]. split; [exact C|]. reflexivity.
  Qed.

  Lemma lerp_F a b d A B D A0 B0 M E : represents a A -> represents b B -> represents d D -> 0 <= D <= 1 ->
    Rabs (A - A0) <= E -> Rabs (B - B0) <= E -> Rabs A0 <= M -> Rabs B0 <= M -> M + 2 * E <= bpow radix2 900 ->
    exists S, represents (lerp O a b d) S /\ Rabs (S - lerp Rops A0 B0 D) <= E + 8 * uround * (M + E) + 3 * tiny /\
      Rabs (lerp Rops A0 B0 D) <= M.
  Proof.
    intros Ra Rb Rd HD HA HB MA MB Hb. destruct uround_val as [U0 U1]. destruct tiny_small as [T0 T1].
    assert (PE : 0 <= E) by (eapply Rle_trans; [apply Rabs_pos|exact HA]).
    assert (PM : 0 <= M) by (eapply Rle_trans; [apply Rabs_pos|exact MA]).
    assert (B9 : 4 * bpow radix2 900 + 1 <= bpow radix2 950).
    { apply Rle_trans with (8 * bpow radix2 900).
      - assert (1 <= bpow radix2 900) by (change 1 with (bpow radix2 0); apply bpow_le; lia). lra.
      - change 8 with (bpow radix2 3). rewrite <- bpow_plus. apply bpow_le. lia. }
    destruct (complement_rep d D Rd HD) as (W & RW & HW).
    destruct (weighted _ _ _ _ M E A0 (1 - D) Ra RW HA MA ltac:(lra) HW ltac:(lra)) as (P & RP & HP).
    destruct (weighted _ _ _ _ M E B0 D Rb Rd HB MB HD ltac:(rewrite Rminus_eq_0, Rabs_R0; lra) ltac:(lra)) as (Q & RQ & HQ).
    assert (L : Rabs (A0 * (1 - D) + B0 * D) <= M).
    { apply Rabs_le. apply Rabs_le_inv in MA. apply Rabs_le_inv in MB. nra. }
    set (EP := (1 - D) * E + 3 * uround * (M + E) + tiny) in *. set (EQ := D * E + 3 * uround * (M + E) + tiny) in *.
    assert (Hs : EP + EQ = E + 6 * uround * (M + E) + 2 * tiny) by (unfold EP, EQ; ring).
    destruct (summed _ _ _ _ _ _ EP EQ M RP RQ HP HQ L) as (S & RS & HS).
    { replace (M + EP + EQ) with (M + (EP + EQ)) by ring. rewrite Hs.
      pose proof (small_mul (M + E)). lra. }
    exists S. split; [exact RS|]. split; [|exact L].
    change (lerp Rops A0 B0 D) with (A0 * (1 - D) + B0 * D). eapply Rle_trans; [exact HS|].
    replace (EP + EQ + uround * (M + EP + EQ)) with (EP + EQ + uround * (M + (EP + EQ))) by ring. rewrite Hs.
    pose proof (small_mul (M + E) ltac:(lra)). pose proof (small_mul (uround * (M + E)) ltac:(lra)). pose proof (small_mul tiny ltac:(lra)).
    pose proof (small_mul E ltac:(lra)). lra.
  Qed.

  (** The four terms of the plane kernel. *)
  Lemma term_F v a b X A B A0 B0 M : represents v X -> represents a A -> represents b B -> Rabs X <= M ->
    0 <= A0 <= 1 -> 0 <= B0 <= 1 -> Rabs (A - A0) <= uround -> Rabs (B - B0) <= uround -> M <= bpow radix2 900 ->
    exists S, represents (PrimFloat.mul (PrimFloat.mul v a) b) S /\
      Rabs (S - X * A0 * B0) <= 7 * uround * M + 3 * tiny.
  Proof.
    intros Rv Ra Rb HM HA0 HB0 HA HB Hb. destruct uround_val as [U0 U1]. destruct tiny_small as [T0 T1].
    assert (PM : 0 <= M) by (eapply Rle_trans; [apply Rabs_pos|exact HM]).
    assert (B9 : 4 * bpow radix2 900 + 1 <= bpow radix2 950).
    { apply Rle_trans with (8 * bpow radix2 900).
      - assert (1 <= bpow radix2 900) by (change 1 with (bpow radix2 0); apply bpow_le; lia). lra.
      - change 8 with (bpow radix2 3). rewrite <- bpow_plus. apply bpow_le. lia. }
    destruct (weighted _ _ _ _ M 0 X A0 Rv Ra ltac:(rewrite Rminus_eq_0, Rabs_R0; lra) HM HA0 HA ltac:(lra)) as (P & RP & HP).
    assert (HP' : Rabs (P - X * A0) <= 3 * uround * M + tiny) by (eapply Rle_trans; [exact HP|lra]).
    assert (ML : Rabs (X * A0) <= M).
    { replace M with (M * 1) by ring. apply abs_mul_le; [exact HM|rewrite Rabs_pos_eq; lra]. }
    destruct (weighted _ _ _ _ M (3 * uround * M + tiny) (X * A0) B0 RP Rb HP' ML HB0 HB ltac:(pose proof (small_mul M ltac:(lra)); lra)) as (S & RS & HS).
    exists S. split; [exact RS|]. eapply Rle_trans; [exact HS|].
    assert (Q : B0 * (3 * uround * M + tiny) <= 3 * uround * M + tiny).
    { rewrite <- (Rmult_1_l (3 * uround * M + tiny)) at 2. apply Rmult_le_compat_r; [pose proof (small_mul M PM); lra|lra]. }
    pose proof (small_mul M PM). pose proof (small_mul (uround * M) ltac:(lra)). pose proof (small_mul tiny ltac:(lra)). lra.
  Qed.

  (** Reading the flat array. *)
  Lemma ptr_nd2 {A} (v : nd A) sx sy i j a : shape v = [sx; sy] -> nd_get v [i; j] = Ok a ->
    ptr_get (data v) (Z.of_nat i * Z.of_nat sy + Z.of_nat j) = Ok a.
  Proof.
    intros Hs. unfold nd_get. rewrite Hs. destruct (in_bounds _ _); [|discriminate].
    cbn [c_ravel size]. unfold get, ptr_get, cget.
    destruct (Z.ltb_spec (Z.of_nat i * Z.of_nat sy + Z.of_nat j) 0); [lia|].
    replace (Z.to_nat (Z.of_nat i * Z.of_nat sy + Z.of_nat j)) with (i * (sy * 1) + (j * 1 + 0))%nat by lia.
    destruct (nth_error _ _); congruence.
  Qed.
  Lemma ptr_nd3 {A} (v : nd A) sx sy sz i j k a : shape v = [sx; sy; sz] -> nd_get v [i; j; k] = Ok a ->
    ptr_get (data v) (Z.of_nat i * (Z.of_nat sy * Z.of_nat sz) + Z.of_nat j * Z.of_nat sz + Z.of_nat k) = Ok a.
  Proof.
    intros Hs. unfold nd_get. rewrite Hs. destruct (in_bounds _ _); [|discriminate].
    cbn [c_ravel size]. unfold get, ptr_get, cget.
    destruct (Z.ltb_spec (Z.of_nat i * (Z.of_nat sy * Z.of_nat sz) + Z.of_nat j * Z.of_nat sz + Z.of_nat k) 0); [lia|].
    replace (Z.to_nat (Z.of_nat i * (Z.of_nat sy * Z.of_nat sz) + Z.of_nat j * Z.of_nat sz + Z.of_nat k))
      with (i * (sy * (sz * 1)) + (j * (sz * 1) + (k * 1 + 0)))%nat by lia.
    destruct (nth_error _ _); congruence.
  Qed.

  (** The real values of an array. *)
  Definition value (f : PrimFloat.float) : R := SF2R radix2 (Prim2SF f).
  Definition values (v : nd PrimFloat.float) : nd R := Nd (shape v) (map value (data v)).

  Lemma nd_values v ix f X : nd_get v ix = Ok f -> represents f X -> nd_get (values v) ix = Ok X.
  Proof.
    unfold nd_get. cbn [shape values data]. destruct (in_bounds _ _); [|discriminate]. unfold get. rewrite nth_error_map.
    destruct (nth_error _ _) as [g|]; [|discriminate]. cbn. intros E [_ <-]. injection E as <-. reflexivity.
  Qed.

  Lemma inside_or_beyond n x : inside n x \/ beyond n x.
  Proof. unfold inside, beyond. destruct (Rlt_le_dec x 0); [auto|]. destruct (Rlt_le_dec x (INR n - 1)); auto. Qed.

  Lemma zero_accurate M : 0 <= M -> accurate M (o_zero O) 0.
  Proof.
    intro PM. apply (accurate_of M _ 0).
    - exact (int_rep 0 ltac:(lia)).
    - rewrite Rminus_0_r, Rabs_R0. pose proof (small_mul M PM). destruct tiny_small as [T0 _]. lra.
  Qed.

  Lemma point2_F v sx sy V M px py X Y : stores2 v sx sy V M -> 0 <= M -> M <= bpow radix2 900 ->
    (Z.of_nat sx <= INT_MAX)%Z -> (Z.of_nat sy <= INT_MAX)%Z ->
    represents px X -> represents py Y -> fits X -> fits Y ->
    exists val exact, interp2d_point O (data v) (Z.of_nat sx) (Z.of_nat sy) (Some px) (Some py) = Ok val /\
      sampled2 sx sy V (X, Y) exact /\ accurate M val exact.
  Proof.
    intros [Hs Hv] PM HM Sx Sy Rx Ry Fx Fy.
    assert (HV : forall i j, (i < sx)%nat -> (j < sy)%nat -> nd_get (values v) [i; j] = Ok (V i j)).
    { intros i j Hi Hj. destruct (Hv i j Hi Hj) as (f & E & R & _). apply (nd_values _ _ f); assumption. }
    destruct (kernel2_sampled (values v) sx sy V [(X, Y)] [0] (Hs : shape (values v) = _) Sx Sy HV eq_refl) as (vals & EV & HS).
    { constructor; [split; assumption|constructor]. }
    rewrite (kernel2_map (values v) _ _ [(X, Y)] [0] (Hs : shape (values v) = _) Sx Sy eq_refl) in EV. cbn [mapr fst snd] in EV.
    destruct (interp2d_point Rops (data (values v)) (Z.of_nat sx) (Z.of_nat sy) (Some X) (Some Y)) as [r|] eqn:ER; [|discriminate].
    cbn [bind] in EV. injection EV as <-. inversion HS as [|? ? ? ? HS' _]; subst. clear HS.
    destruct (floor_F px X Rx Fx) as (FX & CX & DX). destruct (floor_F py Y Ry Fy) as (FY & CY & DY).
    unfold interp2d_point. rewrite FX, FY. cbn [bind]. rewrite CX, CY. cbn [bind]. rewrite DX, DY. cbn [bind].
    destruct (inside_or_beyond sx X) as [Ix|Ox]; [destruct (inside_or_beyond sy Y) as [Iy|Oy]|].
    - destruct (point2_inside (values v) sx sy V X Y (Hs : shape (values v) = _) HV Fx Fy Ix Iy) as (i & j & Hi & Hj & Bi & Bj & E).
      rewrite E in ER. injection ER as ER.
      rewrite (cell_unique i X Bi), (cell_unique j Y Bj).
      replace ((0 <=? Z.of_nat i) && (Z.of_nat i + 1 <? Z.of_nat sx) && (0 <=? Z.of_nat j)
             && (Z.of_nat j + 1 <? Z.of_nat sy))%Z with true
        by (symmetry; rewrite !andb_true_iff, !Z.leb_le, !Z.ltb_lt; lia).
      replace (Z.of_nat i + 1)%Z with (Z.of_nat (i + 1)) by lia.
      replace (Z.of_nat j + 1)%Z with (Z.of_nat (j + 1)) by lia.
      destruct (Hv i j) as (f00 & E00 & R00 & M00); [lia|lia|]. destruct (Hv (i + 1)%nat j) as (f10 & E10 & R10 & M10); [lia|lia|].
      destruct (Hv i (j + 1)%nat) as (f01 & E01 & R01 & M01); [lia|lia|].
      destruct (Hv (i + 1)%nat (j + 1)%nat) as (f11 & E11 & R11 & M11); [lia|lia|].
      rewrite (ptr_nd2 v sx sy _ _ _ Hs E00), (ptr_nd2 v sx sy _ _ _ Hs E10), (ptr_nd2 v sx sy _ _ _ Hs E01), (ptr_nd2 v sx sy _ _ _ Hs E11).
      cbn [bind]. cbn [o_add o_sub o_mul Fops]. change (o_one (Fops lnF)) with (F_ofZ 1).
      assert (Rd : represents (PrimFloat.sub px (F_ofZ (Z.of_nat i))) (X - INR i)).
      { pose proof (frac_rep px X Rx (proj1 Ix) ltac:(unfold fits in Fx; lra)) as H. rewrite (cell_unique i X Bi), <- INR_IZR_INZ in H. exact H. }
      assert (Re : represents (PrimFloat.sub py (F_ofZ (Z.of_nat j))) (Y - INR j)).
      { pose proof (frac_rep py Y Ry (proj1 Iy) ltac:(unfold fits in Fy; lra)) as H. rewrite (cell_unique j Y Bj), <- INR_IZR_INZ in H. exact H. }
      set (d := PrimFloat.sub px (F_ofZ (Z.of_nat i))) in *. set (e := PrimFloat.sub py (F_ofZ (Z.of_nat j))) in *.
      clearbody d e. set (xd := X - INR i) in *. set (yd := Y - INR j) in *.
      assert (Hx : 0 <= xd <= 1) by (unfold xd; lra). assert (Hy : 0 <= yd <= 1) by (unfold yd; lra). clearbody xd yd.
      destruct (complement_rep d xd Rd Hx) as (WX & RWX & HWX). destruct (complement_rep e yd Re Hy) as (WY & RWY & HWY).
      destruct uround_val as [U0 U1]. destruct tiny_small as [T0 T1].
      assert (Zx : Rabs (xd - xd) <= uround) by (rewrite Rminus_eq_0, Rabs_R0; lra).
      assert (Zy : Rabs (yd - yd) <= uround) by (rewrite Rminus_eq_0, Rabs_R0; lra).
      destruct (term_F _ _ _ _ _ _ (1 - xd) (1 - yd) M R00 RWX RWY M00 ltac:(lra) ltac:(lra) HWX HWY HM) as (S0 & RS0 & H0).
      destruct (term_F _ _ _ _ _ _ xd (1 - yd) M R10 Rd RWY M10 Hx ltac:(lra) Zx HWY HM) as (S1 & RS1 & H1).
      destruct (term_F _ _ _ _ _ _ (1 - xd) yd M R01 RWX Re M01 ltac:(lra) Hy HWX Zy HM) as (S2 & RS2 & H2).
      destruct (term_F _ _ _ _ _ _ xd yd M R11 Rd Re M11 Hx Hy Zx Zy HM) as (S3 & RS3 & H3).
      apply Rabs_le_inv in M00, M10, M01, M11. revert ER H0 H1 H2 H3 M00 M10 M01 M11.
      generalize (V i j) (V (i + 1)%nat j) (V i (j + 1)%nat) (V (i + 1)%nat (j + 1)%nat). intros p q s t ER H0 H1 H2 H3 M00 M10 M01 M11.
      set (E1 := 7 * uround * M + 3 * tiny) in *.
      assert (B9 : 4 * bpow radix2 900 + 2 <= bpow radix2 950).
      { apply Rle_trans with (8 * bpow radix2 900).
        - assert (1 <= bpow radix2 900) by (change 1 with (bpow radix2 0); apply bpow_le; lia). lra.
        - change 8 with (bpow radix2 3). rewrite <- bpow_plus. apply bpow_le. lia. }
      pose proof (small_mul M PM) as SM. pose proof (small_mul (uround * M) (proj1 SM)) as SUM.
      pose proof (small_mul (uround * (uround * M)) (proj1 SUM)) as SUUM.
      pose proof (small_mul (uround * (uround * (uround * M))) (proj1 SUUM)) as SU3M.
      pose proof (small_mul tiny ltac:(lra)) as ST. pose proof (small_mul (uround * tiny) (proj1 ST)) as SUT.
      pose proof (small_mul (uround * (uround * tiny)) (proj1 SUT)) as SUUT.
      assert (PE : 0 <= E1) by (unfold E1; lra).
      assert (LE : E1 <= M / 100 + / 100) by (unfold E1; lra).
      assert (W00 : 0 <= (1 - xd) * (1 - yd)) by (apply Rmult_le_pos; lra).
      assert (W10 : 0 <= xd * (1 - yd)) by (apply Rmult_le_pos; lra).
      assert (W01 : 0 <= (1 - xd) * yd) by (apply Rmult_le_pos; lra).
      assert (W11 : 0 <= xd * yd) by (apply Rmult_le_pos; lra).
      assert (A1 : Rabs (p * (1 - xd) * (1 - yd) + q * xd * (1 - yd)) <= M).
      { apply Rabs_le. replace (p * (1 - xd) * (1 - yd) + q * xd * (1 - yd)) with (p * ((1 - xd) * (1 - yd)) + q * (xd * (1 - yd))) by ring. nra. }
      assert (A2 : Rabs (p * (1 - xd) * (1 - yd) + q * xd * (1 - yd) + s * (1 - xd) * yd) <= M).
      { apply Rabs_le. replace (p * (1 - xd) * (1 - yd) + q * xd * (1 - yd) + s * (1 - xd) * yd)
          with (p * ((1 - xd) * (1 - yd)) + q * (xd * (1 - yd)) + s * ((1 - xd) * yd)) by ring. nra. }
      assert (A3 : Rabs (p * (1 - xd) * (1 - yd) + q * xd * (1 - yd) + s * (1 - xd) * yd + t * xd * yd) <= M).
      { apply Rabs_le. replace (p * (1 - xd) * (1 - yd) + q * xd * (1 - yd) + s * (1 - xd) * yd + t * xd * yd)
          with (p * ((1 - xd) * (1 - yd)) + q * (xd * (1 - yd)) + s * ((1 - xd) * yd) + t * (xd * yd)) by ring. nra. }
      destruct (summed _ _ _ _ _ _ E1 E1 M RS0 RS1 H0 H1 A1 ltac:(lra)) as (Q1 & RQ1 & G1).
      set (F1 := E1 + E1 + uround * (M + E1 + E1)) in *.
      assert (K1 : 0 <= F1 <= 15.5 * uround * M + 6.5 * tiny) by (unfold F1, E1; lra).
      destruct (summed _ _ _ _ _ _ F1 E1 M RQ1 RS2 G1 H2 A2 ltac:(lra)) as (Q2 & RQ2 & G2).
      set (F2 := F1 + E1 + uround * (M + F1 + E1)) in *.
      assert (K2 : 0 <= F2 <= 24 * uround * M + 10 * tiny) by (unfold F2, F1, E1; lra).
      destruct (summed _ _ _ _ _ _ F2 E1 M RQ2 RS3 G2 H3 A3 ltac:(lra)) as (Q3 & RQ3 & G3).
      eexists. exists r. split; [reflexivity|]. split; [exact HS'|].
      apply (accurate_of M _ Q3); [exact RQ3|]. rewrite <- ER. eapply Rle_trans; [exact G3|].
      unfold F2, F1, E1. lra.
    - assert (E0 : r = 0) by (apply HS'; cbn; auto). subst r.
      replace ((0 <=? Int_part X) && (Int_part X + 1 <? Z.of_nat sx) && (0 <=? Int_part Y)
             && (Int_part Y + 1 <? Z.of_nat sy))%Z with false.
      + exists (o_zero O), 0. split; [reflexivity|]. split; [exact HS'|]. apply zero_accurate. exact PM.
      + symmetry. apply beyond_cell in Oy. rewrite <- andb_assoc, Oy. apply andb_false_r.
    - assert (E0 : r = 0) by (apply HS'; cbn; auto). subst r.
      replace ((0 <=? Int_part X) && (Int_part X + 1 <? Z.of_nat sx) && (0 <=? Int_part Y)
             && (Int_part Y + 1 <? Z.of_nat sy))%Z with false.
      + exists (o_zero O), 0. split; [reflexivity|]. split; [exact HS'|]. apply zero_accurate. exact PM.
      + symmetry. apply beyond_cell in Ox. rewrite Ox. reflexivity.
  Qed.

  Lemma point3_F v sx sy sz V M px py pz X Y Z : stores3 v sx sy sz V M -> 0 <= M -> M <= bpow radix2 898 ->
    (Z.of_nat sx <= INT_MAX)%Z -> (Z.of_nat sy <= INT_MAX)%Z -> (Z.of_nat sz <= INT_MAX)%Z ->
    (Z.of_nat sy * Z.of_nat sz <= INT_MAX)%Z ->
    represents px X -> represents py Y -> represents pz Z -> fits X -> fits Y -> fits Z ->
    exists val exact, interp3d_point O (data v) (Z.of_nat sx) (Z.of_nat sy) (Z.of_nat sz) (Z.of_nat sy * Z.of_nat sz)
        (Some px) (Some py) (Some pz) = Ok val /\
      sampled3 sx sy sz V (X, Y, Z) exact /\ accurate M val exact.
  Proof.
    intros [Hs Hv] PM HM Sx Sy Sz Syz Rx Ry Rz Fx Fy Fz.
    assert (HV : forall i j k, (i < sx)%nat -> (j < sy)%nat -> (k < sz)%nat -> nd_get (values v) [i; j; k] = Ok (V i j k)).
    { intros i j k Hi Hj Hk. destruct (Hv i j k Hi Hj Hk) as (f & E & R & _). apply (nd_values _ _ f); assumption. }
    assert (Hs' : shape (values v) = [sx; sy; sz]) by exact Hs.
    destruct (kernel3_sampled (values v) sx sy sz V [(X, Y, Z)] [0] Hs' Sx Sy Sz Syz HV eq_refl) as (vals & EV & HS).
    { constructor; [split; [assumption|split; assumption]|constructor]. }
    rewrite (kernel3_map (values v) _ _ _ [(X, Y, Z)] [0] Hs' Sx Sy Sz Syz eq_refl) in EV. cbn [mapr fst snd] in EV.
    destruct (interp3d_point Rops _ _ _ _ _ _ _ _) as [r|] eqn:ER; [|discriminate].
    cbn [bind] in EV. injection EV as <-. inversion HS as [|? ? ? ? HS' _]; subst. clear HS.
    destruct (floor_F px X Rx Fx) as (FX & CX & DX). destruct (floor_F py Y Ry Fy) as (FY & CY & DY).
    destruct (floor_F pz Z Rz Fz) as (FZ & CZ & DZ).
    unfold interp3d_point. rewrite FX, FY, FZ. cbn [bind]. rewrite CX, CY, CZ. cbn [bind]. rewrite DX, DY, DZ. cbn [bind].
    assert (Out : beyond sx X \/ beyond sy Y \/ beyond sz Z ->
      exists val exact, (if ((0 <=? Int_part X) && (Int_part X + 1 <? Z.of_nat sx) && (0 <=? Int_part Y)
             && (Int_part Y + 1 <? Z.of_nat sy) && (0 <=? Int_part Z) && (Int_part Z + 1 <? Z.of_nat sz))%Z
        then Err UndefinedBehaviour else Ok (o_zero O)) = Ok val /\ sampled3 sx sy sz V (X, Y, Z) exact /\ accurate M val exact).
    { intro H. assert (E0 : r = 0) by (apply HS'; cbn; exact H). subst r.
      replace ((0 <=? Int_part X) && (Int_part X + 1 <? Z.of_nat sx) && (0 <=? Int_part Y)
             && (Int_part Y + 1 <? Z.of_nat sy) && (0 <=? Int_part Z) && (Int_part Z + 1 <? Z.of_nat sz))%Z with false.
      + exists (o_zero O), 0. split; [reflexivity|]. split; [exact HS'|]. apply zero_accurate. exact PM.
      + symmetry. destruct H as [H|[H|H]]; apply beyond_cell in H.
        * rewrite H. reflexivity.
        * rewrite <- (andb_assoc _ _ (Int_part Y + 1 <? Z.of_nat sy)%Z), H, andb_false_r. reflexivity.
        * rewrite <- (andb_assoc _ _ (Int_part Z + 1 <? Z.of_nat sz)%Z), H, andb_false_r. reflexivity. }
    destruct (inside_or_beyond sx X) as [Ix|Ox]; [destruct (inside_or_beyond sy Y) as [Iy|Oy];
      [destruct (inside_or_beyond sz Z) as [Iz|Oz]|]|].
    2-4: match type of Out with ?P -> _ => assert (HO : P) by auto; specialize (Out HO) end;
      destruct Out as (val & exact & E & HE); revert E;
      destruct ((0 <=? Int_part X) && _ && _ && _ && _ && _)%Z; [discriminate|];
      intro E; exists val, exact; split; [exact E|exact HE].
    clear Out.
    destruct (point3_inside (values v) sx sy sz V X Y Z Hs' HV Fx Fy Fz Ix Iy Iz) as (i & j & k & Hi & Hj & Hk & Bi & Bj & Bk & E).
    cbv zeta in E. rewrite E in ER. injection ER as ER.
    rewrite (cell_unique i X Bi), (cell_unique j Y Bj), (cell_unique k Z Bk).
    replace ((0 <=? Z.of_nat i) && (Z.of_nat i + 1 <? Z.of_nat sx) && (0 <=? Z.of_nat j)
             && (Z.of_nat j + 1 <? Z.of_nat sy) && (0 <=? Z.of_nat k) && (Z.of_nat k + 1 <? Z.of_nat sz))%Z with true
      by (symmetry; rewrite !andb_true_iff, !Z.leb_le, !Z.ltb_lt; lia).
    replace (Z.of_nat i + 1)%Z with (Z.of_nat (i + 1)) by lia.
    replace (Z.of_nat j + 1)%Z with (Z.of_nat (j + 1)) by lia.
    replace (Z.of_nat k + 1)%Z with (Z.of_nat (k + 1)) by lia.
    destruct (Hv i j k) as (f000 & E000 & R000 & M000); [lia|lia|lia|].
    destruct (Hv (i + 1)%nat j k) as (f100 & E100 & R100 & M100); [lia|lia|lia|].
    destruct (Hv i (j + 1)%nat k) as (f010 & E010 & R010 & M010); [lia|lia|lia|].
    destruct (Hv (i + 1)%nat (j + 1)%nat k) as (f110 & E110 & R110 & M110); [lia|lia|lia|].
    destruct (Hv i j (k + 1)%nat) as (f001 & E001 & R001 & M001); [lia|lia|lia|].
    destruct (Hv (i + 1)%nat j (k + 1)%nat) as (f101 & E101 & R101 & M101); [lia|lia|lia|].
    destruct (Hv i (j + 1)%nat (k + 1)%nat) as (f011 & E011 & R011 & M011); [lia|lia|lia|].
    destruct (Hv (i + 1)%nat (j + 1)%nat (k + 1)%nat) as (f111 & E111 & R111 & M111); [lia|lia|lia|].
    rewrite (ptr_nd3 v sx sy sz _ _ _ _ Hs E000), (ptr_nd3 v sx sy sz _ _ _ _ Hs E100),
      (ptr_nd3 v sx sy sz _ _ _ _ Hs E010), (ptr_nd3 v sx sy sz _ _ _ _ Hs E110),
      (ptr_nd3 v sx sy sz _ _ _ _ Hs E001), (ptr_nd3 v sx sy sz _ _ _ _ Hs E101),
      (ptr_nd3 v sx sy sz _ _ _ _ Hs E011), (ptr_nd3 v sx sy sz _ _ _ _ Hs E111).
    cbn [bind].
    assert (Rd : represents (PrimFloat.sub px (F_ofZ (Z.of_nat i))) (X - INR i)).
    { pose proof (frac_rep px X Rx (proj1 Ix) ltac:(unfold fits in Fx; lra)) as H. rewrite (cell_unique i X Bi), <- INR_IZR_INZ in H. exact H. }
    assert (Re : represents (PrimFloat.sub py (F_ofZ (Z.of_nat j))) (Y - INR j)).
    { pose proof (frac_rep py Y Ry (proj1 Iy) ltac:(unfold fits in Fy; lra)) as H. rewrite (cell_unique j Y Bj), <- INR_IZR_INZ in H. exact H. }
    assert (Rg : represents (PrimFloat.sub pz (F_ofZ (Z.of_nat k))) (Z - INR k)).
    { pose proof (frac_rep pz Z Rz (proj1 Iz) ltac:(unfold fits in Fz; lra)) as H. rewrite (cell_unique k Z Bk), <- INR_IZR_INZ in H. exact H. }
    set (d := PrimFloat.sub px (F_ofZ (Z.of_nat i))) in *. set (e := PrimFloat.sub py (F_ofZ (Z.of_nat j))) in *.
    set (g := PrimFloat.sub pz (F_ofZ (Z.of_nat k))) in *. clearbody d e g.
    assert (Hx : 0 <= X - INR i <= 1) by lra. assert (Hy : 0 <= Y - INR j <= 1) by lra. assert (Hz : 0 <= Z - INR k <= 1) by lra.
    destruct uround_val as [U0 U1]. destruct tiny_small as [T0 T1].
    pose proof (small_mul M PM) as SM. pose proof (small_mul (uround * M) (proj1 SM)) as SUM.
    pose proof (small_mul (uround * (uround * M)) (proj1 SUM)) as SUUM.
    pose proof (small_mul (uround * (uround * (uround * M))) (proj1 SUUM)) as SU3M.
    pose proof (small_mul tiny ltac:(lra)) as ST. pose proof (small_mul (uround * tiny) (proj1 ST)) as SUT.
    pose proof (small_mul (uround * (uround * tiny)) (proj1 SUT)) as SUUT.
    assert (Z0 : forall t, Rabs (t - t) <= 0) by (intro t; rewrite Rminus_eq_0, Rabs_R0; lra).
    assert (Hb : M <= bpow radix2 898) by exact HM.
    assert (B8 : bpow radix2 898 * 4 = bpow radix2 900) by (change 4 with (bpow radix2 2); rewrite <- bpow_plus; reflexivity).
    assert (P8 : 1 <= bpow radix2 898) by (change 1 with (bpow radix2 0); apply bpow_le; lia).
    assert (Q0 : M + 2 * 0 <= bpow radix2 900) by lra.
    destruct (lerp_F _ _ _ _ _ _ _ _ M 0 R000 R100 Rd Hx (Z0 _) (Z0 _) M000 M100 Q0) as (A1 & RA1 & HA1 & MA1).
    destruct (lerp_F _ _ _ _ _ _ _ _ M 0 R010 R110 Rd Hx (Z0 _) (Z0 _) M010 M110 Q0) as (A2 & RA2 & HA2 & MA2).
    destruct (lerp_F _ _ _ _ _ _ _ _ M 0 R001 R101 Rd Hx (Z0 _) (Z0 _) M001 M101 Q0) as (A3 & RA3 & HA3 & MA3).
    destruct (lerp_F _ _ _ _ _ _ _ _ M 0 R011 R111 Rd Hx (Z0 _) (Z0 _) M011 M111 Q0) as (A4 & RA4 & HA4 & MA4).
    set (E1 := 0 + 8 * uround * (M + 0) + 3 * tiny) in *.
    assert (L1 : 0 <= E1 <= 8 * uround * M + 3 * tiny) by (unfold E1; lra).
    assert (Q1 : M + 2 * E1 <= bpow radix2 900) by lra.
    destruct (lerp_F _ _ _ _ _ _ _ _ M E1 RA1 RA2 Re Hy HA1 HA2 MA1 MA2 Q1) as (C1 & RC1 & HC1 & MC1).
    destruct (lerp_F _ _ _ _ _ _ _ _ M E1 RA3 RA4 Re Hy HA3 HA4 MA3 MA4 Q1) as (C2 & RC2 & HC2 & MC2).
    set (E2 := E1 + 8 * uround * (M + E1) + 3 * tiny) in *.
    assert (L2 : 0 <= E2 <= 17 * uround * M + 7 * tiny) by (unfold E2, E1; lra).
    assert (Q2 : M + 2 * E2 <= bpow radix2 900) by lra.
    destruct (lerp_F _ _ _ _ _ _ _ _ M E2 RC1 RC2 Rg Hz HC1 HC2 MC1 MC2 Q2) as (D1 & RD1 & HD1 & MD1).
    eexists. exists r. split; [reflexivity|]. split; [exact HS'|].
    apply (accurate_of M _ D1); [exact RD1|]. rewrite <- ER. eapply Rle_trans; [exact HD1|]. unfold E2, E1. lra.
  Qed.

  (** Whole queries. *)
  Lemma kernel2_F v sx sy V M pts qs out : stores2 v sx sy V M -> 0 <= M -> M <= bpow radix2 898 ->
    (Z.of_nat sx <= INT_MAX)%Z -> (Z.of_nat sy <= INT_MAX)%Z ->
    Forall2 stand2 pts qs -> Forall fits2 qs -> length out = length pts ->
    exists vals, interp2d_vec_inplace O v (q2 pts) out = Ok vals /\
      Forall2 (fun q val => exists exact, sampled2 sx sy V q exact /\ accurate M val exact) qs vals.
  Proof.
    intros H PM HM Sx Sy HP HF Hl. unfold interp2d_vec_inplace, q2. rewrite (proj1 H). cbn [mcols mrows].
    unfold nrows. cbn [mrows Nat.eqb negb]. rewrite map_length, <- Hl, Nat.eqb_refl. cbn [negb]. clear Hl.
    rewrite mapr_map. cbn [cget nth_error bind]. rewrite !wrap_id by lia.
    induction HP as [|p q pts qs [Rx Ry] HP IH].
    - exists []. split; [reflexivity|constructor].
    - inversion HF as [|? ? [Fx Fy] HF']; subst. destruct (IH HF') as (vals & E & G).
      assert (HM' : M <= bpow radix2 900) by (eapply Rle_trans; [exact HM|apply bpow_le; lia]).
      destruct (point2_F v sx sy V M _ _ _ _ H PM HM' Sx Sy Rx Ry Fx Fy) as (val & exact & E1 & G1).
      exists (val :: vals). cbn [mapr]. rewrite E1, E. split; [reflexivity|]. constructor; [|exact G].
      exists exact. destruct q. exact G1.
  Qed.

  Lemma kernel3_F v sx sy sz V M pts qs out : stores3 v sx sy sz V M -> 0 <= M -> M <= bpow radix2 898 ->
    (Z.of_nat sx <= INT_MAX)%Z -> (Z.of_nat sy <= INT_MAX)%Z -> (Z.of_nat sz <= INT_MAX)%Z ->
    (Z.of_nat sy * Z.of_nat sz <= INT_MAX)%Z ->
    Forall2 stand3 pts qs -> Forall fits3 qs -> length out = length pts ->
    exists vals, interp3d_vec_inplace O v (q3 pts) out = Ok vals /\
      Forall2 (fun q val => exists exact, sampled3 sx sy sz V q exact /\ accurate M val exact) qs vals.
  Proof.
    intros H PM HM Sx Sy Sz Syz HP HF Hl. unfold interp3d_vec_inplace, q3. rewrite (proj1 H). cbn [mcols mrows].
    unfold nrows. cbn [mrows Nat.eqb negb]. rewrite map_length, <- Hl, Nat.eqb_refl. cbn [negb]. clear Hl.
    rewrite !wrap_id by lia. rewrite c_int_ok by (unfold INT_MIN; nia). cbn [bind].
    rewrite mapr_map. cbn [cget nth_error bind].
    induction HP as [|p q pts qs (Rx & Ry & Rz) HP IH].
    - exists []. split; [reflexivity|constructor].
    - inversion HF as [|? ? (Fx & Fy & Fz) HF']; subst. destruct (IH HF') as (vals & E & G).
      destruct (point3_F v sx sy sz V M _ _ _ _ _ _ H PM HM Sx Sy Sz Syz Rx Ry Rz Fx Fy Fz) as (val & exact & E1 & G1).
      exists (val :: vals). cbn [mapr]. rewrite E1, E. split; [reflexivity|]. constructor; [|exact G].
      exists exact. destruct q as [[? ?] ?]. exact G1.
  Qed.
End Any.
