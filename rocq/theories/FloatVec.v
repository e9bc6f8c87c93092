(** Vector operations in binary64. *)
From Coq Require Import Reals Lia Lra Psatz Floats.
From Flocq Require Import Core BinarySingleNaN PrimFloat.
From Verif Require Import Base Num SpecIntegrate SpecOrder SpecFloat64 SpecRounding OrderFacts OrderRK4 IntegrateReal
  FloatArith FloatGrid FloatKernel FloatAxis.
Local Open Scope R_scope.

Section Zip.
  Context {A B C : Type} (f : A -> B -> C).
  Fixpoint zip (x : list A) (y : list B) : list C :=
    match x, y with a :: x', b :: y' => f a b :: zip x' y' | _, _ => [] end.
End Zip.

Lemma stands_len x X : stands x X -> length x = length X.
Proof. induction 1; cbn; congruence. Qed.

Lemma sized_cons P a X : sized P (a :: X) -> Rabs a <= P /\ sized P X.
Proof. intro H. split; [exact (H 0%nat)|]. intro i. exact (H (S i)). Qed.

Lemma near_cons e a b X Y : Rabs (a - b) <= e -> near e X Y -> near e (a :: X) (b :: Y).
Proof. intros H [HL HN]. split; [cbn; congruence|]. intros [|i]; [exact H|exact (HN i)]. Qed.

Lemma near_nil e : 0 <= e -> near e [] [].
Proof. intro H. split; [reflexivity|]. intro i. unfold coord. destruct i; cbn; rewrite Rminus_0_r, Rabs_R0; exact H. Qed.

(** An operation that is accurate on numbers is accurate on vectors. *)
Lemma zip_F f g P Q e : 0 <= e ->
  (forall a b X Y, represents a X -> represents b Y -> Rabs X <= P -> Rabs Y <= Q ->
     exists z, represents (f a b) z /\ Rabs (z - g X Y) <= e) ->
  forall x X, stands x X -> forall y Y, stands y Y -> length X = length Y -> sized P X -> sized Q Y ->
  exists Z, stands (zip f x y) Z /\ near e Z (zip g X Y).
Proof.
  intros He Hf. induction 1 as [|a A x X Ra Rx IH]; intros y Y Ry HL SX SY.
  - exists []. split; [constructor|apply near_nil; exact He].
  - destruct Ry as [|b B y Y Rb Ry]; [discriminate|].
    apply sized_cons in SX. apply sized_cons in SY. destruct SX as [SA SX], SY as [SB SY].
    destruct (Hf a b A B Ra Rb SA SB) as (z & Rz & Ez).
    destruct (IH y Y Ry) as (Z & RZ & EZ); [cbn in HL; lia|exact SX|exact SY|].
    exists (z :: Z). split; [constructor; assumption|]. cbn [zip]. apply near_cons; assumption.
Qed.

(** The vector expressions of the integrators. *)
Lemma zip_axpy {T} (O : ops T) c x k : vadd O x (vscale O c k) = zip (fun a b => o_add O a (o_mul O c b)) x k.
Proof. revert k. induction x as [|a x IH]; intros [|b k]; cbn; try reflexivity. f_equal. apply IH. Qed.
Lemma zip_comb {T} (O : ops T) c c' x k :
  vsub O (vscale O c x) (vscale O c' k) = zip (fun a b => o_sub O (o_mul O c a) (o_mul O c' b)) x k.
Proof. revert k. induction x as [|a x IH]; intros [|b k]; cbn; try reflexivity. f_equal. apply IH. Qed.
Lemma zip_add {T} (O : ops T) x k : vadd O x k = zip (o_add O) x k.
Proof. reflexivity. Qed.

Lemma near_sized e X Y P : near e X Y -> sized P Y -> sized (P + e) X.
Proof.
  intros [_ H] S i. replace (coord i X) with (coord i Y + (coord i X - coord i Y)) by ring.
  apply abs_add2; [apply S|apply H].
Qed.
Lemma sized_le P Q X : sized P X -> P <= Q -> sized Q X.
Proof. intros H HP i. specialize (H i). lra. Qed.
Lemma sized_axpy c X K P Q : length X = length K -> sized P X -> sized Q K -> sized (P + Rabs c * Q) (X +v c *v K).
Proof.
  intros HL HX HK i. rewrite coord_vadd, coord_vscale by (rewrite vscale_length; exact HL).
  apply abs_add2; [apply HX|apply abs_mul, HK].
Qed.

Lemma rep_half_F : represents (PrimFloat.div (F_ofZ 1) (F_ofZ 2)) (1 / 2).
Proof. split; [reflexivity|]. vm_compute (Prim2SF _). unfold SF2R, F2R. cbn. lra. Qed.
Lemma rep_three_halves_F : represents (PrimFloat.div (F_ofZ 3) (F_ofZ 2)) (3 / 2).
Proof. split; [reflexivity|]. vm_compute (Prim2SF _). unfold SF2R, F2R. cbn. lra. Qed.

Section Scale.
  (** Sizes of positions ([B]) and of velocities ([P]), and the time step. *)
  Variables (B P h : R).
  Hypothesis HB : bpow radix2 (-100) <= B <= bpow radix2 800.
  Hypothesis HP : 0 <= P <= bpow radix2 800.
  Hypothesis Hh : Rabs h <= bpow radix2 800.
  Hypothesis HhP : 6 * (Rabs h * P) <= B.

  Local Notation u := uround.
  Definition slack : R := u * B / 1000000.

  Lemma slack_pos : 0 < slack.
  Proof. unfold slack. pose proof (bpow_gt_0 radix2 (-100)). destruct uround_val. assert (0 < u * B) by (apply Rmult_lt_0_compat; lra). lra. Qed.

  Lemma tiny_times Q : 0 <= Q <= bpow radix2 810 -> tiny * Q <= slack.
  Proof.
    intros [Q0 Q1]. unfold slack. apply Rle_trans with (bpow radix2 (-265)).
    - unfold tiny. change (-265)%Z with (-1075 + 810)%Z. rewrite bpow_plus.
      apply Rmult_le_compat_l; [apply bpow_ge_0|exact Q1].
    - rewrite uround_bpow. apply Rle_trans with (bpow radix2 (-53) * bpow radix2 (-100) * bpow radix2 (-20)).
      + rewrite <- !bpow_plus. apply bpow_le. lia.
      + unfold Rdiv. apply Rmult_le_compat; try (rewrite <- ?bpow_plus; apply bpow_ge_0).
        * apply Rmult_le_compat_l; [apply bpow_ge_0|apply HB].
        * cbn. lra.
  Qed.

  Lemma tiny_alone : tiny <= slack.
  Proof. rewrite <- (Rmult_1_r tiny). apply tiny_times. split; [lra|]. change 1 with (bpow radix2 0). apply bpow_le. lia. Qed.

  Lemma bpow_10 : bpow radix2 810 = 1024 * bpow radix2 800.
  Proof. change 810%Z with (10 + 800)%Z. rewrite bpow_plus. reflexivity. Qed.

  (** x + c k, where the stored [c] is [c0] up to rounding; [K] is a sum of a few velocities. *)
  Lemma axpy_F lnF m c C c0 : 0 < m <= 16 -> represents c C -> Rabs (C - c0) <= 2 * u * Rabs c0 + 2 * tiny ->
    Rabs c0 <= bpow radix2 800 -> Rabs c0 * (m * P) <= 4 / 10 * B ->
    forall x k X K, represents x X -> represents k K -> Rabs X <= B -> Rabs K <= m * P ->
    exists Z, represents (o_add (Fops lnF) x (o_mul (Fops lnF) c k)) Z /\ Rabs (Z - (X + c0 * K)) <= 3 * u * B.
  Proof.
    intros Hm Rc HC Hc0 Hcm x k X K Rx Rk HX HK. cbn [Fops o_add o_mul].
    destruct uround_val as [U0 U1]. pose proof (slack_pos) as S0. pose proof tiny_alone as S1.
    destruct tiny_small as [T0 _]. pose proof (Rabs_pos c0) as C0. pose proof (Rabs_pos K) as K0.
    assert (HmP : 0 <= m * P <= bpow radix2 810).
    { rewrite bpow_10. split; [apply Rmult_le_pos; lra|]. pose proof (bpow_gt_0 radix2 800). nra. }
    pose proof (tiny_times _ HmP) as S2. set (Q := m * P) in *.
    assert (CK : Rabs (c0 * K) <= 4 / 10 * B).
    { rewrite Rabs_mult. apply Rle_trans with (Rabs c0 * Q); [apply Rmult_le_compat_l; lra|exact Hcm]. }
    assert (UB : u * Rabs (c0 * K) <= u * (4 / 10 * B)) by (apply Rmult_le_compat_l; lra).
    (* the product with the stored coefficient *)
    assert (DC : Rabs ((C - c0) * K) <= 2 * u * (4 / 10 * B) + 2 * slack).
    { rewrite Rabs_mult. apply Rle_trans with ((2 * u * Rabs c0 + 2 * tiny) * Q).
      - apply Rmult_le_compat; try apply Rabs_pos; assumption.
      - assert (u * (Rabs c0 * Q) <= u * (4 / 10 * B)) by (apply Rmult_le_compat_l; lra). lra. }
    pose proof (small_mul B ltac:(pose proof (bpow_gt_0 radix2 (-100)); lra)) as UB1.
    assert (BB : B <= bpow radix2 800) by apply HB.
    assert (CKC : Rabs (C * K) <= 4 / 10 * B + (2 * u * (4 / 10 * B) + 2 * slack)).
    { replace (C * K) with (c0 * K + (C - c0) * K) by ring. apply abs_add2; assumption. }
    assert (SB : slack <= B / 1000000) by (unfold slack; lra).
    assert (Big : forall r, r <= 2 * B -> r <= bpow radix2 1000).
    { intros r Hr. apply Rle_trans with (bpow radix2 801); [|apply bpow_le; lia].
      change 801%Z with (1 + 800)%Z. rewrite bpow_plus. change (bpow radix2 1) with 2. lra. }
    destruct (mul_rep c k C K Rc Rk) as (e1 & h1 & He1 & Hh1 & R1); [apply Big; lra|].
    assert (DW : Rabs (C * K - c0 * K) <= 2 * u * (4 / 10 * B) + 2 * slack) by (replace (C * K - c0 * K) with ((C - c0) * K) by ring; exact DC).
    set (W := C * K) in *. clearbody W.
    assert (E1 : Rabs (W * e1) <= u * (1 / 2 * B)).
    { rewrite Rabs_mult, Rmult_comm. apply Rmult_le_compat; try apply Rabs_pos; [exact He1|lra]. }
    destruct (add_rep _ _ _ _ Rx R1) as (e2 & He2 & R2).
    { apply Big. replace (X + (W * (1 + e1) + h1)) with (X + (W + (W * e1 + h1))) by ring.
      pose proof (Rabs_triang X (W + (W * e1 + h1))). pose proof (Rabs_triang W (W * e1 + h1)). pose proof (Rabs_triang (W * e1) h1). lra. }
    eexists. split; [exact R2|].
    set (s := X + (W * (1 + e1) + h1)) in *.
    assert (HS : Rabs s <= 15 / 10 * B).
    { unfold s. replace (X + (W * (1 + e1) + h1)) with (X + (W + (W * e1 + h1))) by ring.
      pose proof (Rabs_triang X (W + (W * e1 + h1))). pose proof (Rabs_triang W (W * e1 + h1)). pose proof (Rabs_triang (W * e1) h1). lra. }
    assert (E2 : Rabs (s * e2) <= u * (15 / 10 * B)).
    { rewrite Rabs_mult, Rmult_comm. apply Rmult_le_compat; try apply Rabs_pos; assumption. }
    replace (s * (1 + e2) - (X + c0 * K)) with ((W - c0 * K) + (W * e1 + (h1 + s * e2))) by (unfold s; ring).
    pose proof (Rabs_triang (W - c0 * K) (W * e1 + (h1 + s * e2))). pose proof (Rabs_triang (W * e1) (h1 + s * e2)).
    pose proof (Rabs_triang h1 (s * e2)). unfold slack in *. lra.
  Qed.

  (** Sums of velocities: a + 2 b. *)
  Lemma twice_F lnF m two : 0 < m <= 16 -> represents two 2 -> 
    forall a b X Y, represents a X -> represents b Y -> Rabs X <= m * P -> Rabs Y <= P ->
    exists Z, represents (o_add (Fops lnF) a (o_mul (Fops lnF) two b)) Z /\ Rabs (Z - (X + 2 * Y)) <= (m + 5) * u * P + 2 * tiny.
  Proof.
    intros Hm R2 a b X Y Ra Rb HX HY. cbn [Fops o_add o_mul].
    destruct uround_val as [U0 U1]. destruct tiny_small as [T0 T1].
    pose proof (small_mul P ltac:(lra)) as UP. pose proof (small_mul tiny ltac:(lra)) as UT.
    assert (mP : 0 <= m * P) by (apply Rmult_le_pos; lra).
    assert (mP' : m * P <= 16 * P) by (apply Rmult_le_compat_r; lra).
    pose proof (small_mul (m * P) mP) as UmP.
    assert (HP8 : P <= bpow radix2 800) by apply HP.
    assert (O8 : 1 <= bpow radix2 800) by (change 1 with (bpow radix2 0); apply bpow_le; lia).
    assert (Big : forall r, r <= 100 * bpow radix2 800 -> r <= bpow radix2 1000).
    { intros r Hr. apply Rle_trans with (1 := Hr). change 1000%Z with (200 + 800)%Z. rewrite bpow_plus.
      apply Rmult_le_compat_r; [apply bpow_ge_0|]. apply Rle_trans with (bpow radix2 7); [cbn; lra|apply bpow_le; lia]. }
    destruct (mul_rep two b 2 Y R2 Rb) as (e1 & h1 & He1 & Hh1 & R1).
    { apply Big. rewrite Rabs_mult, (Rabs_pos_eq 2) by lra. lra. }
    assert (E1 : Rabs (2 * Y * e1) <= 2 * (u * P)).
    { rewrite Rabs_mult, Rabs_mult, (Rabs_pos_eq 2) by lra.
      assert (Rabs Y * Rabs e1 <= P * u) by (apply Rmult_le_compat; try apply Rabs_pos; assumption). lra. }
    assert (HY2 : Rabs (2 * Y) <= 2 * P) by (rewrite Rabs_mult, (Rabs_pos_eq 2) by lra; lra).
    set (s := X + (2 * Y * (1 + e1) + h1)).
    assert (HS : Rabs s <= m * P + (2 * P + (2 * (u * P) + tiny))).
    { unfold s. replace (X + (2 * Y * (1 + e1) + h1)) with (X + (2 * Y + (2 * Y * e1 + h1))) by ring.
      pose proof (Rabs_triang X (2 * Y + (2 * Y * e1 + h1))). pose proof (Rabs_triang (2 * Y) (2 * Y * e1 + h1)).
      pose proof (Rabs_triang (2 * Y * e1) h1). lra. }
    destruct (add_rep _ _ _ _ Ra R1) as (e2 & He2 & R3); [apply Big; fold s; lra|]. fold s in R3.
    eexists. split; [exact R3|].
    assert (E2 : Rabs (s * e2) <= (m * P + (2 * P + (2 * (u * P) + tiny))) * u).
    { rewrite Rabs_mult. apply Rmult_le_compat; try apply Rabs_pos; assumption. }
    replace (s * (1 + e2) - (X + 2 * Y)) with (2 * Y * e1 + (h1 + s * e2)) by (unfold s; ring).
    pose proof (Rabs_triang (2 * Y * e1) (h1 + s * e2)). pose proof (Rabs_triang h1 (s * e2)).
    assert (u * (u * P) <= u * P / 1000000) by (apply small_mul; apply Rmult_le_pos; lra). lra.
  Qed.

  Lemma plus_F lnF m : 0 < m <= 16 ->
    forall a b X Y, represents a X -> represents b Y -> Rabs X <= m * P -> Rabs Y <= P ->
    exists Z, represents (o_add (Fops lnF) a b) Z /\ Rabs (Z - (X + Y)) <= (m + 5) * u * P + 2 * tiny.
  Proof.
    intros Hm a b X Y Ra Rb HX HY. cbn [Fops o_add].
    destruct uround_val as [U0 U1]. destruct tiny_small as [T0 T1].
    assert (mP : 0 <= m * P) by (apply Rmult_le_pos; lra).
    assert (mP' : m * P <= 16 * P) by (apply Rmult_le_compat_r; lra).
    assert (HS : Rabs (X + Y) <= (m + 1) * P) by (pose proof (Rabs_triang X Y); lra).
    destruct (add_rep _ _ _ _ Ra Rb) as (e & He & R3).
    { apply Rle_trans with (17 * bpow radix2 800); [pose proof (proj2 HP); lra|].
      change 1000%Z with (200 + 800)%Z. rewrite bpow_plus. apply Rmult_le_compat_r; [apply bpow_ge_0|].
      apply Rle_trans with (bpow radix2 5); [cbn; lra|apply bpow_le; lia]. }
    eexists. split; [exact R3|]. replace ((X + Y) * (1 + e) - (X + Y)) with ((X + Y) * e) by ring.
    rewrite Rabs_mult. apply Rle_trans with ((m + 1) * P * u).
    - apply Rmult_le_compat; try apply Rabs_pos; assumption.
    - assert (0 <= P * u) by (apply Rmult_le_pos; lra). lra.
  Qed.

  (** 1.5 a - 0.5 b *)
  Lemma comb_F lnF th hf : represents th (3 / 2) -> represents hf (1 / 2) ->
    forall a b X Y, represents a X -> represents b Y -> Rabs X <= P -> Rabs Y <= P ->
    exists Z, represents (o_sub (Fops lnF) (o_mul (Fops lnF) th a) (o_mul (Fops lnF) hf b)) Z /\
      Rabs (Z - (3 / 2 * X - 1 / 2 * Y)) <= 5 * u * P + 3 * tiny.
  Proof.
    intros R3 R1 a b X Y Ra Rb HX HY. cbn [Fops o_sub o_mul].
    destruct uround_val as [U0 U1]. destruct tiny_small as [T0 T1].
    pose proof (small_mul P ltac:(lra)) as UP. pose proof (small_mul tiny ltac:(lra)) as UT.
    assert (O8 : 1 <= bpow radix2 800) by (change 1 with (bpow radix2 0); apply bpow_le; lia).
    assert (HP8 : P <= bpow radix2 800) by apply HP.
    assert (Big : forall r, r <= 100 * bpow radix2 800 -> r <= bpow radix2 1000).
    { intros r Hr. apply Rle_trans with (1 := Hr). change 1000%Z with (200 + 800)%Z. rewrite bpow_plus.
      apply Rmult_le_compat_r; [apply bpow_ge_0|]. apply Rle_trans with (bpow radix2 7); [cbn; lra|apply bpow_le; lia]. }
    assert (HX2 : Rabs (3 / 2 * X) <= 3 / 2 * P) by (rewrite Rabs_mult, (Rabs_pos_eq (3 / 2)) by lra; lra).
    assert (HY2 : Rabs (1 / 2 * Y) <= 1 / 2 * P) by (rewrite Rabs_mult, (Rabs_pos_eq (1 / 2)) by lra; lra).
    destruct (mul_rep th a _ _ R3 Ra) as (e1 & h1 & He1 & Hh1 & Q1); [apply Big; lra|].
    destruct (mul_rep hf b _ _ R1 Rb) as (e2 & h2 & He2 & Hh2 & Q2); [apply Big; lra|].
    set (p := 3 / 2 * X) in *. set (q := 1 / 2 * Y) in *. clearbody p q.
    assert (E1 : Rabs (p * e1) <= 3 / 2 * P * u) by (rewrite Rabs_mult; apply Rmult_le_compat; try apply Rabs_pos; assumption).
    assert (E2 : Rabs (q * e2) <= 1 / 2 * P * u) by (rewrite Rabs_mult; apply Rmult_le_compat; try apply Rabs_pos; assumption).
    set (s := p * (1 + e1) + h1 - (q * (1 + e2) + h2)).
    assert (HS : Rabs s <= 201 / 100 * P + 2 * tiny).
    { unfold s. replace (p * (1 + e1) + h1 - (q * (1 + e2) + h2)) with ((p + (p * e1 + h1)) + - (q + (q * e2 + h2))) by ring.
      eapply Rle_trans; [apply Rabs_triang|]. rewrite Rabs_Ropp.
      pose proof (Rabs_triang p (p * e1 + h1)). pose proof (Rabs_triang (p * e1) h1).
      pose proof (Rabs_triang q (q * e2 + h2)). pose proof (Rabs_triang (q * e2) h2). lra. }
    destruct (sub_rep _ _ _ _ Q1 Q2) as (e3 & He3 & Q3); [apply Big; fold s; lra|]. fold s in Q3.
    eexists. split; [exact Q3|].
    assert (E3 : Rabs (s * e3) <= (201 / 100 * P + 2 * tiny) * u).
    { rewrite Rabs_mult. apply Rmult_le_compat; try apply Rabs_pos; assumption. }
    replace (s * (1 + e3) - (p - q)) with ((p * e1 + h1) + (- (q * e2 + h2) + s * e3)) by (unfold s; ring).
    eapply Rle_trans; [apply Rabs_triang|]. pose proof (Rabs_triang (p * e1) h1).
    pose proof (Rabs_triang (- (q * e2 + h2)) (s * e3)). rewrite Rabs_Ropp in *. pose proof (Rabs_triang (q * e2) h2). lra.
  Qed.
End Scale.
