(** Accuracy of the 2D FTLE in binary64. *)
From Coq Require Import Reals Lia Lra Psatz Floats.
From Flocq Require Import Core BinarySingleNaN PrimFloat.
From Verif Require Import Base Num Jacobian Ftle SpecFtle SpecFloat64 BatchFloat FloatArith FtleFacts2.
Local Open Scope R_scope.

(** [x] is finite and within [k] of [X]. *)
Definition appr (x : PrimFloat.float) (X k : R) : Prop := exists r, represents x r /\ Rabs (r - X) <= k.

Lemma appr_exact x X : represents x X -> appr x X 0.
Proof. intro H. exists X. split; [exact H|]. unfold Rminus. rewrite Rplus_opp_r, Rabs_R0. lra. Qed.

Lemma appr_le x X k N : appr x X k -> k <= N -> appr x X N.
Proof. intros (r & H & E) L. exists r. split; [exact H|lra]. Qed.

Lemma appr_nonneg x X k : appr x X k -> 0 <= k.
Proof. intros (r & _ & H). apply Rle_trans with (2 := H). apply Rabs_pos. Qed.

Lemma scaled_err z e : Rabs e <= uround -> Rabs (z * e) <= uround * Rabs z.
Proof. intro H. rewrite Rabs_mult. pose proof (Rabs_pos z). nra. Qed.

Lemma add_appr x y X Y k l P N : appr x X k -> appr y Y l -> Rabs (X + Y) <= P ->
  P + k + l <= bpow radix2 1000 -> k + l + uround * (P + k + l) <= N -> appr (PrimFloat.add x y) (X + Y) N.
Proof.
  intros (r & Hr & Er) (s & Hs & Es) HP Hb HN.
  assert (H1 : Rabs (r + s - (X + Y)) <= k + l).
  { replace (r + s - (X + Y)) with ((r - X) + (s - Y)) by ring. pose proof (Rabs_triang (r - X) (s - Y)). lra. }
  assert (H2 : Rabs (r + s) <= P + k + l).
  { replace (r + s) with ((X + Y) + (r + s - (X + Y))) by ring. pose proof (Rabs_triang (X + Y) (r + s - (X + Y))). lra. }
  destruct (add_rep _ _ _ _ Hr Hs) as (e & He & R); [lra|].
  eexists. split; [exact R|].
  replace ((r + s) * (1 + e) - (X + Y)) with ((r + s - (X + Y)) + (r + s) * e) by ring.
  pose proof (Rabs_triang (r + s - (X + Y)) ((r + s) * e)). pose proof (scaled_err (r + s) e He).
  assert (0 < uround) by (unfold uround; lra). nra.
Qed.

Lemma sub_appr x y X Y k l P N : appr x X k -> appr y Y l -> Rabs (X - Y) <= P ->
  P + k + l <= bpow radix2 1000 -> k + l + uround * (P + k + l) <= N -> appr (PrimFloat.sub x y) (X - Y) N.
Proof.
  intros (r & Hr & Er) (s & Hs & Es) HP Hb HN.
  assert (H1 : Rabs (r - s - (X - Y)) <= k + l).
  { replace (r - s - (X - Y)) with ((r - X) + - (s - Y)) by ring. pose proof (Rabs_triang (r - X) (- (s - Y))).
    rewrite Rabs_Ropp in H. lra. }
  assert (H2 : Rabs (r - s) <= P + k + l).
  { replace (r - s) with ((X - Y) + (r - s - (X - Y))) by ring. pose proof (Rabs_triang (X - Y) (r - s - (X - Y))). lra. }
  destruct (sub_rep _ _ _ _ Hr Hs) as (e & He & R); [lra|].
  eexists. split; [exact R|].
  replace ((r - s) * (1 + e) - (X - Y)) with ((r - s - (X - Y)) + (r - s) * e) by ring.
  pose proof (Rabs_triang (r - s - (X - Y)) ((r - s) * e)). pose proof (scaled_err (r - s) e He).
  assert (0 < uround) by (unfold uround; lra). nra.
Qed.

Lemma mul_appr x y X Y k l P Q N : appr x X k -> appr y Y l -> Rabs X <= P -> Rabs Y <= Q ->
  P * Q + (k * Q + l * P + k * l) <= bpow radix2 1000 ->
  k * Q + l * P + k * l + uround * (P * Q + (k * Q + l * P + k * l)) + tiny <= N ->
  appr (PrimFloat.mul x y) (X * Y) N.
Proof.
  intros Ax Ay HP HQ Hb HN. pose proof (appr_nonneg _ _ _ Ax) as Hk. pose proof (appr_nonneg _ _ _ Ay) as Hl.
  destruct Ax as (r & Hr & Er). destruct Ay as (s & Hs & Es).
  pose proof (Rabs_pos X) as PX. pose proof (Rabs_pos Y) as PY.
  pose proof (Rabs_pos (r - X)) as Pr. pose proof (Rabs_pos (s - Y)) as Ps.
  assert (H1 : Rabs (r * s - X * Y) <= k * Q + l * P + k * l).
  { replace (r * s - X * Y) with ((r - X) * Y + ((s - Y) * X + (r - X) * (s - Y))) by ring.
    pose proof (Rabs_triang ((r - X) * Y) ((s - Y) * X + (r - X) * (s - Y))).
    pose proof (Rabs_triang ((s - Y) * X) ((r - X) * (s - Y))).
    rewrite !Rabs_mult in *.
    assert (Rabs (r - X) * Rabs Y <= k * Q) by (apply Rmult_le_compat; assumption).
    assert (Rabs (s - Y) * Rabs X <= l * P) by (apply Rmult_le_compat; assumption).
    assert (Rabs (r - X) * Rabs (s - Y) <= k * l) by (apply Rmult_le_compat; assumption). lra. }
  assert (HXY : Rabs (X * Y) <= P * Q) by (rewrite Rabs_mult; apply Rmult_le_compat; assumption).
  assert (H2 : Rabs (r * s) <= P * Q + (k * Q + l * P + k * l)).
  { replace (r * s) with (X * Y + (r * s - X * Y)) by ring. pose proof (Rabs_triang (X * Y) (r * s - X * Y)). lra. }
  destruct (mul_rep _ _ _ _ Hr Hs) as (e & h & He & Hh & R); [lra|].
  eexists. split; [exact R|].
  replace (r * s * (1 + e) + h - X * Y) with ((r * s - X * Y) + (r * s * e + h)) by ring.
  pose proof (Rabs_triang (r * s - X * Y) (r * s * e + h)). pose proof (Rabs_triang (r * s * e) h).
  pose proof (scaled_err (r * s) e He).
  assert (0 < uround) by (unfold uround; lra).
  assert (uround * Rabs (r * s) <= uround * (P * Q + (k * Q + l * P + k * l))) by (apply Rmult_le_compat_l; lra). lra.
Qed.

Lemma sqrt_close x y d : 0 <= x -> 0 <= y -> Rabs (x - y) <= d * d -> 0 <= d ->
  Rabs (R_sqrt.sqrt x - R_sqrt.sqrt y) <= d.
Proof.
  intros Hx Hy H Hd. pose proof (sqrt_pos x) as Px. pose proof (sqrt_pos y) as Py.
  pose proof (sqrt_sqrt x Hx) as Sx. pose proof (sqrt_sqrt y Hy) as Sy.
  set (a := R_sqrt.sqrt x) in *. set (b := R_sqrt.sqrt y) in *. clearbody a b. subst x y.
  apply Rnot_lt_le. intro C. revert H C. unfold Rabs.
  destruct (Rcase_abs (a * a - b * b)), (Rcase_abs (a - b)); intros; nra.
Qed.

Lemma sqrt_rel m s d : 0 < s -> 0 <= d <= 1 -> Rabs (m - s * s) <= d * (s * s) ->
  0 <= m /\ Rabs (R_sqrt.sqrt m - s) <= (d / 2 + d * d) * s.
Proof.
  intros Hs Hd H.
  assert (Hm : 0 <= m).
  { revert H. unfold Rabs. destruct (Rcase_abs (m - s * s)); intros; nra. }
  split; [exact Hm|]. pose proof (sqrt_pos m) as Pm. pose proof (sqrt_sqrt m Hm) as Sm.
  set (a := R_sqrt.sqrt m) in *. clearbody a. subst m.
  assert (L : s * (1 - d) <= a).
  { apply Rnot_lt_le. intro C. assert (a * a < s * s * (1 - d)).
    { set (q := s * (1 - d)) in *.
      assert (a * a < q * q) by nra. assert (q * q <= s * s * (1 - d)); [|lra]. unfold q.
      replace (s * (1 - d) * (s * (1 - d))) with (s * s * (1 - d) * (1 - d)) by ring.
      assert (0 <= s * s * (1 - d)) by (apply Rmult_le_pos; nra). nra. }
    revert H. unfold Rabs. destruct (Rcase_abs (a * a - s * s)); intros; nra. }
  assert (K : Rabs (a - s) * (a + s) <= d * (s * s)).
  { rewrite <- (Rabs_pos_eq (a + s)) by lra. rewrite <- Rabs_mult.
    replace ((a - s) * (a + s)) with (a * a - s * s) by ring. exact H. }
  pose proof (Rabs_pos (a - s)) as Pa.
  assert (K2 : Rabs (a - s) * (2 - d) <= d * s).
  { apply Rmult_le_reg_r with s; [exact Hs|].
    apply Rle_trans with (Rabs (a - s) * (a + s)); [|lra]. rewrite Rmult_assoc.
    apply Rmult_le_compat_l; [exact Pa|]. replace ((2 - d) * s) with (s * (1 - d) + s) by ring. lra. }
  apply Rmult_le_reg_r with (2 - d); [lra|]. apply Rle_trans with (1 := K2).
  replace ((d / 2 + d * d) * s * (2 - d)) with (s * (d + d * d * (3 / 2 - d))) by field.
  assert (0 <= d * d * (3 / 2 - d)) by (apply Rmult_le_pos; nra).
  apply Rle_trans with (s * d); [lra|]. apply Rmult_le_compat_l; lra.
Qed.

(** The steps of the computation, for entries whose squares sum to [t]. *)
Section Steps.
  Variables a b c d : PrimFloat.float.
  Variables ra rb rc rd t : R.
  Hypothesis Ra : represents a ra.
  Hypothesis Rb : represents b rb.
  Hypothesis Rc : represents c rc.
  Hypothesis Rd : represents d rd.
  Hypothesis Ht : t = (ra * ra + rc * rc) + (rb * rb + rd * rd).
  Hypothesis Hpos : 0 < t.
  Hypothesis Hbig : 100 * t <= bpow radix2 1000.
  Hypothesis Hbig2 : 100 * (t * t) <= bpow radix2 1000.
  Hypothesis Hsmall : 1000000 * tiny <= uround * t.
  Hypothesis Hsmall2 : 1000000 * tiny <= uround * (t * t).

  Let sq x : 0 <= x * x. Proof. nra. Qed.

  Let sq_abs x : Rabs x * Rabs x = x * x.
  Proof. rewrite <- Rabs_mult. apply Rabs_pos_eq. apply sq. Qed.

  Lemma step_diag x y rx ry : represents x rx -> represents y ry -> rx * rx + ry * ry <= t ->
    appr (PrimFloat.add (PrimFloat.mul x x) (PrimFloat.mul y y)) (rx * rx + ry * ry) (22 / 10 * uround * t).
  Proof.
    intros Hx Hy Hle. pose proof (sq rx). pose proof (sq ry). pose proof tiny_small as [Ht0 _].
    assert (Hm : forall z rz, represents z rz -> rz * rz <= t -> appr (PrimFloat.mul z z) (rz * rz) (uround * (rz * rz) + tiny)).
    { intros z rz Hz Hl. pose proof (sq rz).
      apply (mul_appr z z rz rz 0 0 (Rabs rz) (Rabs rz)); try apply appr_exact; try assumption; try lra;
      rewrite !sq_abs; unfold uround in *; lra. }
    eapply add_appr; [apply Hm; [exact Hx|lra]|apply Hm; [exact Hy|lra]| | |].
    - rewrite Rabs_pos_eq by lra. exact Hle.
    - unfold uround in *. lra.
    - unfold uround in *. lra.
  Qed.

  Lemma step_off x y z w rx ry rz rw : represents x rx -> represents y ry -> represents z rz -> represents w rw ->
    rx * rx + ry * ry + (rz * rz + rw * rw) = t ->
    appr (PrimFloat.add (PrimFloat.mul x y) (PrimFloat.mul z w)) (rx * ry + rz * rw) (12 / 10 * uround * t) /\
    Rabs (rx * ry + rz * rw) <= t / 2.
  Proof.
    intros Hx Hy Hz Hw He. pose proof (sq rx). pose proof (sq ry). pose proof (sq rz). pose proof (sq rw).
    pose proof tiny_small as [Ht0 _].
    assert (Hp : forall p q, Rabs (p * q) <= (p * p + q * q) / 2).
    { intros p q. unfold Rabs. pose proof (sq (p + q)). pose proof (sq (p - q)). destruct (Rcase_abs (p * q)); lra. }
    assert (Hm : forall p q rp rq, represents p rp -> represents q rq -> rp * rp + rq * rq <= t ->
      appr (PrimFloat.mul p q) (rp * rq) (uround * ((rp * rp + rq * rq) / 2) + tiny)).
    { intros p q rp rq Hpp Hq Hl. pose proof (Hp rp rq) as Hpq. rewrite Rabs_mult in Hpq.
      apply (mul_appr p q rp rq 0 0 (Rabs rp) (Rabs rq)); try apply appr_exact; try assumption; try lra;
      unfold uround in *; lra. }
    assert (Hb : Rabs (rx * ry + rz * rw) <= t / 2).
    { pose proof (Rabs_triang (rx * ry) (rz * rw)). pose proof (Hp rx ry). pose proof (Hp rz rw). lra. }
    split; [|exact Hb].
    eapply add_appr; [apply Hm; [exact Hx|exact Hy|lra]|apply Hm; [exact Hz|exact Hw|lra]|exact Hb| |];
    unfold uround in *; lra.
  Qed.

  Let A := ra * ra + rc * rc.
  Let D := rb * rb + rd * rd.
  Let B := ra * rb + rc * rd.

  Let fA := PrimFloat.add (PrimFloat.mul a a) (PrimFloat.mul c c).
  Let fB := PrimFloat.add (PrimFloat.mul a b) (PrimFloat.mul c d).
  Let fB' := PrimFloat.add (PrimFloat.mul b a) (PrimFloat.mul d c).
  Let fD := PrimFloat.add (PrimFloat.mul b b) (PrimFloat.mul d d).
  Let ftr := PrimFloat.add fA fD.
  Let fdet := PrimFloat.sub (PrimFloat.mul fA fD) (PrimFloat.mul fB fB').
  Let fdisc four := PrimFloat.sub (PrimFloat.mul ftr ftr) (PrimFloat.mul four fdet).

  Let A_pos : 0 <= A. Proof. unfold A. pose proof (sq ra). pose proof (sq rc). lra. Qed.
  Let D_pos : 0 <= D. Proof. unfold D. pose proof (sq rb). pose proof (sq rd). lra. Qed.
  Let AD : A + D = t. Proof. unfold A, D. lra. Qed.

  Lemma step_trace : appr ftr t (55 / 10 * uround * t).
  Proof.
    rewrite <- AD at 1. unfold ftr.
    eapply add_appr.
    - apply step_diag; [exact Ra|exact Rc|]. fold A. lra.
    - apply step_diag; [exact Rb|exact Rd|]. fold D. lra.
    - fold A. fold D. rewrite AD. rewrite Rabs_pos_eq by lra. apply Rle_refl.
    - unfold uround. lra.
    - unfold uround. lra.
  Qed.

  Lemma step_det : 0 <= A * D - B * B <= t * t / 4 /\ appr fdet (A * D - B * B) (75 / 10 * uround * (t * t)).
  Proof.
    pose proof tiny_small as [Ht0 _].
    assert (HB2 : 0 <= A * D - B * B <= t * t / 4).
    { split.
      - unfold A, B, D. replace (_ - _) with ((ra * rd - rb * rc) * (ra * rd - rb * rc)) by ring. apply sq.
      - rewrite <- AD. pose proof (sq B). pose proof (sq (A - D)). lra. }
    split; [exact HB2|].
    destruct (step_off a b c d ra rb rc rd Ra Rb Rc Rd) as [H1 H2]; [lra|].
    destruct (step_off b a d c rb ra rd rc Rb Ra Rd Rc) as [H3 H4]; [lra|].
    fold B in H1, H2. replace (rb * ra + rd * rc) with B in H3, H4 by (unfold B; ring).
    assert (HA : appr fA A (22 / 10 * uround * t)) by (apply step_diag; [exact Ra|exact Rc|fold A; lra]).
    assert (HD : appr fD D (22 / 10 * uround * t)) by (apply step_diag; [exact Rb|exact Rd|fold D; lra]).
    assert (P1 : appr (PrimFloat.mul fA fD) (A * D) (56 / 10 * uround * (t * t))).
    { eapply (mul_appr _ _ _ _ _ _ t t); [exact HA|exact HD| | | |]; try (rewrite Rabs_pos_eq; lra); unfold uround in *; lra. }
    assert (P2 : appr (PrimFloat.mul fB fB') (B * B) (15 / 10 * uround * (t * t))).
    { eapply (mul_appr _ _ _ _ _ _ (t / 2) (t / 2)); [exact H1|exact H3|exact H2|exact H4| |]; unfold uround in *; lra. }
    eapply sub_appr; [exact P1|exact P2| | |].
    - rewrite Rabs_pos_eq by lra. exact (proj2 HB2).
    - unfold uround in *. lra.
    - unfold uround in *. lra.
  Qed.

  Lemma step_disc four : represents four 4 ->
    appr (fdisc four) ((A - D) * (A - D) + 4 * B * B) (45 * uround * (t * t)) /\
    0 <= (A - D) * (A - D) + 4 * B * B <= t * t.
  Proof.
    intro R4. pose proof tiny_small as [Ht0 _]. destruct step_det as [Hd Ad].
    assert (E : (A - D) * (A - D) + 4 * B * B = t * t - 4 * (A * D - B * B)) by (rewrite <- AD; ring).
    rewrite E.
    assert (Hr : 0 <= t * t - 4 * (A * D - B * B) <= t * t).
    { rewrite <- E at 1. pose proof (sq (A - D)). pose proof (sq B). lra. }
    split; [|exact Hr].
    assert (P1 : appr (PrimFloat.mul ftr ftr) (t * t) (121 / 10 * uround * (t * t))).
    { eapply (mul_appr _ _ _ _ _ _ t t); [exact step_trace|exact step_trace| | | |];
        try (rewrite Rabs_pos_eq; lra); unfold uround in *; lra. }
    assert (P2 : appr (PrimFloat.mul four fdet) (4 * (A * D - B * B)) (311 / 10 * uround * (t * t))).
    { eapply (mul_appr _ _ _ _ _ _ 4 (t * t / 4)); [apply appr_exact; exact R4|exact Ad| | | |];
        try (rewrite Rabs_pos_eq; lra); unfold uround in *; lra. }
    eapply sub_appr; [exact P1|exact P2| | |].
    - rewrite Rabs_pos_eq by lra. exact (proj2 Hr).
    - unfold uround in *. lra.
    - unfold uround in *. lra.
  Qed.

  (** The eigenvalue, when the square root is not that of a negative number. *)
  Lemma step_eig four half lnF : represents four 4 -> represents half (1 / 2) ->
    let s := PrimFloat.sqrt (fdisc four) in
    let lambda1 := PrimFloat.mul half (PrimFloat.add ftr s) in
    let lambda2 := PrimFloat.mul half (PrimFloat.sub ftr s) in
    (s = PrimFloat.nan /\ (A - D) * (A - D) + 4 * B * B < 45 * uround * (t * t)) \/
    appr (o_max (Fops lnF) lambda1 lambda2) (lam A B D) (/ 26000000 * t).
  Proof.
    intros R4 Rh s l1 l2. destruct (step_disc four R4) as [(r & Hr & Er) Hd].
    set (S2 := (A - D) * (A - D) + 4 * B * B) in *.
    destruct (Rlt_or_le r 0) as [Hn|Hn].
    { left. split; [exact (sqrt_nan _ _ Hr Hn)|]. revert Er. unfold Rabs. destruct (Rcase_abs (r - S2)); lra. }
    right. pose proof tiny_small as [Ht0 _].
    assert (Hrb : r <= 2 * (t * t)).
    { revert Er. unfold uround, Rabs. destruct (Rcase_abs (r - S2)); lra. }
    assert (Hc : Rabs (R_sqrt.sqrt r - R_sqrt.sqrt S2) <= / 14000000 * t).
    { apply sqrt_close; [exact Hn|exact (proj1 Hd)| |lra]. apply Rle_trans with (1 := Er). unfold uround. lra. }
    assert (HS : 0 <= R_sqrt.sqrt S2 <= t).
    { split; [apply sqrt_pos|]. rewrite <- (sqrt_square t) by lra. apply sqrt_le_1_alt. exact (proj2 Hd). }
    destruct (sqrt_rep _ _ Hr Hn) as (e & He & Rs); [lra|]. fold s in Rs.
    assert (As : appr s (R_sqrt.sqrt S2) (/ 13900000 * t)).
    { eexists. split; [exact Rs|].
      replace (R_sqrt.sqrt r * (1 + e) - R_sqrt.sqrt S2) with ((R_sqrt.sqrt r - R_sqrt.sqrt S2) + R_sqrt.sqrt r * e) by ring.
      pose proof (Rabs_triang (R_sqrt.sqrt r - R_sqrt.sqrt S2) (R_sqrt.sqrt r * e)).
      pose proof (scaled_err (R_sqrt.sqrt r) e He).
      assert (Rabs (R_sqrt.sqrt r) <= 2 * t).
      { rewrite Rabs_pos_eq by apply sqrt_pos. revert Hc. unfold Rabs. destruct (Rcase_abs _); lra. }
      unfold uround in *. lra. }
    assert (A1 : appr (PrimFloat.add ftr s) (t + R_sqrt.sqrt S2) (/ 13500000 * t)).
    { eapply (add_appr _ _ _ _ _ _ (2 * t)); [exact step_trace|exact As| | |];
        try (rewrite Rabs_pos_eq; lra); unfold uround in *; lra. }
    assert (A2 : appr (PrimFloat.sub ftr s) (t - R_sqrt.sqrt S2) (/ 13500000 * t)).
    { eapply (sub_appr _ _ _ _ _ _ (2 * t)); [exact step_trace|exact As| | |];
        try (rewrite Rabs_pos_eq; lra); unfold uround in *; lra. }
    assert (L1 : appr l1 (1 / 2 * (t + R_sqrt.sqrt S2)) (/ 26000000 * t)).
    { eapply (mul_appr _ _ _ _ _ _ (1 / 2) (2 * t)); [apply appr_exact; exact Rh|exact A1| | | |];
        try (rewrite Rabs_pos_eq; lra); unfold uround in *; lra. }
    assert (L2 : appr l2 (1 / 2 * (t - R_sqrt.sqrt S2)) (/ 26000000 * t)).
    { eapply (mul_appr _ _ _ _ _ _ (1 / 2) (2 * t)); [apply appr_exact; exact Rh|exact A2| | | |];
        try (rewrite Rabs_pos_eq; lra); unfold uround in *; lra. }
    destruct L1 as (r1 & H1 & E1). destruct L2 as (r2 & H2 & E2).
    assert (El : lam A B D = 1 / 2 * (t + R_sqrt.sqrt S2)) by (unfold lam; fold S2; rewrite AD; lra).
    rewrite El. unfold o_max. cbn [o_ltb Fops]. rewrite (ltb_rep _ _ _ _ H1 H2).
    destruct (Rlt_bool_spec r1 r2) as [C|C].
    - exists r2. split; [exact H2|]. revert E1 E2. unfold Rabs.
      repeat destruct (Rcase_abs _); lra.
    - exists r1. split; [exact H1|exact E1].
  Qed.
End Steps.
