(** Accuracy of the 3D FTLE in binary64. *)
From Coq Require Import Reals Lia Lra Psatz Floats.
From Flocq Require Import Core BinarySingleNaN PrimFloat.
From Verif Require Import Base Num Jacobian Ftle SpecFtle SpecFloat64 SpecAccuracy SpecEigen BatchFloat FloatArith FtleAccuracy FtleAccuracyMain
  FloatGrid FloatKernel FloatAxis FtleFacts3 ConvergeFacts.
Local Open Scope R_scope.

(* ---- symmetric matrices ---- *)
Lemma quad_bound eps D u : dot3v u u = 1 -> Forall (fun x => Rabs x <= eps) (entries3 D) -> Rabs (dot3v u (app33 D u)) <= 3 * eps.
Proof.
  intros Hu HD. destruct u as [[x y] z]. destruct D as [a b c d e f g h i].
  unfold dot3v, app33, v0, v1, v2 in *. cbn [fst snd b00 b01 b02 b10 b11 b12 b20 b21 b22] in *.
  unfold entries3 in HD. cbn [b00 b01 b02 b10 b11 b12 b20 b21 b22] in HD.
  rewrite Forall_forall in HD.
  assert (He : 0 <= eps) by (eapply Rle_trans; [apply Rabs_pos|exact (HD a ltac:(cbn; tauto))]).
  assert (T : forall k x y, In k [a; b; c; d; e; f; g; h; i] -> Rabs (x * (k * y)) <= eps * ((x * x + y * y) / 2)).
  { clear -HD He. intros k x y Hk. specialize (HD k Hk). replace (x * (k * y)) with (k * (x * y)) by ring.
    apply abs_mul_le; [exact HD|]. pose proof (Rle_0_sqr (x - y)) as Q1. pose proof (Rle_0_sqr (x + y)) as Q2. unfold Rsqr in Q1, Q2. clear HD. apply Rabs_le. lra. }
  replace (x * (a * x + b * y + c * z) + y * (d * x + e * y + f * z) + z * (g * x + h * y + i * z))
    with (x * (a * x) + x * (b * y) + x * (c * z) + (y * (d * x) + y * (e * y) + y * (f * z)) + (z * (g * x) + z * (h * y) + z * (i * z))) by ring.
  pose proof (T a x x ltac:(cbn; tauto)). pose proof (T b x y ltac:(cbn; tauto)). pose proof (T c x z ltac:(cbn; tauto)).
  pose proof (T d y x ltac:(cbn; tauto)). pose proof (T e y y ltac:(cbn; tauto)). pose proof (T f y z ltac:(cbn; tauto)).
  pose proof (T g z x ltac:(cbn; tauto)). pose proof (T h z y ltac:(cbn; tauto)). pose proof (T i z z ltac:(cbn; tauto)).
  clear T HD. repeat match goal with H : Rabs (_ * _) <= _ |- _ => apply Rabs_le_inv in H end.
  assert (Q : eps * (x * x) + eps * (y * y) + eps * (z * z) = eps) by (rewrite <- !Rmult_plus_distr_l, Hu; ring).
  apply Rabs_le. split; lra.
Qed.

Lemma weyl_le A B a b eps : symmetric_3 B -> roots_of_charpoly A a -> roots_of_charpoly B b ->
  Forall (fun x => Rabs x <= eps) (entries3 (sub33 A B)) -> max3 a <= max3 b + 3 * eps.
Proof.
  intros SB RA RB HD. destruct (eigenvector A a RA) as (u & Hu & E).
  pose proof (rayleigh B b u SB RB) as H. rewrite Hu, Rmult_1_r in H.
  pose proof (quad_bound eps _ u Hu HD) as Q. apply Rabs_le_inv in Q.
  assert (X : dot3v u (app33 (sub33 A B) u) = dot3v u (app33 A u) - dot3v u (app33 B u)).
  { unfold dot3v, app33, sub33, v0, v1, v2. cbn [fst snd b00 b01 b02 b10 b11 b12 b20 b21 b22]. ring. }
  assert (Y : dot3v u (app33 A u) = max3 a).
  { rewrite E. replace (dot3v u (scale3 (max3 a) u)) with (max3 a * dot3v u u)
      by (unfold dot3v, scale3, v0, v1, v2; simpl; ring). rewrite Hu; ring. }
  lra.
Qed.

Lemma weyl A B a b eps : symmetric_3 A -> symmetric_3 B -> roots_of_charpoly A a -> roots_of_charpoly B b ->
  Forall (fun x => Rabs x <= eps) (entries3 (sub33 A B)) -> Rabs (max3 a - max3 b) <= 3 * eps.
Proof.
  intros SA SB RA RB HD. pose proof (weyl_le A B a b eps SB RA RB HD).
  assert (HD' : Forall (fun x => Rabs x <= eps) (entries3 (sub33 B A))).
  { unfold entries3, sub33 in *. cbn [b00 b01 b02 b10 b11 b12 b20 b21 b22] in *.
    repeat match goal with H : Forall _ (_ :: _) |- _ => apply Forall_cons_iff in H; destruct H end.
    repeat (apply Forall_cons; [rewrite Rabs_minus_sym; assumption|]). constructor. }
  pose proof (weyl_le B A b a eps SA RB RA HD'). apply Rabs_le. lra.
Qed.

Lemma max3_close X Y Z A B D d : Rabs (X - A) <= d -> Rabs (Y - B) <= d -> Rabs (Z - D) <= d ->
  Rabs (max3 (X, Y, Z) - max3 (A, B, D)) <= d.
Proof.
  intros H1 H2 H3. apply Rabs_le_inv in H1, H2, H3. unfold max3. cbn [fst snd]. apply Rabs_le.
  unfold Rmax. repeat destruct (Rle_dec _ _); lra.
Qed.

Lemma entry_le_norm3 Q s : spectral_norm_3 Q s -> 0 <= s /\ Forall (fun x => Rabs x <= s) (entries3 Q).
Proof.
  intros [H (u0 & Hu0 & Hs)].
  assert (P : 0 <= s) by (rewrite <- Hs; apply sqrt_pos). split; [exact P|]. clear u0 Hu0 Hs.
  assert (K : forall x y z, R_sqrt.sqrt (x * x + y * y + z * z) <= s -> Rabs x <= s /\ Rabs y <= s /\ Rabs z <= s).
  { intros x y z Hxy.
    assert (E : x * x + y * y + z * z <= s * s).
    { rewrite <- (sqrt_sqrt (x * x + y * y + z * z)) by nra. pose proof (sqrt_pos (x * x + y * y + z * z)). nra. }
    repeat split; apply Rabs_le; split; nra. }
  assert (N : forall u, dot3v u u = 1 -> norm3 (app33 Q u) <= s).
  { intros u Hu. specialize (H u). unfold norm3 in H at 2. rewrite Hu, sqrt_1, Rmult_1_r in H. exact H. }
  pose proof (N (1, 0, 0) ltac:(unfold dot3v, v0, v1, v2; cbn [fst snd]; ring)) as H1.
  pose proof (N (0, 1, 0) ltac:(unfold dot3v, v0, v1, v2; cbn [fst snd]; ring)) as H2.
  pose proof (N (0, 0, 1) ltac:(unfold dot3v, v0, v1, v2; cbn [fst snd]; ring)) as H3.
  unfold norm3, dot3v, app33, v0, v1, v2 in H1, H2, H3. cbn [fst snd] in H1, H2, H3.
  rewrite !Rmult_1_r, !Rmult_0_r in H1, H2, H3.
  apply K in H1, H2, H3. destruct H1 as (? & ? & ?), H2 as (? & ? & ?), H3 as (? & ? & ?). repeat match goal with H : Rabs _ <= s |- _ => rewrite ?Rplus_0_r, ?Rplus_0_l in H; revert H end. intros.
  unfold entries3. do 9 (apply Forall_cons; [assumption|]). constructor.
Qed.

Lemma zero_norm3 : spectral_norm_3 (M33 0 0 0 0 0 0 0 0 0) 0.
Proof.
  assert (E : forall u, norm3 (app33 (M33 0 0 0 0 0 0 0 0 0) u) = 0).
  { intros [[x y] z]. unfold norm3, dot3v, app33, v0, v1, v2. cbn [fst snd b00 b01 b02 b10 b11 b12 b20 b21 b22].
    transitivity (R_sqrt.sqrt 0); [f_equal; ring|apply sqrt_0]. }
  split.
  - intro u. rewrite E. lra.
  - exists (1, 0, 0). split; [|apply E]. unfold norm3, dot3v, v0, v1, v2. cbn [fst snd].
    replace (1 * 1 + 0 * 0 + 0 * 0) with 1 by ring. apply sqrt_1.
Qed.

Lemma norm3_le_entries Q s N : spectral_norm_3 Q s -> Forall (fun x => Rabs x <= N) (entries3 Q) -> s <= 3 * N.
Proof.
  intros HQ H. replace (3 * N) with (0 + 3 * N) by ring. apply (norm_le_3 N (M33 0 0 0 0 0 0 0 0 0) Q 0 s); [|exact zero_norm3|exact HQ].
  unfold entries3 in H. repeat match goal with H : Forall _ (_ :: _) |- _ => apply Forall_cons_iff in H; destruct H end.
  unfold close33. cbn [b00 b01 b02 b10 b11 b12 b20 b21 b22].
  repeat split; unfold Rminus; rewrite Rplus_0_l, Rabs_Ropp; assumption.
Qed.

Lemma norm_sq_FFt G s e : spectral_norm_3 G s -> roots_of_charpoly (mul33 G (tr33 G)) e -> max3 e = s * s.
Proof.
  intros Hs Hr. assert (Hr' : roots_of_charpoly (mul33 (tr33 G) G) e) by (intro x; rewrite <- charpoly_FFt; apply Hr).
  pose proof (max3_nonneg G e Hr') as P. rewrite (spectral_norm_3_unique G s _ Hs (spectral_norm_max3 G e Hr')).
  symmetry. apply sqrt_sqrt. exact P.
Qed.

Lemma FFt_sym3 G : symmetric_3 (mul33 G (tr33 G)).
Proof. apply m33_ext; simpl; ring. Qed.

(* ---- the Cauchy-Green tensor ---- *)
Lemma dot3_F lnF x0 x1 x2 y0 y1 y2 X0 X1 X2 Y0 Y1 Y2 s :
  represents x0 X0 -> represents x1 X1 -> represents x2 X2 -> represents y0 Y0 -> represents y1 Y1 -> represents y2 Y2 ->
  Rabs X0 <= s -> Rabs X1 <= s -> Rabs X2 <= s -> Rabs Y0 <= s -> Rabs Y1 <= s -> Rabs Y2 <= s ->
  100 * (s * s) <= bpow radix2 1000 -> 1000000 * tiny <= uround * (s * s) ->
  exists r, represents (dot3 (Fops lnF) x0 x1 x2 y0 y1 y2) r /\ Rabs (r - (X0 * Y0 + X1 * Y1 + X2 * Y2)) <= 9 * uround * (s * s).
Proof.
  intros R0 R1 R2 S0 S1 S2 A0 A1 A2 B0 B1 B2 HU HL.
  pose proof (abs_mul_le _ _ _ _ A0 B0) as P0. pose proof (abs_mul_le _ _ _ _ A1 B1) as P1. pose proof (abs_mul_le _ _ _ _ A2 B2) as P2.
  set (q := s * s) in *. assert (Hq : 0 <= q) by (unfold q; nra). pose proof (small_mul q Hq) as Sq.
  assert (HU' : q <= bpow radix2 1000) by lra.
  destruct (mul_rep _ _ _ _ R0 S0 ltac:(lra)) as (e0 & h0 & E0 & H0 & M0).
  destruct (mul_rep _ _ _ _ R1 S1 ltac:(lra)) as (e1 & h1 & E1 & H1 & M1).
  destruct (mul_rep _ _ _ _ R2 S2 ltac:(lra)) as (e2 & h2 & E2 & H2 & M2).
  set (p0 := X0 * Y0) in *. set (p1 := X1 * Y1) in *. set (p2 := X2 * Y2) in *. clearbody p0 p1 p2.
  assert (D : forall p e h, Rabs p <= q -> Rabs e <= uround -> Rabs h <= tiny -> Rabs (p * (1 + e) + h - p) <= uround * q + tiny).
  { clear. intros p e h Hp He Hh. replace (p * (1 + e) + h - p) with (p * e + h) by ring.
    eapply Rle_trans; [apply Rabs_triang|]. rewrite (Rmult_comm uround). apply Rplus_le_compat; [apply abs_mul_le; assumption|exact Hh]. }
  pose proof (D _ _ _ P0 E0 H0) as D0. pose proof (D _ _ _ P1 E1 H1) as D1. pose proof (D _ _ _ P2 E2 H2) as D2.
  set (r0 := p0 * (1 + e0) + h0) in *. set (r1 := p1 * (1 + e1) + h1) in *. set (r2 := p2 * (1 + e2) + h2) in *. clearbody r0 r1 r2.
  apply Rabs_le_inv in D0, D1, D2, P0, P1, P2.
  assert (B01 : Rabs (r0 + r1) <= 2 * q + q / 100000) by (apply Rabs_le; lra).
  destruct (add_rep _ _ _ _ M0 M1) as (e3 & E3 & M3); [lra|].
  assert (D3 : Rabs ((r0 + r1) * e3) <= (2 * q + q / 100000) * uround) by (apply abs_mul_le; assumption). apply Rabs_le_inv in D3, B01.
  assert (K : (2 * q + q / 100000) * uround = 2 * (uround * q) + (uround * q) / 100000) by (field).
  pose proof (small_mul (uround * q) ltac:(lra)).
  assert (B2' : Rabs ((r0 + r1) * (1 + e3) + r2) <= 3 * q + q / 10000).
  { replace ((r0 + r1) * (1 + e3) + r2) with (r0 + r1 + (r0 + r1) * e3 + r2) by ring. apply Rabs_le. lra. }
  destruct (add_rep _ _ _ _ M3 M2) as (e4 & E4 & M4); [lra|].
  assert (D4 : Rabs (((r0 + r1) * (1 + e3) + r2) * e4) <= (3 * q + q / 10000) * uround) by (apply abs_mul_le; assumption). apply Rabs_le_inv in D4.
  assert (K' : (3 * q + q / 10000) * uround = 3 * (uround * q) + (uround * q) / 10000) by (field).
  eexists. split; [exact M4|].
  replace (((r0 + r1) * (1 + e3) + r2) * (1 + e4)) with (r0 + r1 + (r0 + r1) * e3 + r2 + ((r0 + r1) * (1 + e3) + r2) * e4) by ring.
  rewrite Rmult_assoc. apply Rabs_le. lra.
Qed.

Lemma mul_comm_F x y : PrimFloat.mul x y = PrimFloat.mul y x.
Proof.
  apply Prim2SF_inj. rewrite !mul_spec. unfold SF64mul, SFmul.
  destruct (Prim2SF x) as [[]|[]| |[] m e], (Prim2SF y) as [[]|[]| |[] m' e']; cbn [xorb]; try reflexivity;
    rewrite (Pos.mul_comm m m'), (Z.add_comm e e'); reflexivity.
Qed.

Lemma dot3_sym lnF x0 x1 x2 y0 y1 y2 : dot3 (Fops lnF) x0 x1 x2 y0 y1 y2 = dot3 (Fops lnF) y0 y1 y2 x0 x1 x2.
Proof.
  unfold dot3. cbn [o_add o_mul Fops]. rewrite (mul_comm_F x0), (mul_comm_F x1), (mul_comm_F x2). reflexivity.
Qed.

Lemma tensor_F lnF F G s : stands_for3 F G -> Forall (fun x => Rabs x <= s) (entries3 G) ->
  100 * (s * s) <= bpow radix2 1000 -> 1000000 * tiny <= uround * (s * s) ->
  exists S, stands_for3 (cauchy_green_3x3 (Fops lnF) F) S /\ symmetric_3 S /\
    Forall (fun x => Rabs x <= 9 * uround * (s * s)) (entries3 (sub33 S (mul33 G (tr33 G)))) /\
    Forall (fun x => Rabs x <= 4 * (s * s)) (entries3 S).
Proof.
  intros ((R00 & R01 & R02) & (R10 & R11 & R12) & (R20 & R21 & R22)) HG HU HL.
  unfold entries3 in HG. repeat match goal with H : Forall _ (_ :: _) |- _ => apply Forall_cons_iff in H; destruct H end.
  assert (D : forall x0 x1 x2 y0 y1 y2 X0 X1 X2 Y0 Y1 Y2,
    represents x0 X0 -> represents x1 X1 -> represents x2 X2 -> represents y0 Y0 -> represents y1 Y1 -> represents y2 Y2 ->
    Rabs X0 <= s -> Rabs X1 <= s -> Rabs X2 <= s -> Rabs Y0 <= s -> Rabs Y1 <= s -> Rabs Y2 <= s ->
    exists r, represents (dot3 (Fops lnF) x0 x1 x2 y0 y1 y2) r /\ Rabs (r - (X0 * Y0 + X1 * Y1 + X2 * Y2)) <= 9 * uround * (s * s) /\ Rabs r <= 4 * (s * s)).
  { intros x0 x1 x2 y0 y1 y2 X0 X1 X2 Y0 Y1 Y2 Q0 Q1 Q2 Q3 Q4 Q5 A0 A1 A2 B0 B1 B2.
    destruct (dot3_F lnF x0 x1 x2 y0 y1 y2 X0 X1 X2 Y0 Y1 Y2 s) as (r & Rr & Er); try assumption.
    exists r. split; [exact Rr|]. split; [exact Er|].
    pose proof (abs_mul_le _ _ _ _ A0 B0) as P0. pose proof (abs_mul_le _ _ _ _ A1 B1) as P1. pose proof (abs_mul_le _ _ _ _ A2 B2) as P2.
    pose proof (small_mul (s * s) ltac:(nra)) as Sq. rewrite Rmult_assoc in Er. apply Rabs_le_inv in P0, P1, P2, Er. apply Rabs_le. lra. }
  destruct (D (b00 F) (b01 F) (b02 F) (b00 F) (b01 F) (b02 F) (b00 G) (b01 G) (b02 G) (b00 G) (b01 G) (b02 G)) as (r00 & T00 & E00 & U00); try assumption.
  destruct (D (b00 F) (b01 F) (b02 F) (b10 F) (b11 F) (b12 F) (b00 G) (b01 G) (b02 G) (b10 G) (b11 G) (b12 G)) as (r01 & T01 & E01 & U01); try assumption.
  destruct (D (b00 F) (b01 F) (b02 F) (b20 F) (b21 F) (b22 F) (b00 G) (b01 G) (b02 G) (b20 G) (b21 G) (b22 G)) as (r02 & T02 & E02 & U02); try assumption.
  destruct (D (b10 F) (b11 F) (b12 F) (b10 F) (b11 F) (b12 F) (b10 G) (b11 G) (b12 G) (b10 G) (b11 G) (b12 G)) as (r11 & T11 & E11 & U11); try assumption.
  destruct (D (b10 F) (b11 F) (b12 F) (b20 F) (b21 F) (b22 F) (b10 G) (b11 G) (b12 G) (b20 G) (b21 G) (b22 G)) as (r12 & T12 & E12 & U12); try assumption.
  destruct (D (b20 F) (b21 F) (b22 F) (b20 F) (b21 F) (b22 F) (b20 G) (b21 G) (b22 G) (b20 G) (b21 G) (b22 G)) as (r22 & T22 & E22 & U22); try assumption.
  clear D. exists (M33 r00 r01 r02 r01 r11 r12 r02 r12 r22). split; [|split; [reflexivity|split]].
  - unfold stands_for3, cauchy_green_3x3. cbn [b00 b01 b02 b10 b11 b12 b20 b21 b22].
    rewrite (dot3_sym lnF (b10 F) (b11 F) (b12 F) (b00 F) (b01 F) (b02 F)), (dot3_sym lnF (b20 F) (b21 F) (b22 F) (b00 F) (b01 F) (b02 F)),
      (dot3_sym lnF (b20 F) (b21 F) (b22 F) (b10 F) (b11 F) (b12 F)).
    exact (conj (conj T00 (conj T01 T02)) (conj (conj T01 (conj T11 T12)) (conj T02 (conj T12 T22)))).
  - assert (C : forall x0 x1 x2 y0 y1 y2, x0 * y0 + x1 * y1 + x2 * y2 = y0 * x0 + y1 * x1 + y2 * x2) by (intros; ring).
    unfold entries3, sub33, mul33, tr33. cbn [b00 b01 b02 b10 b11 b12 b20 b21 b22].
    apply Forall_cons; [exact E00|]. apply Forall_cons; [exact E01|]. apply Forall_cons; [exact E02|].
    apply Forall_cons; [rewrite C; exact E01|]. apply Forall_cons; [exact E11|]. apply Forall_cons; [exact E12|].
    apply Forall_cons; [rewrite C; exact E02|]. apply Forall_cons; [rewrite C; exact E12|]. apply Forall_cons; [exact E22|]. constructor.
  - unfold entries3. cbn [b00 b01 b02 b10 b11 b12 b20 b21 b22]. repeat (apply Forall_cons; [assumption|]). constructor.
Qed.

(* ---- the logarithm and the period ---- *)
Lemma scale_accurate_by T L tau s l d : represents T tau -> / 2 ^ 200 <= Rabs tau <= 2 ^ 200 ->
  represents L l -> Rabs (ln s) <= 203 -> Rabs (l - ln s) <= d -> d <= 1 ->
  exists v, represents (PrimFloat.mul (PrimFloat.div 1 T) L) v /\ Rabs (v - ln s / tau) <= (d + / 2 ^ 40) / Rabs tau.
Proof.
  intros HT [Ht1 Ht2] HL Hs Hl Hd. rewrite !pow_bpow in *.
  change (bpow radix2 (Z.of_nat 40)) with 1099511627776.
  rewrite <- bpow_opp in Ht1. change (- Z.of_nat 200)%Z with (-200)%Z in Ht1. change (Z.of_nat 200) with 200%Z in Ht2.
  pose proof (bpow_gt_0 radix2 (-200)) as P. assert (Pt : 0 < Rabs tau) by lra.
  assert (Hn : tau <> 0) by (intros ->; rewrite Rabs_R0 in Pt; lra).
  assert (Ew : Rabs (1 / tau) = / Rabs tau).
  { unfold Rdiv. rewrite Rmult_1_l. apply Rabs_inv. }
  set (w := 1 / tau) in *.
  assert (Hw1 : / Rabs tau <= bpow radix2 200).
  { change 200%Z with (- (-200))%Z. rewrite bpow_opp. apply Rinv_le; assumption. }
  assert (Hw2 : bpow radix2 (-200) <= / Rabs tau).
  { change (-200)%Z with (- (200))%Z. rewrite bpow_opp. apply Rinv_le; assumption. }
  destruct (div_rep 1%float T 1 tau) as (e & He & Ri); [|exact HT|exact Hn| | |].
  { replace 1%float with (F_ofZ 1) by (vm_compute; reflexivity). exact represents_one. }
  { fold w. rewrite Ew. apply Rle_trans with (1 := Hw1). apply bpow_le. lia. }
  { fold w. rewrite Ew. apply Rle_trans with (2 := Hw2). apply bpow_le. lia. }
  fold w in Ri.
  assert (Hlb : Rabs l <= 204).
  { replace l with (ln s + (l - ln s)) by ring. pose proof (Rabs_triang (ln s) (l - ln s)). lra. }
  assert (Hu : Rabs (1 + e) <= 2).
  { pose proof (Rabs_triang 1 e). rewrite Rabs_R1 in H. unfold uround in He. lra. }
  pose proof (Rabs_pos (1 + e)) as P1. pose proof (Rabs_pos l) as P2. pose proof (Rabs_pos w) as P3.
  destruct (mul_rep _ _ _ _ Ri HL) as (e2 & h & He2 & Hh & Rv).
  { rewrite !Rabs_mult, Ew. apply Rle_trans with (bpow radix2 200 * bpow radix2 10); [|rewrite <- bpow_plus; apply bpow_le; lia].
    rewrite Rmult_assoc. apply Rmult_le_compat; [lra|nra|exact Hw1|]. change (bpow radix2 10) with 1024. nra. }
  eexists. split; [exact Rv|].
  replace (ln s / tau) with (w * ln s) by (unfold w; field; exact Hn).
  replace (w * (1 + e) * l * (1 + e2) + h - w * ln s)
    with (w * ((l - ln s) + (l * e + (l * e2 + l * (e * e2)))) + h) by ring.
  eapply Rle_trans; [apply Rabs_triang|]. rewrite Rabs_mult, Ew.
  assert (He3 : Rabs (e * e2) <= uround).
  { rewrite Rabs_mult. pose proof (Rabs_pos e). pose proof (Rabs_pos e2). unfold uround in *. nra. }
  pose proof (scaled_err l e He) as S1. pose proof (scaled_err l e2 He2) as S2. pose proof (scaled_err l (e * e2) He3) as S3.
  assert (Hsum : Rabs ((l - ln s) + (l * e + (l * e2 + l * (e * e2)))) <= d + / 2000000000000).
  { eapply Rle_trans; [apply Rabs_triang|]. pose proof (Rabs_triang (l * e) (l * e2 + l * (e * e2))).
    pose proof (Rabs_triang (l * e2) (l * (e * e2))). unfold uround in *. lra. }
  assert (Hh' : Rabs h <= / Rabs tau * / 10000000000000).
  { apply Rle_trans with (1 := Hh). apply Rle_trans with (bpow radix2 (-200) * bpow radix2 (-50)).
    - unfold tiny. rewrite <- bpow_plus. apply bpow_le. lia.
    - apply Rmult_le_compat; [lra|apply bpow_ge_0|exact Hw2|]. cbn. lra. }
  assert (0 < / Rabs tau) by lra. unfold Rdiv. nra.
Qed.

Lemma range3 s : / 2 ^ 200 <= s <= 3 * 2 ^ 200 ->
  0 < s /\ 100 * (s * s) <= bpow radix2 1000 /\ 1000000 * tiny <= uround * (s * s) /\ / 2 ^ 420 <= 4 * (s * s) <= 2 ^ 420 /\ Rabs (ln s) <= 203.
Proof.
  intros [L U]. rewrite !pow_bpow in *. rewrite <- bpow_opp in L |- *. change (- Z.of_nat 200)%Z with (-200)%Z in L. change (Z.of_nat 200) with 200%Z in U.
  change (- Z.of_nat 420)%Z with (-420)%Z. change (Z.of_nat 420) with 420%Z.
  pose proof (bpow_gt_0 radix2 (-200)) as P. assert (Hp : 0 < s) by lra.
  assert (L2 : bpow radix2 (-400) <= s * s).
  { change (bpow radix2 (-400)) with (bpow radix2 (-200 + -200)). rewrite bpow_plus. apply Rmult_le_compat; lra. }
  assert (U2 : s * s <= 9 * bpow radix2 400).
  { change (bpow radix2 400) with (bpow radix2 (200 + 200)). rewrite bpow_plus.
    replace (9 * (bpow radix2 200 * bpow radix2 200)) with ((3 * bpow radix2 200) * (3 * bpow radix2 200)) by ring. apply Rmult_le_compat; lra. }
  assert (B : bpow radix2 410 = 1024 * bpow radix2 400) by (change 410%Z with (10 + 400)%Z; rewrite bpow_plus; reflexivity).
  pose proof (bpow_gt_0 radix2 400) as P4. pose proof (bpow_gt_0 radix2 (-400)) as P5.
  assert (T1 : 1000000 * tiny <= bpow radix2 (-1055)).
  { change (-1055)%Z with (20 + -1075)%Z. rewrite bpow_plus. apply Rmult_le_compat_r; [apply bpow_ge_0|cbn; lra]. }
  split; [exact Hp|]. split; [|split; [|split; [split|]]].
  - apply Rle_trans with (bpow radix2 410); [lra|apply bpow_le; lia].
  - rewrite uround_bpow. apply Rle_trans with (1 := T1). apply Rle_trans with (bpow radix2 (-53) * bpow radix2 (-400)).
    + rewrite <- bpow_plus. apply bpow_le. lia.
    + apply Rmult_le_compat_l; [apply bpow_ge_0|exact L2].
  - apply Rle_trans with (bpow radix2 (-400)); [apply bpow_le; lia|lra].
  - apply Rle_trans with (bpow radix2 410); [lra|apply bpow_le; lia].
  - assert (E : ln (s * s) = 2 * ln s) by (rewrite ln_mult by exact Hp; ring). pose proof ln2_le. pose proof ln_lt_2.
    assert (H1 : ln (bpow radix2 (-400)) <= ln (s * s)).
    { destruct L2 as [L2|L2]; [apply Rlt_le, ln_increasing; [apply bpow_gt_0|exact L2]|rewrite L2; apply Rle_refl]. }
    assert (H2 : ln (s * s) <= ln (bpow radix2 404)).
    { apply Rlt_le, ln_increasing; [nra|]. change 404%Z with (4 + 400)%Z. rewrite bpow_plus. change (bpow radix2 4) with 16. lra. }
    rewrite ln_bpow, E in H1, H2. unfold Rabs. destruct (Rcase_abs (ln s)); lra.
Qed.

Lemma moderate3_range G s : moderate3 G -> spectral_norm_3 G s -> / 2 ^ 200 <= s <= 3 * 2 ^ 200.
Proof.
  intros [HU HL] Hs. split; [|exact (norm3_le_entries G s _ Hs HU)].
  destruct (entry_le_norm3 G s Hs) as [_ H]. apply Exists_exists in HL. destruct HL as (x & Hx & Bx).
  rewrite Forall_forall in H. apply Rle_trans with (1 := Bx). apply H, Hx.
Qed.

Lemma entry_accurate3 lnF eigvals F G : accurate_eigvals eigvals -> stands_for3 F G -> moderate3 G ->
  exists x e s r, spectral_norm_3 G s /\ / 2 ^ 200 <= s <= 3 * 2 ^ 200 /\
    max_eig_3x3 (Fops lnF) eigvals (cauchy_green_3x3 (Fops lnF) F) = Ok e /\ log_sqrt (Fops lnF) e = XVal (lnF x) /\
    represents x r /\ Rabs (r - s) <= / 2 ^ 37 * s.
Proof.
  intros He HF Hm. destruct (spectral_norm_3_exists G) as (s & Hs). pose proof (moderate3_range G s Hm Hs) as Hr.
  destruct (range3 s Hr) as (Ps & HU & HL & HN & _).
  destruct (entry_le_norm3 G s Hs) as [_ HG].
  destruct (tensor_F lnF F G s HF HG HU HL) as (S & SF & SS & SD & SB).
  destruct (He _ S (4 * (s * s)) SF SS SB HN) as (x & y & z & X & Y & Z & A & B & D & Ee & Rx & Ry & Rz & Hroots & E1 & E2 & E3).
  pose proof (max3_close _ _ _ _ _ _ _ E1 E2 E3) as E4.
  pose proof (eig3_roots _ (FFt_sym3 G)) as HR0.
  pose proof (weyl S (mul33 G (tr33 G)) _ _ _ SS (FFt_sym3 G) Hroots HR0 SD) as E5. rewrite (norm_sq_FFt G s _ Hs HR0) in E5.
  exists (PrimFloat.sqrt (o_max (Fops lnF) (o_max (Fops lnF) x y) z)), (Some (o_max (Fops lnF) (o_max (Fops lnF) x y) z)), s.
  pose proof (o_max_rep lnF _ _ _ _ (o_max_rep lnF _ _ _ _ Rx Ry) Rz) as Rm.
  change (Rmax (Rmax X Y) Z) with (max3 (X, Y, Z)) in Rm. set (m := max3 (X, Y, Z)) in *.
  assert (E : Rabs (m - s * s) <= / 200000000000 * (s * s)).
  { replace (m - s * s) with ((m - max3 (A, B, D)) + (max3 (A, B, D) - s * s)) by ring.
    eapply Rle_trans; [apply Rabs_triang|]. assert (Q : 0 < s * s) by nra. revert E4 E5. rewrite pow_bpow.
    change (bpow radix2 (Z.of_nat 40)) with 1099511627776. unfold uround. lra. }
  destruct (sqrt_rel m s (/ 200000000000) Ps) as [Hm0 Hms]; [lra|exact E|].
  destruct (sqrt_rep _ _ Rm Hm0) as (e & Hee & Rs).
  { apply Rabs_le_inv in E. lra. }
  exists (R_sqrt.sqrt m * (1 + e)). split; [exact Hs|]. split; [exact Hr|].
  split; [unfold max_eig_3x3; rewrite Ee; reflexivity|]. split; [reflexivity|]. split; [exact Rs|].
  replace (R_sqrt.sqrt m * (1 + e) - s) with ((R_sqrt.sqrt m - s) + R_sqrt.sqrt m * e) by ring.
  pose proof (Rabs_triang (R_sqrt.sqrt m - s) (R_sqrt.sqrt m * e)). pose proof (scaled_err (R_sqrt.sqrt m) e Hee).
  assert (Rabs (R_sqrt.sqrt m) <= 2 * s).
  { rewrite Rabs_pos_eq by apply sqrt_pos. apply Rabs_le_inv in Hms. lra. }
  rewrite pow_bpow. change (bpow radix2 (Z.of_nat 37)) with 137438953472. unfold uround in *. lra.
Qed.

Lemma value_accurate3 lnF x r s T tau : accurate_log lnF -> represents T tau -> / 2 ^ 200 <= Rabs tau <= 2 ^ 200 ->
  / 2 ^ 200 <= s <= 3 * 2 ^ 200 -> represents x r -> Rabs (r - s) <= / 2 ^ 37 * s ->
  exists v, represents (PrimFloat.mul (PrimFloat.div 1 T) (lnF x)) v /\ Rabs (v - ln s / tau) <= / 2 ^ 36 / Rabs tau.
Proof.
  intros Hln HT Ht Hs Rx Er. destruct (range3 s Hs) as (Ps & _ & _ & _ & Ls).
  destruct (ln_near r s (/ 2 ^ 37) Ps) as [Hr0 Hnear]; [rewrite pow_bpow; change (bpow radix2 (Z.of_nat 37)) with 137438953472; lra|exact Er|].
  destruct (Hln x r Rx Hr0) as (l & Rl & El).
  assert (P : 0 < Rabs tau) by (assert (0 < / 2 ^ 200) by (apply Rinv_0_lt_compat, pow_lt; lra); lra).
  destruct (scale_accurate_by T (lnF x) tau s l (/ 2 ^ 36 - / 2 ^ 40) HT Ht Rl Ls) as (v & Rv & Ev).
  { replace (l - ln s) with ((l - ln r) + (ln r - ln s)) by ring.
    eapply Rle_trans; [apply Rabs_triang|]. revert Hnear El. rewrite !pow_bpow.
    change (bpow radix2 (Z.of_nat 37)) with 137438953472. change (bpow radix2 (Z.of_nat 36)) with 68719476736.
    change (bpow radix2 (Z.of_nat 40)) with 1099511627776. lra. }
  { rewrite !pow_bpow. change (bpow radix2 (Z.of_nat 36)) with 68719476736. change (bpow radix2 (Z.of_nat 40)) with 1099511627776. lra. }
  exists v. split; [exact Rv|]. apply Rle_trans with (1 := Ev). right. f_equal. ring.
Qed.

Lemma accurate_values3 lnF eigvals Fs Gs T tau : accurate_log lnF -> accurate_eigvals eigvals -> represents T tau -> / 2 ^ 200 <= Rabs tau <= 2 ^ 200 ->
  Forall2 stands_for3 Fs Gs -> Forall moderate3 Gs ->
  exists vs, compute_ftle_3x3 (Fops lnF) eigvals Fs T = Ok (map XVal vs) /\
    Forall2 (fun G v => exists s r, spectral_norm_3 G s /\ represents v r /\
      Rabs (r - ln s / tau) <= / 2 ^ 36 / Rabs tau) Gs vs.
Proof.
  intros Hln He HT Ht HF Hm.
  assert (Hn : tau <> 0).
  { intros ->. rewrite Rabs_R0 in Ht. assert (0 < / 2 ^ 200) by (apply Rinv_0_lt_compat, pow_lt; lra). lra. }
  assert (K : exists es vs, max_eigenvalue_3x3 (Fops lnF) eigvals (compute_cauchy_green_3x3 (Fops lnF) Fs) = Ok es /\
    map (fun e => xscale (Fops lnF) (PrimFloat.div 1 T) (log_sqrt (Fops lnF) e)) es = map XVal vs /\
    Forall2 (fun G v => exists s r, spectral_norm_3 G s /\ represents v r /\ Rabs (r - ln s / tau) <= / 2 ^ 36 / Rabs tau) Gs vs).
  { unfold max_eigenvalue_3x3, compute_cauchy_green_3x3. induction HF as [|F G Fs Gs H1 HF IH].
    - exists [], []. split; [reflexivity|]. split; [reflexivity|constructor].
    - inversion Hm as [|? ? Hg Hm']; subst. destruct (IH Hm') as (es & vs & E1 & E2 & E3).
      destruct (entry_accurate3 lnF eigvals F G He H1 Hg) as (x & e & s & r & Hs & Hr & Ee & El & Rx & Er).
      destruct (value_accurate3 lnF x r s T tau Hln HT Ht Hr Rx Er) as (v & Rv & Ev).
      exists (e :: es), (PrimFloat.mul (PrimFloat.div 1 T) (lnF x) :: vs). cbn [map mapr]. split; [|split].
      + rewrite Ee. cbn [bind]. rewrite E1. reflexivity.
      + rewrite El, E2. reflexivity.
      + constructor; [exists s, v; auto|exact E3]. }
  destruct K as (es & vs & E1 & E2 & E3). exists vs. split; [|exact E3].
  unfold compute_ftle_3x3. rewrite E1. cbn [bind]. unfold ftle_of_eigs, py_div. cbn [o_eqb Fops].
  replace (PrimFloat.eqb T (o_zero (Fops lnF))) with false by (symmetry; exact (eqb_zero_rep _ _ HT Hn)).
  replace (o_div (Fops lnF) (o_one (Fops lnF)) T) with (PrimFloat.div 1 T).
  2:{ unfold o_one. cbn [o_div o_ofZ Fops]. f_equal; vm_compute; reflexivity. }
  cbn [bind]. rewrite E2. reflexivity.
Qed.
