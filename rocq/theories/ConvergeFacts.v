(** Perturbation of spectral norms, and convergence of particle positions, uniformly over the three methods. *)
From Coq Require Import Reals Lra Lia Psatz.
From Verif Require Import Base Num Particles Jacobian SpecFtle SpecSeeds SpecIntegrate SpecOrder SpecConverge
  FtleFacts2 FtleFacts3 OrderFacts OrderAB2 OrderRK4.
Local Open Scope R_scope.

(* ---- norms in space; the plane is embedded ---- *)

Lemma cauchy3 a b c x y z : a * x + b * y + c * z <= sqrt (a * a + b * b + c * c) * sqrt (x * x + y * y + z * z).
Proof.
  rewrite <- sqrt_mult by nra. destruct (Rle_or_lt (a * x + b * y + c * z) 0) as [H|H].
  - apply Rle_trans with (1 := H). apply sqrt_pos.
  - apply Rle_trans with (sqrt ((a * x + b * y + c * z) * (a * x + b * y + c * z))).
    + rewrite sqrt_square by lra. apply Rle_refl.
    + apply sqrt_le_1_alt.
      pose proof (Rle_0_sqr (a * y - b * x)). pose proof (Rle_0_sqr (a * z - c * x)). pose proof (Rle_0_sqr (b * z - c * y)).
      unfold Rsqr in *. nra.
Qed.

Lemma triangle3 a b c x y z :
  sqrt ((a + x) * (a + x) + (b + y) * (b + y) + (c + z) * (c + z)) <= sqrt (a * a + b * b + c * c) + sqrt (x * x + y * y + z * z).
Proof.
  pose proof (cauchy3 a b c x y z) as CS.
  assert (P : 0 <= a * a + b * b + c * c) by nra. assert (Q : 0 <= x * x + y * y + z * z) by nra.
  pose proof (sqrt_pos (a * a + b * b + c * c)) as P1. pose proof (sqrt_pos (x * x + y * y + z * z)) as Q1.
  pose proof (sqrt_sqrt _ P) as P2. pose proof (sqrt_sqrt _ Q) as Q2.
  set (p := sqrt (a * a + b * b + c * c)) in *. set (q := sqrt (x * x + y * y + z * z)) in *.
  rewrite <- (sqrt_square (p + q)) by lra. apply sqrt_le_1_alt. nra.
Qed.

Lemma row_bound3 eps a b c x y z : Rabs a <= eps -> Rabs b <= eps -> Rabs c <= eps -> x * x + y * y + z * z = 1 ->
  (a * x + b * y + c * z) * (a * x + b * y + c * z) <= 3 * (eps * eps).
Proof.
  intros Ha Hb Hc H1.
  assert (Sq : forall r, Rabs r <= eps -> r * r <= eps * eps).
  { intros r Hr. rewrite <- (abs_sq r). pose proof (Rabs_pos r). nra. }
  pose proof (Sq a Ha). pose proof (Sq b Hb). pose proof (Sq c Hc).
  pose proof (Rle_0_sqr (a * y - b * x)). pose proof (Rle_0_sqr (a * z - c * x)). pose proof (Rle_0_sqr (b * z - c * y)).
  unfold Rsqr in *. nra.
Qed.

Lemma row_bound2 eps a b x y : Rabs a <= eps -> Rabs b <= eps -> x * x + y * y = 1 ->
  (a * x + b * y) * (a * x + b * y) <= 2 * (eps * eps).
Proof.
  intros Ha Hb H1.
  assert (Sq : forall r, Rabs r <= eps -> r * r <= eps * eps).
  { intros r Hr. rewrite <- (abs_sq r). pose proof (Rabs_pos r). nra. }
  pose proof (Sq a Ha). pose proof (Sq b Hb). pose proof (Rle_0_sqr (a * y - b * x)). unfold Rsqr in *. nra.
Qed.

Definition close22 (eps : R) (F G : m22 R) : Prop :=
  Rabs (a00 F - a00 G) <= eps /\ Rabs (a01 F - a01 G) <= eps /\ Rabs (a10 F - a10 G) <= eps /\ Rabs (a11 F - a11 G) <= eps.

Lemma sqrt_eq_1 x : sqrt x = 1 -> x = 1.
Proof.
  intro H. destruct (Rle_or_lt 0 x) as [P|P]; [rewrite <- (sqrt_sqrt x P), H; ring|].
  rewrite sqrt_neg_0 in H by lra. lra.
Qed.

Lemma norm_le_2 eps F G s t : close22 eps F G -> spectral_norm_2 F s -> spectral_norm_2 G t -> t <= s + 2 * eps.
Proof.
  intros (H00 & H01 & H10 & H11) [HF _] [_ (u & Hu & Hs)].
  assert (He : 0 <= eps) by (eapply Rle_trans; [apply Rabs_pos|exact H00]).
  specialize (HF u). rewrite Hu, Rmult_1_r in HF. rewrite <- Hs. clear Hs.
  assert (U : fst u * fst u + snd u * snd u = 1) by (apply sqrt_eq_1; exact Hu).
  destruct u as [x y]. unfold norm2, dot2, app22 in *. cbn [fst snd] in *.
  rewrite Rabs_minus_sym in H00, H01, H10, H11.
  pose proof (row_bound2 eps _ _ x y H00 H01 U) as B0. pose proof (row_bound2 eps _ _ x y H10 H11 U) as B1.
  set (f0 := a00 F * x + a01 F * y) in *. set (f1 := a10 F * x + a11 F * y) in *.
  set (d0 := (a00 G - a00 F) * x + (a01 G - a01 F) * y) in *. set (d1 := (a10 G - a10 F) * x + (a11 G - a11 F) * y) in *.
  replace (a00 G * x + a01 G * y) with (f0 + d0) by (unfold f0, d0; ring).
  replace (a10 G * x + a11 G * y) with (f1 + d1) by (unfold f1, d1; ring).
  pose proof (triangle3 f0 f1 0 d0 d1 0) as Tr.
  replace ((f0 + d0) * (f0 + d0) + (f1 + d1) * (f1 + d1) + (0 + 0) * (0 + 0)) with ((f0 + d0) * (f0 + d0) + (f1 + d1) * (f1 + d1)) in Tr by ring.
  replace (f0 * f0 + f1 * f1 + 0 * 0) with (f0 * f0 + f1 * f1) in Tr by ring.
  assert (sqrt (d0 * d0 + d1 * d1 + 0 * 0) <= 2 * eps).
  { rewrite <- (sqrt_square (2 * eps)) by lra. apply sqrt_le_1_alt. nra. }
  lra.
Qed.

Lemma close22_sym eps F G : close22 eps F G -> close22 eps G F.
Proof. intros (A & B & C & D). rewrite Rabs_minus_sym in A, B, C, D. exact (conj A (conj B (conj C D))). Qed.

Lemma norm_close_2 eps F G s t : close22 eps F G -> spectral_norm_2 F s -> spectral_norm_2 G t -> Rabs (t - s) <= 3 * eps.
Proof.
  intros H HF HG. pose proof (norm_le_2 _ _ _ _ _ H HF HG). pose proof (norm_le_2 _ _ _ _ _ (close22_sym _ _ _ H) HG HF).
  assert (0 <= eps) by (eapply Rle_trans; [apply Rabs_pos|apply H]). apply Rabs_le. lra.
Qed.

Definition close33 (eps : R) (F G : m33 R) : Prop :=
  (Rabs (b00 F - b00 G) <= eps /\ Rabs (b01 F - b01 G) <= eps /\ Rabs (b02 F - b02 G) <= eps) /\
  (Rabs (b10 F - b10 G) <= eps /\ Rabs (b11 F - b11 G) <= eps /\ Rabs (b12 F - b12 G) <= eps) /\
  (Rabs (b20 F - b20 G) <= eps /\ Rabs (b21 F - b21 G) <= eps /\ Rabs (b22 F - b22 G) <= eps).

Lemma close33_sym eps F G : close33 eps F G -> close33 eps G F.
Proof.
  intros ((A & B & C) & (D & E & H) & (J & K & M)). rewrite Rabs_minus_sym in A, B, C, D, E, H, J, K, M.
  exact (conj (conj A (conj B C)) (conj (conj D (conj E H)) (conj J (conj K M)))).
Qed.

Lemma norm_le_3 eps F G s t : close33 eps F G -> spectral_norm_3 F s -> spectral_norm_3 G t -> t <= s + 3 * eps.
Proof.
  intros ((H00 & H01 & H02) & (H10 & H11 & H12) & (H20 & H21 & H22)) [HF _] [_ (u & Hu & Hs)].
  assert (He : 0 <= eps) by (eapply Rle_trans; [apply Rabs_pos|exact H00]).
  specialize (HF u). rewrite Hu, Rmult_1_r in HF. rewrite <- Hs. clear Hs.
  assert (U : v0 u * v0 u + v1 u * v1 u + v2 u * v2 u = 1) by (apply sqrt_eq_1; exact Hu).
  destruct u as [[x y] z]. unfold norm3, dot3v, app33, v0, v1, v2 in *. cbn [fst snd] in *.
  rewrite Rabs_minus_sym in H00, H01, H02, H10, H11, H12, H20, H21, H22.
  pose proof (row_bound3 eps _ _ _ x y z H00 H01 H02 U) as B0. pose proof (row_bound3 eps _ _ _ x y z H10 H11 H12 U) as B1.
  pose proof (row_bound3 eps _ _ _ x y z H20 H21 H22 U) as B2.
  set (f0 := b00 F * x + b01 F * y + b02 F * z) in *. set (f1 := b10 F * x + b11 F * y + b12 F * z) in *.
  set (f2 := b20 F * x + b21 F * y + b22 F * z) in *.
  set (d0 := (b00 G - b00 F) * x + (b01 G - b01 F) * y + (b02 G - b02 F) * z) in *.
  set (d1 := (b10 G - b10 F) * x + (b11 G - b11 F) * y + (b12 G - b12 F) * z) in *.
  set (d2 := (b20 G - b20 F) * x + (b21 G - b21 F) * y + (b22 G - b22 F) * z) in *.
  replace (b00 G * x + b01 G * y + b02 G * z) with (f0 + d0) by (unfold f0, d0; ring).
  replace (b10 G * x + b11 G * y + b12 G * z) with (f1 + d1) by (unfold f1, d1; ring).
  replace (b20 G * x + b21 G * y + b22 G * z) with (f2 + d2) by (unfold f2, d2; ring).
  pose proof (triangle3 f0 f1 f2 d0 d1 d2) as Tr.
  assert (sqrt (d0 * d0 + d1 * d1 + d2 * d2) <= 3 * eps).
  { rewrite <- (sqrt_square (3 * eps)) by lra. apply sqrt_le_1_alt. nra. }
  lra.
Qed.

Lemma norm_close_3 eps F G s t : close33 eps F G -> spectral_norm_3 F s -> spectral_norm_3 G t -> Rabs (t - s) <= 3 * eps.
Proof.
  intros H HF HG. pose proof (norm_le_3 _ _ _ _ _ H HF HG). pose proof (norm_le_3 _ _ _ _ _ (close33_sym _ _ _ H) HG HF).
  apply Rabs_le. lra.
Qed.

(* ---- the logarithm and the divisor ---- *)

Lemma ln_lipschitz s t m : 0 < m -> m <= s -> m <= t -> Rabs (ln t - ln s) <= Rabs (t - s) / m.
Proof.
  intros Hm Hs Ht.
  assert (One : forall a b, m <= a -> a <= b -> ln b - ln a <= (b - a) / m).
  { intros a b Ha Hab. replace (ln b - ln a) with (ln (b / a)) by (unfold Rdiv; rewrite ln_mult, ln_Rinv by (try apply Rinv_0_lt_compat; lra); ring).
    apply Rle_trans with (b / a - 1).
    - assert (P : 0 < b / a) by (apply Rdiv_lt_0_compat; lra).
      pose proof (exp_ge (ln (b / a))) as E. rewrite exp_ln in E by exact P. lra.
    - replace (b / a - 1) with ((b - a) / a) by (field; lra). unfold Rdiv. apply Rmult_le_compat_l; [lra|].
      apply Rinv_le_contravar; lra. }
  destruct (Rle_or_lt s t) as [H|H].
  - rewrite !Rabs_pos_eq; [apply One; assumption|lra|]. destruct H as [H| ->]; [|lra]. apply ln_increasing in H; lra.
  - rewrite (Rabs_minus_sym (ln t)), (Rabs_minus_sym t). rewrite !Rabs_pos_eq; [apply One; lra|lra|]. apply ln_increasing in H; lra.
Qed.

(** From the error of the norm to the error of the FTLE with the code's divisor (n - 1)|T|/n. *)
Lemma ftle_error s t D T n : 0 < s -> T <> 0 -> (2 <= n)%nat -> 2 * D / s <= INR n -> Rabs (t - s) <= D / INR n ->
  0 < t /\ Rabs (ln t / ((INR n - 1) * Rabs (T / INR n)) - ln s / Rabs T) <= ((4 * D / s + 2 * Rabs (ln s)) / Rabs T) / INR n.
Proof.
  intros Hs HT Hn HN Hts. assert (Pn : 2 <= INR n) by (apply (le_INR 2) in Hn; exact Hn).
  assert (PT : 0 < Rabs T) by (apply Rabs_pos_lt; exact HT).
  assert (HD : D / INR n <= s / 2).
  { apply Rmult_le_reg_r with (INR n * (2 / s)); [apply Rmult_lt_0_compat; [lra|apply Rdiv_lt_0_compat; lra]|].
    replace (D / INR n * (INR n * (2 / s))) with (2 * D / s) by (field; lra).
    replace (s / 2 * (INR n * (2 / s))) with (INR n) by (field; lra). exact HN. }
  assert (Ht : s / 2 <= t).
  { pose proof (Rle_abs (-(t - s))) as A. rewrite Rabs_Ropp in A. lra. }
  split; [lra|].
  pose proof (ln_lipschitz s t (s / 2) ltac:(lra) ltac:(lra) Ht) as E.
  assert (E2 : Rabs (ln t - ln s) <= 2 * D / s / INR n).
  { eapply Rle_trans; [exact E|]. replace (2 * D / s / INR n) with (D / INR n / (s / 2)) by (field; lra).
    unfold Rdiv at 1 3. apply Rmult_le_compat_r; [left; apply Rinv_0_lt_compat; lra|exact Hts]. }
  assert (HA : Rabs (T / INR n) = Rabs T / INR n).
  { unfold Rdiv. rewrite Rabs_mult, (Rabs_pos_eq (/ INR n)); [reflexivity|]. left. apply Rinv_0_lt_compat. lra. }
  rewrite HA.
  replace (ln t / ((INR n - 1) * (Rabs T / INR n)) - ln s / Rabs T)
    with (/ Rabs T * (INR n / (INR n - 1) * (ln t - ln s) + / (INR n - 1) * ln s)) by (field; lra).
  replace ((4 * D / s + 2 * Rabs (ln s)) / Rabs T / INR n)
    with (/ Rabs T * (2 * (2 * D / s / INR n) + 2 / INR n * Rabs (ln s))) by (field; lra).
  rewrite Rabs_mult, (Rabs_pos_eq (/ Rabs T)) by (left; apply Rinv_0_lt_compat; exact PT).
  apply Rmult_le_compat_l; [left; apply Rinv_0_lt_compat; exact PT|].
  assert (I1 : / (INR n - 1) <= 2 / INR n).
  { apply Rmult_le_reg_r with (INR n * (INR n - 1)); [apply Rmult_lt_0_compat; lra|].
    replace (/ (INR n - 1) * (INR n * (INR n - 1))) with (INR n) by (field; lra).
    replace (2 / INR n * (INR n * (INR n - 1))) with (2 * (INR n - 1)) by (field; lra). lra. }
  assert (I0 : 0 < / (INR n - 1)) by (apply Rinv_0_lt_compat; lra).
  assert (I2 : 0 <= INR n / (INR n - 1) <= 2).
  { split; [unfold Rdiv; apply Rmult_le_pos; lra|]. unfold Rdiv.
    replace 2 with (INR n * (2 / INR n)) by (field; lra). apply Rmult_le_compat_l; [lra|exact I1]. }
  apply abs_add2.
  - rewrite Rabs_mult, (Rabs_pos_eq (INR n / _)) by apply I2. apply Rmult_le_compat; [apply I2|apply Rabs_pos|apply I2|exact E2].
  - rewrite Rabs_mult, (Rabs_pos_eq (/ _)) by lra. apply Rmult_le_compat_r; [apply Rabs_pos|exact I1].
Qed.

(* ---- positions ---- *)

Lemma coords_bounded x : exists B, forall i, Rabs (coord i x) <= B.
Proof.
  induction x as [|a x (B & H)].
  - exists 0. intros [|i]; unfold coord; cbn; rewrite Rabs_R0; lra.
  - exists (Rmax (Rabs a) B). intros [|i]; unfold coord; cbn [nth]; [apply Rmax_l|]. eapply Rle_trans; [apply (H i)|apply Rmax_r].
Qed.

Lemma methods_converge d v L M t0 T y : lipschitz_field d L v -> 0 <= L -> 0 <= M ->
  trajectory d v t0 (t0 + T) y -> rate t0 (t0 + T) M (fun t => v t (y t)) ->
  exists C, 0 <= C /\ forall m n, (1 <= n)%nat -> Rabs T * L <= INR n ->
    near (C / INR n) (path Rops m (snapshots v t0 (T / INR n) n) (y t0)) (y (t0 + T)).
Proof.
  intros Hv HL HM Hy Hr. destruct (coords_bounded (v t0 (y t0))) as (B0 & HB0).
  set (A := Rabs T) in *. assert (PA : 0 <= A) by apply Rabs_pos.
  assert (PB : 0 <= B0) by (eapply Rle_trans; [apply Rabs_pos|apply (HB0 0%nat)]).
  set (B := B0 + M * A).
  assert (PMA : 0 <= M * A) by (apply Rmult_le_pos; assumption).
  assert (HB : forall t i, between t0 (t0 + T) t -> Rabs (coord i (v t (y t))) <= B).
  { intros t i Ht. replace (coord i (v t (y t))) with (coord i (v t0 (y t0)) + (coord i (v t (y t)) - coord i (v t0 (y t0)))) by ring.
    apply abs_add2; [apply HB0|]. eapply Rle_trans; [apply (Hr t t0 Ht (between_l _ _) i)|].
    apply Rmult_le_compat_l; [exact HM|]. destruct (between_dist _ _ _ Ht) as [H _]. replace (t0 + T - t0) with T in H by ring. exact H. }
  assert (PLB : 0 <= L * B) by (apply Rmult_le_pos; unfold B; lra).
  set (X := exp (2 * (A * L))). assert (PAL : 0 <= A * L) by (apply Rmult_le_pos; assumption).
  assert (HX : exp (A * L) <= X).
  { unfold X. destruct PAL as [P|P]; [left; apply exp_increasing; lra|rewrite <- P; right; f_equal; ring]. }
  assert (PX : 0 < X) by apply exp_pos. pose proof (exp_pos (A * L)) as PE.
  exists (A * (5 / 2 * A * (M + L * B) * X)).
  assert (PC : 0 <= 5 / 2 * A * (M + L * B)) by (apply Rmult_le_pos; lra).
  split; [apply Rmult_le_pos; [exact PA|]; apply Rmult_le_pos; lra|].
  intros m n Hn HnL. apply (le_INR 1) in Hn. change (INR 1) with 1 in Hn.
  set (h := T / INR n). assert (Eh : INR n * h = T) by (unfold h; field; lra).
  assert (Ah : Rabs h = A / INR n).
  { unfold h, A, Rdiv. rewrite Rabs_mult, (Rabs_pos_eq (/ INR n)); [reflexivity|]. left. apply Rinv_0_lt_compat. lra. }
  assert (EA : INR n * Rabs h = A) by (rewrite Ah; field; lra).
  assert (Ph : 0 <= Rabs h) by apply Rabs_pos.
  assert (HhA : Rabs h <= A) by (rewrite <- EA; nra).
  assert (Hz : Rabs h * L <= 1).
  { rewrite Ah. apply Rmult_le_reg_r with (INR n); [lra|]. replace (A / INR n * L * INR n) with (A * L) by (field; lra). lra. }
  replace (A * (5 / 2 * A * (M + L * B) * X) / INR n) with (Rabs h * (5 / 2 * A * (M + L * B) * X)) by (rewrite Ah; field; lra).
  rewrite <- Eh in Hy, Hr, HB. rewrite <- Eh.
  destruct m.
  - eapply near_le; [apply (euler_order d v L M n h t0 y _ Hv HL HM Hy Hr eq_refl)|]. rewrite EA.
    apply Rmult_le_compat_l; [exact Ph|]. apply Rmult_le_compat; [apply Rmult_le_pos; assumption|lra| |exact HX].
    replace (5 / 2 * A * (M + L * B)) with (A * M + (3 / 2 * (A * M) + 5 / 2 * (A * (L * B)))) by field.
    assert (0 <= A * M) by (apply Rmult_le_pos; assumption). assert (0 <= A * (L * B)) by (apply Rmult_le_pos; assumption). lra.
  - eapply near_le; [apply (ab2_first_order d v L M n h t0 y _ Hv HL HM Hy Hr eq_refl)|]. rewrite EA. fold X.
    apply Rmult_le_compat_l; [exact Ph|]. apply Rmult_le_compat_r; [lra|].
    replace (5 / 2 * A * (M + L * B)) with (5 / 2 * A * M + 5 / 2 * (A * (L * B))) by field.
    assert (0 <= A * (L * B)) by (apply Rmult_le_pos; assumption).
    assert ((Rabs h + 3 / 2 * A) * M <= 5 / 2 * A * M) by (apply Rmult_le_compat_r; lra). lra.
  - eapply near_le; [apply (rk4_first_order d v L M B n h t0 y _ Hv HL HM Hz Hy Hr HB eq_refl)|]. rewrite EA.
    apply Rmult_le_compat_l; [exact Ph|]. apply Rmult_le_compat; [apply Rmult_le_pos; lra|lra| |exact HX].
    assert (0 <= A * (M + L * B)) by (apply Rmult_le_pos; lra). lra.
Qed.
