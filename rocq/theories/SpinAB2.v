(** Runs in a three-dimensional rotation with AB2 (C139): the plane of rotation behaves as in two dimensions. *)
From Coq Require Import Reals Lra Lia Psatz.
From Verif Require Import Base Num Particles Jacobian Ftle Integrate DataSource Solver SpecFtle SpecSeeds SpecIntegrate
  SpecSolver SpecRotation FtleFacts2 ParticleFacts JacobianFacts SolverFacts SolverField SolverLinear FtleFacts3 IntegrateMisc ConvergeCases FrameMain StrainCases RotationFacts SpiralFacts SpiralBound SpinFacts3 SpinEuler3.
Local Open Scope R_scope.

Lemma spin3_scal h p q r : scal33 h (spin3 p q r) = spin3 (h * p) (h * q) (h * r).
Proof. apply m33_ext; cbn; ring. Qed.
Lemma quad_by c d p q r : mul33 (spin3 p q r) (quad c d (spin3 p q r)) =
  add33 (scal33 (1 - (p * p + q * q + r * r) * d) (spin3 p q r)) (scal33 c (mul33 (spin3 p q r) (spin3 p q r))).
Proof. apply m33_ext; cbn; ring. Qed.
Lemma ab2_scaled h A P Q : add33 Q (scal33 h (add33 (scal33 (3 / 2) (mul33 A Q)) (scal33 (- 1 / 2) (mul33 A P)))) =
  add33 Q (add33 (scal33 (3 / 2) (mul33 (scal33 h A) Q)) (scal33 (- 1 / 2) (mul33 (scal33 h A) P))).
Proof. destruct A, P, Q. apply m33_ext; cbn; field. Qed.
Lemma quad_combine X c d x y x' y' : add33 (quad c d X) (add33 (scal33 (3 / 2) (add33 (scal33 x' X) (scal33 y' (mul33 X X)))) (scal33 (- 1 / 2) (add33 (scal33 x X) (scal33 y (mul33 X X))))) =
  quad (c + (3 / 2 * x' - 1 / 2 * x)) (d + (3 / 2 * y' - 1 / 2 * y)) X.
Proof. unfold quad. generalize (mul33 X X). intro Y. destruct X, Y. apply m33_ext; cbn; field. Qed.

Lemma ab2_quad p q r h n : let X := scal33 h (spin3 p q r) in let a := h ^ 2 * (p ^ 2 + q ^ 2 + r ^ 2) in
  exists c d c' d' s t, ab2_pair33 h (spin3 p q r) n = (quad c d X, quad c' d' X) /\ growing a (1 - a * d) c (1 - a * d') c' s t /\
    1 + a <= (1 - a * d') * (1 - a * d') + a * (c' * c') /\
    (a <= 1 / 4 -> slow a (1 - a * d) c s t /\ (1 - a * d') * (1 - a * d') + a * (c' * c') <= (1 + a) * (1 + 4 * a ^ 2) ^ n).
Proof.
  intros X a. assert (A0 : 0 <= a) by (apply Rmult_le_pos; nra).
  assert (BY : forall c d, mul33 X (quad c d X) = add33 (scal33 (1 - a * d) X) (scal33 c (mul33 X X))).
  { intros c d. unfold X. rewrite spin3_scal, quad_by. do 2 f_equal. unfold a. ring. }
  induction n as [|n (c & d & c' & d' & s & t & E & G & Lo & Sl)].
  - exists 0, 0, 1, 0, 1, 0. split; [|split; [|split]].
    + cbn [ab2_pair33]. fold X. clearbody X. f_equal; unfold quad; generalize (mul33 X X); intro Y; destruct X, Y; apply m33_ext; cbn; ring.
    + replace (1 - a * 0) with 1 by ring. apply growing_start. exact A0.
    + lra.
    + intro Q. split; [constructor; lra|cbn [pow]; lra].
  - pose proof (growing_step _ _ _ _ _ _ _ A0 G) as G'. cbn [ab2_pair33]. rewrite E.
    exists c', d', (c' + (3 / 2 * (1 - a * d') - 1 / 2 * (1 - a * d))), (d' + (3 / 2 * c' - 1 / 2 * c)), (3 / 2 * (1 - a * d') - 1 / 2 * (1 - a * d)), (3 / 2 * c' - 1 / 2 * c).
    replace (1 - a * (d' + (3 / 2 * c' - 1 / 2 * c))) with (1 - a * d' - a * (3 / 2 * c' - 1 / 2 * c)) by ring. split; [|split; [exact G'|split]].
    + f_equal. rewrite ab2_scaled. fold X. rewrite !BY. apply quad_combine.
    + eapply Rle_trans; [exact Lo|exact (g_up _ _ _ _ _ _ _ G')].
    + intro Q. destruct (Sl Q) as [L Up]. destruct (slow_step _ _ _ _ _ _ _ (conj A0 Q) G L) as [L' U]. split; [exact L'|].
      eapply Rle_trans; [exact U|]. replace ((1 + a) * (1 + 4 * a ^ 2) ^ Datatypes.S n) with ((1 + a) * (1 + 4 * a ^ 2) ^ n * (1 + 4 * a ^ 2)) by (cbn [pow]; ring).
      apply Rmult_le_compat_r; [nra|exact Up].
Qed.

(** The norm: that of the plane, which is at least 1. *)
Lemma lagrange p q r u : dot3v (app33 (spin3 p q r) u) (app33 (spin3 p q r) u) = (p * p + q * q + r * r) * dot3v u u - dot3v (p, q, r) u ^ 2.
Proof. destruct u as [[x y] z]. unfold dot3v, app33, v0, v1, v2. cbn. ring. Qed.
Lemma quad_value c d p q r s : let V := p * p + q * q + r * r in let N := (1 - V * d) * (1 - V * d) + V * (c * c) in
  1 <= N -> spectral_norm_3 (quad c d (spin3 p q r)) s -> s = sqrt N.
Proof.
  intros V N HN [A (u & Nu & Eu)]. set (k := 2 * d - c * c - d * d * V). assert (EN : N = 1 - V * k) by (unfold N, k; ring).
  assert (V0 : 0 <= V) by (unfold V; nra). apply Rle_antisym.
  - rewrite <- Eu. apply sqrt_le_1_alt. rewrite quad_norm. fold V k.
    assert (D : dot3v u u = 1) by (assert (D0 : 0 <= dot3v u u) by (destruct u as [[x y] z]; unfold dot3v, v0, v1, v2; cbn; nra); rewrite <- (sqrt_sqrt _ D0); unfold norm3 in Nu; rewrite Nu; ring).
    pose proof (lagrange p q r u) as L. fold V in L. rewrite D in L |- *. set (m := dot3v (p, q, r) u ^ 2) in *. assert (M0 : 0 <= m) by (unfold m; nra).
    assert (B0 : 0 <= dot3v (app33 (spin3 p q r) u) (app33 (spin3 p q r) u)) by (generalize (app33 (spin3 p q r) u); intros [[x y] z]; unfold dot3v, v0, v1, v2; cbn; nra).
    rewrite L in B0 |- *. clearbody m k V N. destruct (Rle_lt_dec k 0) as [K|K]; [assert (0 <= - k * m) by (apply Rmult_le_pos; lra); lra|].
    assert (0 <= V * k) by (apply Rmult_le_pos; lra). assert (0 <= k * (V * 1 - m)) by (apply Rmult_le_pos; lra). lra.
  - destruct (across p q r) as (w & Zw & Pw). specialize (A w). unfold norm3 in A. rewrite quad_norm, lagrange, Zw in A. fold V k in A.
    replace (dot3v w w - k * (V * dot3v w w - 0 ^ 2)) with (N * dot3v w w) in A by (rewrite EN; ring). rewrite sqrt_mult in A by lra.
    assert (0 < sqrt (dot3v w w)) by (apply sqrt_lt_R0; exact Pw). apply Rmult_le_reg_r with (sqrt (dot3v w w)); assumption.
Qed.

Section Spin.
  Context {S P W : Type} (interpolate : S -> mat R -> S * res (mat R)) (eigvals : m33 R -> res (R * R * R))
    (mems : nat -> memory (T := R)) (write : W -> string -> list (xval R) -> mat R -> W * res unit)
    (I : (list R -> list R) -> S -> Prop) (HI : samples_field interpolate I) (He : eigvals_ok eigvals).

  Theorem rotation3_ab2 (sv : solver R S P) (wd : world R S P W) w0 p q r b gs id :
    presents_fields I (s_source sv) (fun _ => on_rows3 (aff3 (spin3 p q r) b)) -> I w0 (w_interp wd) ->
    w_integrator wd = fresh MAB2 -> s_writer sv = false -> src_id (s_source sv) = Ok id ->
    src_particles (s_source sv) (w_source wd) = mk_particles Rops (layout3 gs) -> Forall axis_aligned3 gs ->
    (2 <= src_steps (s_source sv))%nat -> src_timestep (s_source sv) <> 0 ->
    let n := src_steps (s_source sv) in let h := src_timestep (s_source sv) in let V := p ^ 2 + q ^ 2 + r ^ 2 in
    exists x, snd (run Rops interpolate eigvals mems write sv wd) = Ok (Some (map (fun _ => XVal x) gs)) /\
      ln (1 + h ^ 2 * V) / (2 * ((INR n - 1) * Rabs h)) <= x /\
      (h ^ 2 * V <= 1 / 4 -> x <= V * Rabs h / (2 * (INR n - 1)) + 2 * V ^ 2 * Rabs h ^ 3).
  Proof.
    intros HP Hs Hf Ew Eid Ep Ha Hn Hh n h V.
    destruct (linear3 interpolate eigvals mems write I HI sv wd w0 MAB2 _ b gs id He HP Hs Hf Ew Eid Ep Ha Hn Hh) as (s & Hs' & ->).
    fold n in Hn, Hs' |- *. fold h in Hh, Hs' |- *. clearbody n h. cbn [propagator3] in Hs'. destruct n as [|k]; [lia|].
    destruct (ab2_quad p q r h k) as (c & d & c' & d' & y & t & E & _ & Lo & Up). fold V in Lo, Up.
    assert (F : fst (ab2_pair33 h (spin3 p q r) (Datatypes.S k)) = snd (ab2_pair33 h (spin3 p q r) k)) by (cbn [ab2_pair33]; destruct (ab2_pair33 h (spin3 p q r) k); reflexivity).
    rewrite F, E in Hs'. cbn [snd] in Hs'. rewrite spin3_scal in Hs'. set (a := h ^ 2 * V) in *.
    assert (Ea : h * p * (h * p) + h * q * (h * q) + h * r * (h * r) = a) by (unfold a, V; ring).
    assert (A0 : 0 <= a) by (unfold a, V; apply Rmult_le_pos; nra).
    apply quad_value in Hs'; rewrite Ea in *; [|lra].
    set (N := (1 - a * d') * (1 - a * d') + a * (c' * c')) in *. assert (N0 : 0 < N) by lra. assert (0 < s) by (rewrite Hs'; apply sqrt_lt_R0; exact N0).
    rewrite S_INR in *. replace (INR k + 1 - 1) with (INR k) by ring. assert (K1 : 1 <= INR k) by (apply (le_INR 1); lia).
    assert (H0 : 0 < Rabs h) by (apply Rabs_pos_lt; exact Hh). assert (T : 0 < INR k * Rabs h) by (apply Rmult_lt_0_compat; lra).
    assert (L : ln s = ln N / 2) by (rewrite Hs'; apply ln_sqrt; exact N0).
    exists (ln s / (INR k * Rabs h)). split; [|split].
    - unfold ftle_value. destruct (Req_EM_T s 0); [lra|]. replace (INR k + 1 - 1) with (INR k) by ring. reflexivity.
    - rewrite L. apply Rmult_le_reg_r with (2 * (INR k * Rabs h)); [lra|].
      replace (ln (1 + a) / (2 * (INR k * Rabs h)) * (2 * (INR k * Rabs h))) with (ln (1 + a)) by (field; lra).
      replace (ln N / 2 / (INR k * Rabs h) * (2 * (INR k * Rabs h))) with (ln N) by (field; lra). apply ln_below; lra.
    - intro Q. destruct (Up Q) as [_ U]. rewrite L. assert (P0 : 0 < 1 + 4 * a ^ 2) by nra.
      assert (L1 : ln N <= a + INR k * (4 * a ^ 2)).
      { eapply Rle_trans; [apply ln_below; [exact N0|exact U]|]. rewrite ln_mult; [|lra|apply pow_lt; exact P0]. rewrite ln_pow by exact P0.
        apply Rplus_le_compat; [apply ln_under; lra|]. apply Rmult_le_compat_l; [lra|]. apply ln_under. nra. }
      assert (Q2 : a = V * Rabs h ^ 2) by (unfold a; rewrite (pow2_abs h); ring).
      apply Rmult_le_reg_r with (INR k * Rabs h); [exact T|].
      replace (ln N / 2 / (INR k * Rabs h) * (INR k * Rabs h)) with (ln N / 2) by (field; lra).
      replace ((V * Rabs h / (2 * INR k) + 2 * V ^ 2 * Rabs h ^ 3) * (INR k * Rabs h)) with ((a + INR k * (4 * a ^ 2)) / 2) by (rewrite Q2; field; lra). lra.
  Qed.
End Spin.
