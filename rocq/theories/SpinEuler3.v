(** Runs in a three-dimensional rotation with Euler (C139). *)
From Coq Require Import Reals Lra Lia Psatz.
From Verif Require Import Base Num Particles Jacobian Ftle Integrate DataSource Solver SpecFtle SpecSeeds SpecIntegrate
  SpecSolver SpecRotation FtleFacts2 ParticleFacts JacobianFacts SolverFacts SolverField SolverLinear FtleFacts3 IntegrateMisc ConvergeCases FrameMain StrainCases RotationFacts SpiralBound.
Local Open Scope R_scope.

Lemma turn_norm p q r h u : let T := add33 id33 (scal33 h (spin3 p q r)) in
  dot3v (app33 T u) (app33 T u) = (1 + h ^ 2 * (p ^ 2 + q ^ 2 + r ^ 2)) * dot3v u u - h ^ 2 * dot3v (p, q, r) u ^ 2.
Proof. destruct u as [[x y] z]. unfold dot3v, app33, v0, v1, v2. cbn. ring. Qed.
Lemma turn_axis p q r h u : dot3v (p, q, r) (app33 (add33 id33 (scal33 h (spin3 p q r))) u) = dot3v (p, q, r) u.
Proof. destruct u as [[x y] z]. unfold dot3v, app33, v0, v1, v2. cbn. ring. Qed.

Lemma turn_pow p q r h n u : let T := add33 id33 (scal33 h (spin3 p q r)) in let c := 1 + h ^ 2 * (p ^ 2 + q ^ 2 + r ^ 2) in
  dot3v (app33 (pow33 T n) u) (app33 (pow33 T n) u) <= c ^ n * dot3v u u /\
  (dot3v (p, q, r) u = 0 -> dot3v (app33 (pow33 T n) u) (app33 (pow33 T n) u) = c ^ n * dot3v u u).
Proof.
  intros T c. assert (C : 1 <= c) by (unfold c; assert (0 <= h ^ 2 * (p ^ 2 + q ^ 2 + r ^ 2)) by (apply Rmult_le_pos; nra); lra).
  assert (X : dot3v (p, q, r) (app33 (pow33 T n) u) = dot3v (p, q, r) u).
  { induction n as [|n IH]; [cbn [pow33]; rewrite app33_id; reflexivity|]. cbn [pow33]. rewrite app33_mul. unfold T at 1. rewrite turn_axis. exact IH. }
  induction n as [|n IH]; [cbn [pow33 pow]; rewrite app33_id; split; [lra|intro; ring]|].
  assert (X' : dot3v (p, q, r) (app33 (pow33 T n) u) = dot3v (p, q, r) u) by (cbn [pow33] in X; rewrite app33_mul in X; unfold T at 1 in X; rewrite turn_axis in X; exact X).
  destruct (IH X') as [U E]. cbn [pow33 pow]. rewrite app33_mul. pose proof (turn_norm p q r h (app33 (pow33 T n) u)) as N. cbv zeta in N. fold T c in N. rewrite N, X'. split.
  - assert (0 <= h ^ 2 * dot3v (p, q, r) u ^ 2) by (apply Rmult_le_pos; nra). rewrite Rmult_assoc. apply (Rmult_le_compat_l c) in U; lra.
  - intro Z. rewrite (E Z), Z. ring.
Qed.

Lemma across p q r : exists u, dot3v (p, q, r) u = 0 /\ 0 < dot3v u u.
Proof.
  destruct (Req_dec p 0) as [->|N]; [exists (1, 0, 0)|exists (q, - p, 0)]; unfold dot3v, v0, v1, v2; cbn; (split; [ring|nra]).
Qed.

Lemma turn_value p q r h n s : spectral_norm_3 (pow33 (add33 id33 (scal33 h (spin3 p q r))) n) s -> s = sqrt ((1 + h ^ 2 * (p ^ 2 + q ^ 2 + r ^ 2)) ^ n).
Proof.
  intros Hs. pose proof (spectral_norm_3_nonneg _ _ Hs) as S0. destruct Hs as [A (u & Nu & Eu)]. set (c := 1 + h ^ 2 * (p ^ 2 + q ^ 2 + r ^ 2)).
  assert (C : 1 <= c) by (unfold c; assert (0 <= h ^ 2 * (p ^ 2 + q ^ 2 + r ^ 2)) by (apply Rmult_le_pos; nra); lra). assert (P : 0 < c ^ n) by (apply pow_lt; lra).
  apply Rle_antisym.
  - rewrite <- Eu. apply sqrt_le_1_alt. destruct (turn_pow p q r h n u) as [U _]. fold c in U.
    assert (D : dot3v u u = 1) by (assert (D0 : 0 <= dot3v u u) by (destruct u as [[x y] z]; unfold dot3v, v0, v1, v2; cbn; nra); rewrite <- (sqrt_sqrt _ D0); unfold norm3 in Nu; rewrite Nu; ring).
    rewrite D in U. lra.
  - destruct (across p q r) as (w & Zw & Pw). destruct (turn_pow p q r h n w) as [_ E]. specialize (E Zw). fold c in E. specialize (A w). unfold norm3 in A. rewrite E, sqrt_mult in A by lra.
    assert (0 < sqrt (dot3v w w)) by (apply sqrt_lt_R0; exact Pw). apply Rmult_le_reg_r with (sqrt (dot3v w w)); assumption.
Qed.

Section Spin.
  Context {S P W : Type} (interpolate : S -> mat R -> S * res (mat R)) (eigvals : m33 R -> res (R * R * R))
    (mems : nat -> memory (T := R)) (write : W -> string -> list (xval R) -> mat R -> W * res unit)
    (I : (list R -> list R) -> S -> Prop) (HI : samples_field interpolate I) (He : eigvals_ok eigvals).

  Theorem rotation3_euler (sv : solver R S P) (wd : world R S P W) w0 p q r b gs id :
    presents_fields I (s_source sv) (fun _ => on_rows3 (aff3 (spin3 p q r) b)) -> I w0 (w_interp wd) ->
    w_integrator wd = fresh MEuler -> s_writer sv = false -> src_id (s_source sv) = Ok id ->
    src_particles (s_source sv) (w_source wd) = mk_particles Rops (layout3 gs) -> Forall axis_aligned3 gs ->
    (2 <= src_steps (s_source sv))%nat -> src_timestep (s_source sv) <> 0 ->
    let n := src_steps (s_source sv) in let h := src_timestep (s_source sv) in let V := p ^ 2 + q ^ 2 + r ^ 2 in
    exists x, snd (run Rops interpolate eigvals mems write sv wd) = Ok (Some (map (fun _ => XVal x) gs)) /\
      x = INR n / (INR n - 1) * (ln (1 + h ^ 2 * V) / (2 * Rabs h)) /\ 0 <= x <= INR n / (INR n - 1) * (V * Rabs h / 2).
  Proof.
    intros HP Hs Hf Ew Eid Ep Ha Hn Hh n h V.
    destruct (linear3 interpolate eigvals mems write I HI sv wd w0 MEuler _ b gs id He HP Hs Hf Ew Eid Ep Ha Hn Hh) as (s & Hs' & ->).
    fold n in Hn, Hs' |- *. fold h in Hh, Hs' |- *. clearbody n h. cbn [propagator3] in Hs'. apply turn_value in Hs'. fold V in Hs'.
    assert (V0 : 0 <= h ^ 2 * V) by (apply Rmult_le_pos; unfold V; nra). clearbody V. set (c := 1 + h ^ 2 * V) in *.
    assert (P1 : 0 < c ^ n) by (apply pow_lt; unfold c; lra). assert (0 < s) by (rewrite Hs'; apply sqrt_lt_R0; exact P1).
    assert (N : 2 <= INR n) by (apply (le_INR 2); lia). assert (A : 0 < Rabs h) by (apply Rabs_pos_lt; exact Hh).
    assert (L : ln s = INR n * ln c / 2) by (rewrite Hs', ln_sqrt, ln_pow by (assumption || unfold c; lra); reflexivity).
    assert (F : 0 <= INR n / (INR n - 1)) by (apply Rmult_le_pos; [lra|left; apply Rinv_0_lt_compat; lra]).
    assert (L0 : 0 <= ln c) by (rewrite <- ln_1; apply ln_below; unfold c; lra). pose proof (ln_under _ V0) as L1. fold c in L1.
    assert (I0 : 0 < / (2 * Rabs h)) by (apply Rinv_0_lt_compat; lra).
    exists (INR n / (INR n - 1) * (ln c / (2 * Rabs h))). split; [|split; [reflexivity|split]].
    - unfold ftle_value. destruct (Req_EM_T s 0); [lra|]. rewrite L. do 2 f_equal. f_equal. f_equal. apply FunctionalExtensionality.functional_extensionality. intro. f_equal. field. lra.
    - apply Rmult_le_pos; [exact F|]. apply Rmult_le_pos; lra.
    - apply Rmult_le_compat_l; [exact F|]. replace (V * Rabs h / 2) with (h ^ 2 * V / (2 * Rabs h)) by (rewrite <- (pow2_abs h); field; lra).
      apply Rmult_le_compat_r; lra.
  Qed.
End Spin.
