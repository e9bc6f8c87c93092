(** AB2 in a rotation (C139): an upper bound of the growth, for steps of at most half a radian. *)
From Coq Require Import Reals Lra Lia Psatz.
From Verif Require Import Base Num Particles Jacobian Ftle Integrate DataSource Solver SpecFtle SpecSeeds SpecIntegrate
  SpecSolver SpecRotation FtleFacts2 FtleFacts3 ParticleFacts JacobianFacts SolverFacts SolverField SolverLinear IntegrateMisc ConvergeCases FrameMain StrainCases RotationFacts StretchFacts SaddleFacts SpiralFacts.
Local Open Scope R_scope.

Record slow (a x y s t : R) : Prop := Slow {
  sl_near : x * x + a * (y * y) <= s * x + a * (t * y);
  sl_small : s * s + a * (t * t) <= 16 / 11 * (x * x + a * (y * y))
}.

Lemma slow_step a x y x' y' s t : 0 <= a <= 1 / 4 -> growing a x y x' y' s t -> slow a x y s t ->
  let s' := 3 / 2 * x' - 1 / 2 * x in let t' := 3 / 2 * y' - 1 / 2 * y in
  slow a x' y' s' t' /\
  (x' - a * t') * (x' - a * t') + a * ((y' + s') * (y' + s')) <= (x' * x' + a * (y' * y')) * (1 + 4 * a ^ 2).
Proof.
  intros Ha [Ex Ey H1 Hup Hslow Hlow Hhigh Hnext] [Hk Hq].
  set (N := x * x + a * (y * y)) in *. set (N' := x' * x' + a * (y' * y')) in *. set (Q := s * s + a * (t * t)) in *. set (B := s * x + a * (t * y)) in *.
  intros s' t'. set (Q' := s' * s' + a * (t' * t')) in *.
  assert (EQ : Q' = N' + (N' - N) / 2 + 3 / 4 * (a * Q)) by (unfold Q', N', N, Q, s', t'; rewrite Ex, Ey; field).
  assert (EN : (x' - a * t') * (x' - a * t') + a * ((y' + s') * (y' + s')) - N' = a * (Q' - B)) by (unfold N', Q', B, s', t'; rewrite Ex, Ey; field).
  assert (EB : s' * x' + a * (t' * y') = N' + (N' - N + a * Q) / 4) by (unfold N', N, Q, s', t'; rewrite Ex, Ey; field).
  assert (S0 : forall r, 0 <= r * r) by (intro; nra).
  assert (Q0 : 0 <= Q) by (unfold Q; pose proof (S0 s); pose proof (Rmult_le_pos _ _ (proj1 Ha) (S0 t)); lra).
  assert (A1 : 0 <= (1 / 4 - a) * Q) by (apply Rmult_le_pos; lra). assert (A2 : 0 <= a * Q) by (apply Rmult_le_pos; lra).
  split; [constructor|]; fold N'; [rewrite EB; lra|fold Q'; lra|].
  assert (L : a * (Q' - B) <= a * (9 / 4 * (a * Q))) by (apply Rmult_le_compat_l; lra).
  assert (A3 : 0 <= (a * a) * (16 / 11 * N' - Q)) by (apply Rmult_le_pos; [apply S0|lra]).
  assert (A4 : 0 <= (a * a) * N') by (apply Rmult_le_pos; [apply S0|lra]).
  replace (N' * (1 + 4 * a ^ 2)) with (N' + 4 * ((a * a) * N')) by ring. lra.
Qed.

Lemma ab2_slow A h a n : 0 <= a <= 1 / 4 -> mul22 (scal22 h A) (scal22 h A) = scal22 (- a) id22 ->
  exists x y x' y' s t, ab2_pair22 h A n = (comb x y (scal22 h A), comb x' y' (scal22 h A)) /\ growing a x y x' y' s t /\ slow a x y s t /\
    1 + a <= x' * x' + a * (y' * y') <= (1 + a) * (1 + 4 * a ^ 2) ^ n.
Proof.
  intros Ha HB. induction n as [|n (x & y & x' & y' & s & t & E & G & L & Lo & Up)].
  - exists 1, 0, 1, 1, 1, 0. split; [cbn [ab2_pair22]; rewrite first_step, comb_id; reflexivity|]. split; [apply growing_start; lra|]. split; [constructor; lra|]. cbn [pow]. lra.
  - destruct (slow_step _ _ _ _ _ _ _ Ha G L) as [L' U]. pose proof (growing_step _ _ _ _ _ _ _ (proj1 Ha) G) as G'.
    cbn [ab2_pair22]. rewrite E. do 6 eexists. split; [|split; [exact G'|split; [exact L'|split]]].
    + f_equal.
      assert (Q : forall X Y Z : m22 R, add22 X (scal22 h (add22 (scal22 (3 / 2) (mul22 A Y)) (scal22 (- 1 / 2) (mul22 A Z)))) = add22 X (add22 (scal22 (3 / 2) (mul22 (scal22 h A) Y)) (scal22 (- 1 / 2) (mul22 (scal22 h A) Z)))).
      { clear. intros X Y Z. destruct A, X, Y, Z. apply m22_ext; cbn; field. }
      rewrite Q, !(comb_by (- a)) by exact HB. clear. destruct A. apply m22_ext; cbn; field.
    + eapply Rle_trans; [exact Lo|exact (g_up _ _ _ _ _ _ _ G')].
    + eapply Rle_trans; [exact U|]. cbn [pow]. replace ((1 + a) * ((1 + 4 * (a * (a * 1))) * (1 + 4 * (a * (a * 1))) ^ n)) with ((1 + a) * (1 + 4 * a ^ 2) ^ n * (1 + 4 * a ^ 2)) by (cbn [pow]; ring).
      apply Rmult_le_compat_r; [nra|exact Up].
Qed.

Lemma ln_below x y : 0 < x -> x <= y -> ln x <= ln y.
Proof. intros Hx H. destruct (Rle_lt_or_eq_dec _ _ H) as [L| ->]; [left; apply ln_increasing; assumption|lra]. Qed.
Lemma ln_under z : 0 <= z -> ln (1 + z) <= z.
Proof. intro H. rewrite <- (ln_exp z) at 2. apply ln_below; [lra|]. destruct (Req_dec z 0) as [->|N]; [rewrite exp_0; lra|left; apply exp_ineq1; lra]. Qed.

Section Bound.
  Context {S P W : Type} (interpolate : S -> mat R -> S * res (mat R)) (eigvals : m33 R -> res (R * R * R))
    (mems : nat -> memory (T := R)) (write : W -> string -> list (xval R) -> mat R -> W * res unit)
    (I : (list R -> list R) -> S -> Prop) (HI : samples_field interpolate I).

  Theorem rotation_ab2_small (sv : solver R S P) (wd : world R S P W) w0 w b gs id :
    presents_fields I (s_source sv) (fun _ => on_rows2 (aff2 (spin w) b)) -> I w0 (w_interp wd) ->
    w_integrator wd = fresh MAB2 -> s_writer sv = false -> src_id (s_source sv) = Ok id ->
    src_particles (s_source sv) (w_source wd) = mk_particles Rops (layout2 gs) -> Forall axis_aligned2 gs ->
    (2 <= src_steps (s_source sv))%nat -> src_timestep (s_source sv) <> 0 -> Rabs (w * src_timestep (s_source sv)) <= 1 / 2 ->
    let n := src_steps (s_source sv) in let h := src_timestep (s_source sv) in
    exists x, snd (run Rops interpolate eigvals mems write sv wd) = Ok (Some (map (fun _ => XVal x) gs)) /\
      0 <= x <= w ^ 2 * Rabs h / (2 * (INR n - 1)) + 2 * w ^ 4 * Rabs h ^ 3.
  Proof.
    intros HP Hs Hf Ew Eid Ep Ha Hn Hh Hw n h.
    destruct (linear2 interpolate eigvals mems write I HI sv wd w0 MAB2 (spin w) b gs id HP Hs Hf Ew Eid Ep Ha Hn Hh) as (s & Hs' & ->).
    fold n in Hn, Hs' |- *. fold h in Hh, Hw, Hs' |- *. clearbody n h. cbn [propagator2] in Hs'.
    set (a := (w * h) ^ 2).
    assert (A1 : 0 <= a <= 1 / 4) by (unfold a; rewrite <- (pow2_abs (w * h)); pose proof (Rabs_pos (w * h)); nra).
    assert (HB : mul22 (scal22 h (spin w)) (scal22 h (spin w)) = scal22 (- a) id22) by (unfold a; apply m22_ext; cbn; ring).
    destruct n as [|k]; [lia|]. destruct (ab2_slow (spin w) h a k A1 HB) as (x & y & x' & y' & p & q & E & _ & _ & Lo & Up).
    assert (F : fst (ab2_pair22 h (spin w) (Datatypes.S k)) = snd (ab2_pair22 h (spin w) k)) by (cbn [ab2_pair22]; destruct (ab2_pair22 h (spin w) k); reflexivity).
    rewrite F, E in Hs'. cbn [snd] in Hs'.
    assert (C : comb x' y' (scal22 h (spin w)) = conf x' (y' * (w * h))) by (apply m22_ext; cbn; ring).
    rewrite C in Hs'. apply conf_norm in Hs'.
    replace (x' * x' + y' * (w * h) * (y' * (w * h))) with (x' * x' + a * (y' * y')) in Hs' by (unfold a; ring).
    set (N := x' * x' + a * (y' * y')) in *. clearbody N. assert (N0 : 0 < N) by lra. assert (0 < s) by (rewrite Hs'; apply sqrt_lt_R0; exact N0).
    rewrite S_INR in *. replace (INR k + 1 - 1) with (INR k) by ring. assert (K1 : 1 <= INR k) by (apply (le_INR 1); lia).
    assert (H0 : 0 < Rabs h) by (apply Rabs_pos_lt; exact Hh). assert (T : 0 < INR k * Rabs h) by (apply Rmult_lt_0_compat; lra).
    exists (ln s / (INR k * Rabs h)). split.
    { unfold ftle_value. destruct (Req_EM_T s 0); [lra|]. replace (INR k + 1 - 1) with (INR k) by ring. reflexivity. }
    assert (L : ln s = ln N / 2) by (rewrite Hs'; apply ln_sqrt; exact N0). rewrite L.
    assert (P0 : 0 < 1 + 4 * a ^ 2) by nra.
    assert (L0 : 0 <= ln N) by (rewrite <- ln_1; apply ln_below; lra).
    assert (L1 : ln N <= a + INR k * (4 * a ^ 2)).
    { eapply Rle_trans; [apply ln_below; [exact N0|exact Up]|]. rewrite ln_mult; [|lra|apply pow_lt; exact P0]. rewrite ln_pow by exact P0.
      apply Rplus_le_compat; [apply ln_under; lra|]. apply Rmult_le_compat_l; [lra|]. apply ln_under. nra. }
    split; [apply Rmult_le_pos; [lra|left; apply Rinv_0_lt_compat; exact T]|].
    assert (Q : a = w ^ 2 * Rabs h ^ 2) by (unfold a; rewrite (pow2_abs h); ring).
    apply Rmult_le_reg_r with (INR k * Rabs h); [exact T|].
    replace (ln N / 2 / (INR k * Rabs h) * (INR k * Rabs h)) with (ln N / 2) by (field; lra).
    replace ((w ^ 2 * Rabs h / (2 * INR k) + 2 * w ^ 4 * Rabs h ^ 3) * (INR k * Rabs h)) with ((a + INR k * (4 * a ^ 2)) / 2) by (rewrite Q; field; lra). lra.
  Qed.
End Bound.
