(** AB2 in incompressible linear flows that rotate (C139, C140): the determinant of the propagator grows with every step. *)
From Coq Require Import Reals Lra Lia Psatz.
From Verif Require Import Base Num Particles Jacobian Ftle Integrate DataSource Solver SpecFtle SpecSeeds SpecIntegrate
  SpecSolver SpecRotation FtleFacts2 FtleFacts3 ParticleFacts JacobianFacts SolverFacts SolverField SolverLinear IntegrateMisc ConvergeCases FrameMain StrainCases RotationFacts StretchFacts SaddleFacts.
Local Open Scope R_scope.

(** P = x + y B and the next one, x' + y' B = P + B (s + t B), where B B = - a. *)
Record growing (a x y x' y' s t : R) : Prop := Growing {
  g_x : x' = x - a * t;
  g_y : y' = y + s;
  g_one : 1 <= x * x + a * (y * y);
  g_up : x * x + a * (y * y) <= x' * x' + a * (y' * y');
  g_slow : x' * x' + a * (y' * y') - (x * x + a * (y * y)) <= a * (s * s + a * (t * t));
  g_low : 0 <= s * x + a * (t * y);
  g_high : s * x + a * (t * y) <= (3 / 2 * x' - 1 / 2 * x) * (3 / 2 * x' - 1 / 2 * x) + a * ((3 / 2 * y' - 1 / 2 * y) * (3 / 2 * y' - 1 / 2 * y));
  g_next : 2 / 3 * (s * s + a * (t * t)) <= (3 / 2 * x' - 1 / 2 * x) * (3 / 2 * x' - 1 / 2 * x) + a * ((3 / 2 * y' - 1 / 2 * y) * (3 / 2 * y' - 1 / 2 * y))
}.

Lemma growing_start a : 0 <= a -> growing a 1 0 1 1 1 0.
Proof. intro H. constructor; nra. Qed.

Lemma growing_step a x y x' y' s t : 0 <= a -> growing a x y x' y' s t ->
  growing a x' y' (x' - a * (3 / 2 * y' - 1 / 2 * y)) (y' + (3 / 2 * x' - 1 / 2 * x)) (3 / 2 * x' - 1 / 2 * x) (3 / 2 * y' - 1 / 2 * y).
Proof.
  intros Ha [Ex Ey H1 Hup Hslow Hlow Hhigh Hnext].
  set (N := x * x + a * (y * y)) in *. set (N' := x' * x' + a * (y' * y')) in *. set (Q := s * s + a * (t * t)) in *. set (B := s * x + a * (t * y)) in *.
  set (s' := 3 / 2 * x' - 1 / 2 * x) in *. set (t' := 3 / 2 * y' - 1 / 2 * y) in *. set (Q' := s' * s' + a * (t' * t')) in *.
  assert (EQ : Q' = N' + (N' - N) / 2 + 3 / 4 * (a * Q)) by (unfold Q', N', N, Q, s', t'; rewrite Ex, Ey; field).
  set (x2 := x' - a * t'). set (y2 := y' + s'). set (N2 := x2 * x2 + a * (y2 * y2)).
  assert (EN : N2 - N' = a * (Q' - B)) by (unfold N2, N', Q', B, x2, y2, s', t'; rewrite Ex, Ey; field).
  assert (EB : s' * x' + a * (t' * y') = N' + (N' - N + a * Q) / 4) by (unfold N', N, Q, s', t'; rewrite Ex, Ey; field).
  assert (EQ2 : (3 / 2 * x2 - 1 / 2 * x') * (3 / 2 * x2 - 1 / 2 * x') + a * ((3 / 2 * y2 - 1 / 2 * y') * (3 / 2 * y2 - 1 / 2 * y')) = N2 + (N2 - N') / 2 + 3 / 4 * (a * Q'))
    by (unfold N2, N', Q', x2, y2; field).
  assert (S0 : forall r, 0 <= r * r) by (intro; nra).
  assert (Q0 : 0 <= Q) by (unfold Q; pose proof (S0 s); pose proof (Rmult_le_pos _ _ Ha (S0 t)); lra).
  assert (D : 0 <= N2 - N') by (rewrite EN; apply Rmult_le_pos; lra).
  assert (A1 : 0 <= a * (Q' - 2 / 3 * Q)) by (apply Rmult_le_pos; lra). assert (A2 : 0 <= a * B) by (apply Rmult_le_pos; lra). assert (A3 : 0 <= a * Q) by (apply Rmult_le_pos; lra).
  constructor; try reflexivity; fold N' Q' N2.
  - lra.
  - lra.
  - lra.
  - rewrite EB. lra.
  - rewrite EB, EQ2. lra.
  - rewrite EQ2. lra.
Qed.

Lemma first_step A h : add22 id22 (scal22 h A) = comb 1 1 (scal22 h A).
Proof. destruct A. apply m22_ext; cbn; ring. Qed.

Lemma ab2_growing A h a n : 0 <= a -> mul22 (scal22 h A) (scal22 h A) = scal22 (- a) id22 ->
  exists x y x' y' s t, ab2_pair22 h A n = (comb x y (scal22 h A), comb x' y' (scal22 h A)) /\ growing a x y x' y' s t.
Proof.
  intros Ha HB. induction n as [|n (x & y & x' & y' & s & t & E & G)].
  - exists 1, 0, 1, 1, 1, 0. split; [|apply growing_start; exact Ha]. cbn [ab2_pair22]. rewrite first_step, comb_id. reflexivity.
  - cbn [ab2_pair22]. rewrite E. do 6 eexists. split; [|exact (growing_step _ _ _ _ _ _ _ Ha G)]. f_equal.
    assert (Q : forall X Y Z : m22 R, add22 X (scal22 h (add22 (scal22 (3 / 2) (mul22 A Y)) (scal22 (- 1 / 2) (mul22 A Z)))) = add22 X (add22 (scal22 (3 / 2) (mul22 (scal22 h A) Y)) (scal22 (- 1 / 2) (mul22 (scal22 h A) Z)))).
    { clear. intros X Y Z. destruct A, X, Y, Z. apply m22_ext; cbn; field. }
    rewrite Q, !(comb_by (- a)) by exact HB. clear. destruct A. apply m22_ext; cbn; field.
Qed.
(** From the first step on. *)
Lemma ab2_grown A h a n : 0 <= a -> mul22 (scal22 h A) (scal22 h A) = scal22 (- a) id22 ->
  exists x y, fst (ab2_pair22 h A (S n)) = comb x y (scal22 h A) /\ 1 + a <= x * x + a * (y * y).
Proof.
  intros Ha HB. induction n as [|n (x & y & E & H)].
  - exists 1, 1. cbn [ab2_pair22 fst]. split; [apply first_step|lra].
  - destruct (ab2_growing A h a (S n) Ha HB) as (u & v & u' & v' & s & t & E' & G). rewrite E' in E. cbn [fst] in E.
    assert (F : fst (ab2_pair22 h A (S (S n))) = snd (ab2_pair22 h A (S n))) by (cbn [ab2_pair22]; destruct (ab2_pair22 h A n); reflexivity).
    rewrite F, E'. cbn [snd]. exists u', v'. split; [reflexivity|]. destruct (Req_dec a 0) as [->|Na].
    + pose proof (g_up _ _ _ _ _ _ _ G). pose proof (g_one _ _ _ _ _ _ _ G). lra.
    + pose proof (g_up _ _ _ _ _ _ _ G) as U.
      assert (X : u * u + a * (v * v) = x * x + a * (y * y)).
      { destruct (Req_dec (a01 (scal22 h A)) 0) as [Z|Z].
        - exfalso. assert (V := f_equal a00 HB). cbn in V, Z. cbn in V.
          assert (0 <= h * a00 A * (h * a00 A)) by nra. assert (h * a00 A * (h * a00 A) + h * a01 A * (h * a10 A) = - a) by (rewrite V; ring). rewrite Z in H1. nra.
        - assert (V1 := f_equal a01 E). assert (V0 := f_equal a00 E). unfold comb in V1, V0. cbn in V1, V0, Z.
          assert (Y : v = y) by (apply Rmult_eq_reg_r with (h * a01 A); [lra|exact Z]). subst v. assert (u = x) by lra. subst u. reflexivity. }
      lra.
Qed.

Section Spiral.
  Context {S P W : Type} (interpolate : S -> mat R -> S * res (mat R)) (eigvals : m33 R -> res (R * R * R))
    (mems : nat -> memory (T := R)) (write : W -> string -> list (xval R) -> mat R -> W * res unit)
    (I : (list R -> list R) -> S -> Prop) (HI : samples_field interpolate I).

  Theorem spiral (sv : solver R S P) (wd : world R S P W) w0 A b gs id : a00 A + a11 A = 0 -> 0 <= a00 A * a11 A - a01 A * a10 A ->
    presents_fields I (s_source sv) (fun _ => on_rows2 (aff2 A b)) -> I w0 (w_interp wd) ->
    w_integrator wd = fresh MAB2 -> s_writer sv = false -> src_id (s_source sv) = Ok id ->
    src_particles (s_source sv) (w_source wd) = mk_particles Rops (layout2 gs) -> Forall axis_aligned2 gs ->
    (2 <= src_steps (s_source sv))%nat -> src_timestep (s_source sv) <> 0 ->
    let n := src_steps (s_source sv) in let h := src_timestep (s_source sv) in
    exists x, snd (run Rops interpolate eigvals mems write sv wd) = Ok (Some (map (fun _ => XVal x) gs)) /\
      ln (1 + h ^ 2 * (a00 A * a11 A - a01 A * a10 A)) / (2 * ((INR n - 1) * Rabs h)) <= x.
  Proof.
    intros Ht Hd HP Hs Hf Ew Eid Ep Ha Hn Hh n h.
    destruct (linear2 interpolate eigvals mems write I HI sv wd w0 MAB2 A b gs id HP Hs Hf Ew Eid Ep Ha Hn Hh) as (s & Hs' & ->).
    fold n in Hn, Hs' |- *. fold h in Hh, Hs' |- *. clearbody n h. cbn [propagator2] in Hs'.
    set (d := a00 A * a11 A - a01 A * a10 A) in *. assert (T := square_traceless A Ht).
    assert (Q : a11 A = - a00 A) by lra. assert (Ed : a00 A * a00 A + a01 A * a10 A = - d) by (unfold d; rewrite Q; ring). rewrite Ed in T.
    assert (HB : mul22 (scal22 h A) (scal22 h A) = scal22 (- (h ^ 2 * d)) id22).
    { transitivity (scal22 (h * h) (mul22 A A)); [|rewrite T]; clear; destruct A; apply m22_ext; cbn; ring. }
    assert (A0 : 0 <= h ^ 2 * d) by (apply Rmult_le_pos; [nra|exact Hd]).
    destruct n as [|k]; [lia|]. destruct (ab2_grown A h (h ^ 2 * d) k A0 HB) as (x & y & E & G). rewrite E in Hs'.
    pose proof (det_bound_2 _ _ Hs') as B. pose proof (spectral_norm_2_nonneg _ _ Hs') as S0.
    assert (D : det22 (comb x y (scal22 h A)) = x * x + h ^ 2 * d * (y * y)).
    { transitivity (x * x + x * (y * h) * (a00 A + a11 A) + (y * h) * (y * h) * d); [unfold det22, d; clear; destruct A; cbn; ring|rewrite Ht; ring]. }
    rewrite D in B. rewrite Rabs_pos_eq in B by lra.
    assert (2 <= INR (Datatypes.S k)) by (apply (le_INR 2); lia). assert (0 < Rabs h) by (apply Rabs_pos_lt; exact Hh).
    assert (G2 : 1 + h ^ 2 * d <= s * s) by nra. assert (0 < s) by nra.
    exists (ln s / ((INR (Datatypes.S k) - 1) * Rabs h)). split; [unfold ftle_value; destruct (Req_EM_T s 0); [lra|reflexivity]|].
    assert (L : ln (1 + h ^ 2 * d) <= 2 * ln s).
    { replace (2 * ln s) with (ln (s * s)) by (rewrite ln_mult by assumption; ring). destruct (Rle_lt_or_eq_dec _ _ G2) as [X|X]; [left; apply ln_increasing; lra|rewrite X; lra]. }
    assert (0 < (INR (Datatypes.S k) - 1) * Rabs h) by (apply Rmult_lt_0_compat; lra).
    apply Rmult_le_reg_r with (2 * ((INR (Datatypes.S k) - 1) * Rabs h)); [lra|].
    replace (ln (1 + h ^ 2 * d) / (2 * ((INR (Datatypes.S k) - 1) * Rabs h)) * (2 * ((INR (Datatypes.S k) - 1) * Rabs h))) with (ln (1 + h ^ 2 * d)) by (field; lra).
    replace (ln s / ((INR (Datatypes.S k) - 1) * Rabs h) * (2 * ((INR (Datatypes.S k) - 1) * Rabs h))) with (2 * ln s) by (field; lra). exact L.
  Qed.

  Theorem rotation_ab2 (sv : solver R S P) (wd : world R S P W) w0 w b gs id :
    presents_fields I (s_source sv) (fun _ => on_rows2 (aff2 (spin w) b)) -> I w0 (w_interp wd) ->
    w_integrator wd = fresh MAB2 -> s_writer sv = false -> src_id (s_source sv) = Ok id ->
    src_particles (s_source sv) (w_source wd) = mk_particles Rops (layout2 gs) -> Forall axis_aligned2 gs ->
    (2 <= src_steps (s_source sv))%nat -> src_timestep (s_source sv) <> 0 -> w <> 0 ->
    let n := src_steps (s_source sv) in let h := src_timestep (s_source sv) in
    exists x, snd (run Rops interpolate eigvals mems write sv wd) = Ok (Some (map (fun _ => XVal x) gs)) /\
      0 < ln (1 + (w * h) ^ 2) / (2 * ((INR n - 1) * Rabs h)) <= x.
  Proof.
    intros HP Hs Hf Ew Eid Ep Ha Hn Hh Hw n h.
    assert (D : a00 (spin w) * a11 (spin w) - a01 (spin w) * a10 (spin w) = w ^ 2) by (cbn; ring).
    destruct (spiral sv wd w0 (spin w) b gs id ltac:(cbn; lra) ltac:(rewrite D; nra) HP Hs Hf Ew Eid Ep Ha Hn Hh) as (x & E & L). rewrite D in L. fold n h in L, Hn, Hh.
    clearbody n h. replace ((w * h) ^ 2) with (h ^ 2 * w ^ 2) by ring. exists x. split; [exact E|]. split; [|exact L].
    assert (2 <= INR n) by (apply (le_INR 2); lia). assert (0 < Rabs h) by (apply Rabs_pos_lt; exact Hh).
    assert (0 < (INR n - 1) * Rabs h) by (apply Rmult_lt_0_compat; lra).
    assert (0 < h ^ 2 * w ^ 2) by (apply Rmult_lt_0_compat; [assert (0 < h * h) by (apply Rsqr_pos_lt; exact Hh); nra|assert (0 < w * w) by (apply Rsqr_pos_lt; exact Hw); nra]).
    apply Rmult_lt_0_compat; [rewrite <- ln_1; apply ln_increasing; lra|apply Rinv_0_lt_compat; lra].
  Qed.

  Theorem incompressible_ab2 (sv : solver R S P) (wd : world R S P W) w0 A b gs id : a00 A + a11 A = 0 ->
    presents_fields I (s_source sv) (fun _ => on_rows2 (aff2 A b)) -> I w0 (w_interp wd) ->
    w_integrator wd = fresh MAB2 -> s_writer sv = false -> src_id (s_source sv) = Ok id ->
    src_particles (s_source sv) (w_source wd) = mk_particles Rops (layout2 gs) -> Forall axis_aligned2 gs ->
    (2 <= src_steps (s_source sv))%nat -> src_timestep (s_source sv) <> 0 ->
    exists x, 0 <= x /\ snd (run Rops interpolate eigvals mems write sv wd) = Ok (Some (map (fun _ => XVal x) gs)).
  Proof.
    intros Ht HP Hs Hf Ew Eid Ep Ha Hn Hh.
    destruct (Rle_dec (a00 A * a11 A - a01 A * a10 A) 0) as [Hd|Hd];
      [exact (saddle interpolate eigvals mems write I HI sv wd w0 MAB2 A b gs id Ht Hd HP Hs Hf Ew Eid Ep Ha Hn Hh)|].
    destruct (spiral sv wd w0 A b gs id Ht ltac:(lra) HP Hs Hf Ew Eid Ep Ha Hn Hh) as (x & E & L). exists x. split; [|exact E].
    eapply Rle_trans; [|exact L]. set (n := src_steps (s_source sv)) in *. set (h := src_timestep (s_source sv)) in *. clearbody n h.
    assert (2 <= INR n) by (apply (le_INR 2); lia). assert (0 < Rabs h) by (apply Rabs_pos_lt; exact Hh).
    assert (0 < (INR n - 1) * Rabs h) by (apply Rmult_lt_0_compat; lra).
    assert (0 < h ^ 2 * (a00 A * a11 A - a01 A * a10 A)) by (apply Rmult_lt_0_compat; [assert (0 < h * h) by (apply Rsqr_pos_lt; exact Hh); nra|lra]).
    apply Rmult_le_pos; [rewrite <- ln_1; left; apply ln_increasing; lra|left; apply Rinv_0_lt_compat; lra].
  Qed.
End Spiral.
