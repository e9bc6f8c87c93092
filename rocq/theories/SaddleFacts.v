(** Runs in incompressible linear flows whose velocity gradient has no rotation (C140): the determinant of the gradient is not positive. *)
From Coq Require Import Reals Lra Lia Psatz.
From Verif Require Import Base Num Particles Jacobian Ftle Integrate DataSource Solver SpecFtle SpecSeeds SpecIntegrate
  SpecSolver FtleFacts2 FtleFacts3 ParticleFacts JacobianFacts SolverFacts SolverField SolverLinear IntegrateMisc ConvergeCases FrameMain StrainCases RotationFacts StretchFacts.
Local Open Scope R_scope.

Definition comb (c d : R) (B : m22 R) : m22 R := add22 (scal22 c id22) (scal22 d B).

Lemma square_traceless A : a00 A + a11 A = 0 -> mul22 A A = scal22 (a00 A * a00 A + a01 A * a10 A) id22.
Proof. intro H. assert (E : a11 A = - a00 A) by lra. destruct A as [p q r s]. cbn in *. subst s. apply m22_ext; cbn; ring. Qed.
Lemma comb_mul mu c d c' d' B : mul22 B B = scal22 mu id22 -> mul22 (comb c d B) (comb c' d' B) = comb (c * c' + mu * (d * d')) (c * d' + d * c') B.
Proof.
  intro H. assert (E : mul22 (comb c d B) (comb c' d' B) = add22 (add22 (scal22 (c * c') id22) (scal22 (c * d' + d * c') B)) (scal22 (d * d') (mul22 B B))).
  { destruct B. apply m22_ext; cbn; ring. }
  rewrite E, H. clear. destruct B. apply m22_ext; cbn; ring.
Qed.
Lemma comb_one B : comb 0 1 B = B. Proof. destruct B. apply m22_ext; cbn; ring. Qed.
Lemma comb_id B : comb 1 0 B = id22. Proof. destruct B. apply m22_ext; cbn; ring. Qed.
Lemma comb_by mu c d B : mul22 B B = scal22 mu id22 -> mul22 B (comb c d B) = comb (mu * d) c B.
Proof. intro H. rewrite <- (comb_one B) at 1. rewrite (comb_mul mu) by exact H. f_equal; ring. Qed.
Lemma comb_pow mu c d B n : mul22 B B = scal22 mu id22 -> 0 <= mu -> 1 <= c -> 0 <= d -> exists c' d', pow22 (comb c d B) n = comb c' d' B /\ 1 <= c' /\ 0 <= d'.
Proof.
  intros H Hm Hc Hd. induction n as [|n (c' & d' & E & Hc' & Hd')]; [exists 1, 0; cbn [pow22]; rewrite comb_id; repeat split; lra|].
  cbn [pow22]. rewrite E, (comb_mul mu) by exact H. exists (c * c' + mu * (d * d')), (c * d' + d * c'). split; [reflexivity|].
  assert (0 <= d * d') by nra. assert (0 <= mu * (d * d')) by nra. split; nra.
Qed.

Section Square.
  Context (A : m22 R) (h mu : R) (Hm : 0 <= mu) (HB : mul22 (scal22 h A) (scal22 h A) = scal22 mu id22).
  Local Notation B := (scal22 h A).

  Lemma euler_comb : add22 id22 (scal22 h A) = comb 1 1 B.
  Proof. destruct A. apply m22_ext; cbn; ring. Qed.
  Lemma rk4_comb : taylor22 h A = comb (1 + mu / 2 + mu ^ 2 / 24) (1 + mu / 6) B.
  Proof.
    assert (P2 : mul22 B B = comb mu 0 B) by (rewrite HB; destruct A; apply m22_ext; cbn; ring).
    assert (P3 : mul22 B (mul22 B B) = comb 0 mu B) by (rewrite P2, (comb_by mu) by exact HB; f_equal; ring).
    assert (P4 : mul22 B (mul22 B (mul22 B B)) = comb (mu * mu) 0 B) by (rewrite P3, (comb_by mu) by exact HB; reflexivity).
    assert (E : taylor22 h A = add22 id22 (add22 B (add22 (scal22 (/ 2) (mul22 B B)) (add22 (scal22 (/ 6) (mul22 B (mul22 B B))) (scal22 (/ 24) (mul22 B (mul22 B (mul22 B B)))))))).
    { clear. destruct A. apply m22_ext; cbn; field. }
    rewrite E, P4, P3, P2. clear. destruct A. apply m22_ext; cbn; field.
  Qed.
  Lemma ab2_comb n : exists c d c' d', ab2_pair22 h A n = (comb c d B, comb c' d' B) /\ 1 <= c <= c' /\ 0 <= d <= d'.
  Proof.
    induction n as [|n (c & d & c' & d' & E & Hc & Hd)].
    - exists 1, 0, 1, 1. cbn [ab2_pair22]. rewrite euler_comb, comb_id. repeat split; lra.
    - cbn [ab2_pair22]. rewrite E. exists c', d', (c' + mu * (3 / 2 * d' - 1 / 2 * d)), (d' + (3 / 2 * c' - 1 / 2 * c)). split.
      + f_equal.
        assert (Q : forall X Y Z : m22 R, add22 X (scal22 h (add22 (scal22 (3 / 2) (mul22 A Y)) (scal22 (- 1 / 2) (mul22 A Z)))) = add22 X (add22 (scal22 (3 / 2) (mul22 B Y)) (scal22 (- 1 / 2) (mul22 B Z)))).
        { clear. intros X Y Z. destruct A, X, Y, Z. apply m22_ext; cbn; field. }
        rewrite Q, !(comb_by mu) by exact HB. clear. destruct A. apply m22_ext; cbn; field.
      + assert (0 <= mu * (3 / 2 * d' - 1 / 2 * d)) by (apply Rmult_le_pos; lra). repeat split; lra.
  Qed.
  Lemma propagator_comb m n : exists c d, propagator2 m A h n = comb c d B /\ 1 <= c.
  Proof.
    destruct m; cbn [propagator2].
    all: first [rewrite euler_comb; destruct (comb_pow mu 1 1 B n HB Hm) as (c & d & E & H & _); [lra|lra|exists c, d; auto]
      |rewrite rk4_comb; destruct (comb_pow mu (1 + mu / 2 + mu ^ 2 / 24) (1 + mu / 6) B n HB Hm) as (c & d & E & H & _); [nra|lra|exists c, d; auto]
      |destruct (ab2_comb n) as (c & d & c' & d' & -> & H & _); exists c, d; split; [reflexivity|lra]].
  Qed.
End Square.

(** Half the trace is at most the norm. *)
Lemma trace_norm F s : spectral_norm_2 F s -> a00 F + a11 F <= 2 * s.
Proof.
  intros [H _]. destruct F as [p q r t]. cbn.
  assert (U : forall x y, sqrt (x * x + y * y) >= Rabs x).
  { intros x y. rewrite <- sqrt_sq_abs. apply Rle_ge, sqrt_le_1_alt. nra. }
  pose proof (H (1, 0)) as H1. pose proof (H (0, 1)) as H2. unfold norm2, dot2, app22 in H1, H2. cbn in H1, H2.
  replace (sqrt (1 * 1 + 0 * 0)) with 1 in H1 by (symmetry; replace (_ + _) with 1 by ring; apply sqrt_1).
  replace (sqrt (0 * 0 + 1 * 1)) with 1 in H2 by (symmetry; replace (_ + _) with 1 by ring; apply sqrt_1).
  pose proof (U (p * 1 + q * 0) (r * 1 + t * 0)) as U1. pose proof (U (r * 0 + t * 1) (p * 0 + q * 1)) as U2. rewrite (Rplus_comm (_ * _) ((p * 0 + q * 1) * _)) in U2.
  pose proof (Rle_abs (p * 1 + q * 0)). pose proof (Rle_abs (r * 0 + t * 1)). lra.
Qed.

Section Saddle.
  Context {S P W : Type} (interpolate : S -> mat R -> S * res (mat R)) (eigvals : m33 R -> res (R * R * R))
    (mems : nat -> memory (T := R)) (write : W -> string -> list (xval R) -> mat R -> W * res unit)
    (I : (list R -> list R) -> S -> Prop) (HI : samples_field interpolate I).

  Theorem saddle (sv : solver R S P) (wd : world R S P W) w0 m A b gs id : a00 A + a11 A = 0 -> a00 A * a11 A - a01 A * a10 A <= 0 ->
    presents_fields I (s_source sv) (fun _ => on_rows2 (aff2 A b)) -> I w0 (w_interp wd) ->
    w_integrator wd = fresh m -> s_writer sv = false -> src_id (s_source sv) = Ok id ->
    src_particles (s_source sv) (w_source wd) = mk_particles Rops (layout2 gs) -> Forall axis_aligned2 gs ->
    (2 <= src_steps (s_source sv))%nat -> src_timestep (s_source sv) <> 0 ->
    exists x, 0 <= x /\ snd (run Rops interpolate eigvals mems write sv wd) = Ok (Some (map (fun _ => XVal x) gs)).
  Proof.
    intros Ht Hd HP Hs Hf Ew Eid Ep Ha Hn Hh.
    destruct (linear2 interpolate eigvals mems write I HI sv wd w0 m A b gs id HP Hs Hf Ew Eid Ep Ha Hn Hh) as (s & Hs' & ->).
    set (n := src_steps (s_source sv)) in *. set (h := src_timestep (s_source sv)) in *. clearbody n h.
    assert (Q : a11 A = - a00 A) by lra. rewrite Q in Hd. assert (T := square_traceless A Ht). set (nu := a00 A * a00 A + a01 A * a10 A) in *.
    assert (Hnu : 0 <= nu) by (unfold nu; lra).
    assert (HB : mul22 (scal22 h A) (scal22 h A) = scal22 (h * h * nu) id22).
    { transitivity (scal22 (h * h) (mul22 A A)); [|rewrite T]; clear; destruct A; apply m22_ext; cbn; ring. }
    destruct (propagator_comb A h (h * h * nu) ltac:(apply Rmult_le_pos; nra) HB m n) as (c & d & E & Hc). rewrite E in Hs'. apply trace_norm in Hs'.
    assert (T2 : a00 (comb c d (scal22 h A)) + a11 (comb c d (scal22 h A)) = 2 * c).
    { transitivity (2 * c + d * h * (a00 A + a11 A)); [clear; destruct A; cbn; ring|rewrite Ht; ring]. }
    rewrite T2 in Hs'. assert (1 <= s) by lra. assert (2 <= INR n) by (apply (le_INR 2); lia). assert (0 < Rabs h) by (apply Rabs_pos_lt; exact Hh).
    exists (ln s / ((INR n - 1) * Rabs h)). split.
    - apply Rmult_le_pos; [|left; apply Rinv_0_lt_compat, Rmult_lt_0_compat; lra]. rewrite <- ln_1. destruct (Rle_lt_or_eq_dec 1 s) as [L|<-]; [assumption| |lra]. left. apply ln_increasing; lra.
    - unfold ftle_value. destruct (Req_EM_T s 0); [lra|reflexivity].
  Qed.
End Saddle.
