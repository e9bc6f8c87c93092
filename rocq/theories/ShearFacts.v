(** Runs in shear flow: C146. *)
From Coq Require Import Reals Lra Lia.
From Verif Require Import Base Num Particles Jacobian Ftle Integrate DataSource Solver SpecFtle SpecSeeds SpecIntegrate
  SpecSolver FtleFacts2 FtleFacts3 ParticleFacts JacobianFacts SolverFacts SolverField SolverLinear IntegrateMisc ConvergeCases FrameMain StrainCases.
Local Open Scope R_scope.

Definition none22 : m22 R := M22 0 0 0 0.
Definition plus22 (t : R) (A : m22 R) : m22 R := add22 id22 (scal22 t A).

Lemma plus_mul22 s t A : mul22 (plus22 s A) (plus22 t A) = add22 (plus22 (s + t) A) (scal22 (s * t) (mul22 A A)).
Proof. destruct A. apply m22_ext; cbn; ring. Qed.
Lemma by_plus22 t A : mul22 A (plus22 t A) = add22 A (scal22 t (mul22 A A)).
Proof. destruct A. apply m22_ext; cbn; ring. Qed.
Lemma none_add22 t M : add22 M (scal22 t none22) = M.
Proof. destruct M. apply m22_ext; cbn; ring. Qed.
Lemma plus_zero22 A : plus22 0 A = id22.
Proof. destruct A. apply m22_ext; cbn; ring. Qed.

Lemma plus_pow22 h A n : mul22 A A = none22 -> pow22 (plus22 h A) n = plus22 (INR n * h) A.
Proof.
  intro Z. induction n as [|n IH]; [cbn [pow22 INR]; rewrite Rmult_0_l, plus_zero22; reflexivity|].
  cbn [pow22]. rewrite IH, plus_mul22, Z, none_add22, S_INR. f_equal. ring.
Qed.
Lemma shear_taylor22 h A : mul22 A A = none22 -> taylor22 h A = plus22 h A.
Proof.
  intro Z. assert (P2 : pow22 A 2 = none22).
  { cbn [pow22]. rewrite <- Z. destruct A. apply m22_ext; cbn; ring. }
  assert (P3 : pow22 A 3 = none22) by (change (pow22 A 3) with (mul22 A (pow22 A 2)); rewrite P2; destruct A; apply m22_ext; cbn; ring).
  assert (P4 : pow22 A 4 = none22) by (change (pow22 A 4) with (mul22 A (pow22 A 3)); rewrite P3; destruct A; apply m22_ext; cbn; ring).
  unfold taylor22, plus22. rewrite P2, P3, P4. clear Z P2 P3 P4. destruct A. apply m22_ext; cbn; ring.
Qed.
Lemma shear_ab2 h A n : mul22 A A = none22 -> ab2_pair22 h A n = (plus22 (INR n * h) A, plus22 (INR (S n) * h) A).
Proof.
  intro Z. induction n as [|n IH].
  - cbn [ab2_pair22 INR]. rewrite Rmult_0_l, plus_zero22, Rmult_1_l. reflexivity.
  - cbn [ab2_pair22]. rewrite IH. f_equal. rewrite !by_plus22, Z, !none_add22, !S_INR. clear. destruct A. apply m22_ext; cbn; field.
Qed.
Lemma shear_propagator22 m h A n : mul22 A A = none22 -> propagator2 m A h n = plus22 (INR n * h) A.
Proof.
  intro Z. destruct m; cbn [propagator2].
  all: first [change (add22 id22 (scal22 h A)) with (plus22 h A); apply plus_pow22; exact Z
             |rewrite shear_taylor22 by exact Z; apply plus_pow22; exact Z|rewrite shear_ab2 by exact Z; reflexivity].
Qed.

Definition none33 : m33 R := M33 0 0 0 0 0 0 0 0 0.
Definition plus33 (t : R) (A : m33 R) : m33 R := add33 id33 (scal33 t A).

Lemma plus_mul33 s t A : mul33 (plus33 s A) (plus33 t A) = add33 (plus33 (s + t) A) (scal33 (s * t) (mul33 A A)).
Proof. destruct A. apply m33_ext; cbn; ring. Qed.
Lemma by_plus33 t A : mul33 A (plus33 t A) = add33 A (scal33 t (mul33 A A)).
Proof. destruct A. apply m33_ext; cbn; ring. Qed.
Lemma none_add33 t M : add33 M (scal33 t none33) = M.
Proof. destruct M. apply m33_ext; cbn; ring. Qed.
Lemma plus_zero33 A : plus33 0 A = id33.
Proof. destruct A. apply m33_ext; cbn; ring. Qed.

Lemma plus_pow33 h A n : mul33 A A = none33 -> pow33 (plus33 h A) n = plus33 (INR n * h) A.
Proof.
  intro Z. induction n as [|n IH]; [cbn [pow33 INR]; rewrite Rmult_0_l, plus_zero33; reflexivity|].
  cbn [pow33]. rewrite IH, plus_mul33, Z, none_add33, S_INR. f_equal. ring.
Qed.
Lemma shear_taylor33 h A : mul33 A A = none33 -> taylor33 h A = plus33 h A.
Proof.
  intro Z. assert (P2 : pow33 A 2 = none33).
  { cbn [pow33]. rewrite <- Z. destruct A. apply m33_ext; cbn; ring. }
  assert (P3 : pow33 A 3 = none33) by (change (pow33 A 3) with (mul33 A (pow33 A 2)); rewrite P2; destruct A; apply m33_ext; cbn; ring).
  assert (P4 : pow33 A 4 = none33) by (change (pow33 A 4) with (mul33 A (pow33 A 3)); rewrite P3; destruct A; apply m33_ext; cbn; ring).
  unfold taylor33, plus33. rewrite P2, P3, P4. clear Z P2 P3 P4. destruct A. apply m33_ext; cbn; ring.
Qed.
Lemma shear_ab2_3 h A n : mul33 A A = none33 -> ab2_pair33 h A n = (plus33 (INR n * h) A, plus33 (INR (S n) * h) A).
Proof.
  intro Z. induction n as [|n IH].
  - cbn [ab2_pair33 INR]. rewrite Rmult_0_l, plus_zero33, Rmult_1_l. reflexivity.
  - cbn [ab2_pair33]. rewrite IH. f_equal. rewrite !by_plus33, Z, !none_add33, !S_INR. clear. destruct A. apply m33_ext; cbn; field.
Qed.
Lemma shear_propagator33 m h A n : mul33 A A = none33 -> propagator3 m A h n = plus33 (INR n * h) A.
Proof.
  intro Z. destruct m; cbn [propagator3].
  all: first [change (add33 id33 (scal33 h A)) with (plus33 h A); apply plus_pow33; exact Z
             |rewrite shear_taylor33 by exact Z; apply plus_pow33; exact Z|rewrite shear_ab2_3 by exact Z; reflexivity].
Qed.

(** The largest stretching in the shear by g. *)
Lemma shear_norm g s : spectral_norm_2 (M22 1 g 0 1) s -> s = (Rabs g + sqrt (g ^ 2 + 4)) / 2.
Proof.
  intro H. rewrite (spectral_norm_2_unique _ _ _ H (spectral_norm_lam _)). clear H s.
  assert (Q : 0 <= g ^ 2) by nra. pose proof (Rabs_pos g) as P. set (r := sqrt (g ^ 2 + 4)). assert (R : r * r = g ^ 2 + 4) by (apply sqrt_sqrt; lra).
  assert (0 <= r) by apply sqrt_pos. assert (E : Rabs g * Rabs g = g ^ 2) by (rewrite <- Rabs_mult, Rabs_pos_eq by nra; ring).
  unfold lam. cbn.
  replace (sqrt (_ * _ + _)) with (Rabs g * r).
  - replace (sqrt _) with (sqrt ((Rabs g + r) / 2 * ((Rabs g + r) / 2))); [apply sqrt_square; lra|]. f_equal.
    replace ((Rabs g + r) / 2 * ((Rabs g + r) / 2)) with ((Rabs g * Rabs g + 2 * (Rabs g * r) + r * r) / 4) by field. rewrite E, R. field.
  - symmetry. replace (_ + _) with (Rabs g * r * (Rabs g * r)); [apply sqrt_square, Rmult_le_pos; assumption|].
    replace (Rabs g * r * (Rabs g * r)) with (Rabs g * Rabs g * (r * r)) by ring. rewrite E, R. ring.
Qed.

Section Shear.
  Context {S P W : Type} (interpolate : S -> mat R -> S * res (mat R)) (eigvals : m33 R -> res (R * R * R))
    (mems : nat -> memory (T := R)) (write : W -> string -> list (xval R) -> mat R -> W * res unit)
    (I : (list R -> list R) -> S -> Prop) (HI : samples_field interpolate I).

  Theorem shear2 (sv : solver R S P) (wd : world R S P W) w0 m A b gs id : mul22 A A = M22 0 0 0 0 ->
    presents_fields I (s_source sv) (fun _ => on_rows2 (aff2 A b)) -> I w0 (w_interp wd) ->
    w_integrator wd = fresh m -> s_writer sv = false -> src_id (s_source sv) = Ok id ->
    src_particles (s_source sv) (w_source wd) = mk_particles Rops (layout2 gs) -> Forall axis_aligned2 gs ->
    (2 <= src_steps (s_source sv))%nat -> src_timestep (s_source sv) <> 0 ->
    let n := src_steps (s_source sv) in let h := src_timestep (s_source sv) in
    exists s, spectral_norm_2 (add22 id22 (scal22 (INR n * h) A)) s /\
      snd (run Rops interpolate eigvals mems write sv wd) = Ok (Some (map (fun _ => ftle_value s ((INR n - 1) * Rabs h)) gs)).
  Proof.
    intros Z HP Hs Hf Ew Eid Ep Ha Hn Hh n h.
    destruct (linear2 interpolate eigvals mems write I HI sv wd w0 m A b gs id HP Hs Hf Ew Eid Ep Ha Hn Hh) as (s & Hs' & E).
    exists s. split; [|exact E]. rewrite shear_propagator22 in Hs' by exact Z. exact Hs'.
  Qed.

  Theorem shear3 (sv : solver R S P) (wd : world R S P W) w0 m A b gs id : eigvals_ok eigvals -> mul33 A A = M33 0 0 0 0 0 0 0 0 0 ->
    presents_fields I (s_source sv) (fun _ => on_rows3 (aff3 A b)) -> I w0 (w_interp wd) ->
    w_integrator wd = fresh m -> s_writer sv = false -> src_id (s_source sv) = Ok id ->
    src_particles (s_source sv) (w_source wd) = mk_particles Rops (layout3 gs) -> Forall axis_aligned3 gs ->
    (2 <= src_steps (s_source sv))%nat -> src_timestep (s_source sv) <> 0 ->
    let n := src_steps (s_source sv) in let h := src_timestep (s_source sv) in
    exists s, spectral_norm_3 (add33 id33 (scal33 (INR n * h) A)) s /\
      snd (run Rops interpolate eigvals mems write sv wd) = Ok (Some (map (fun _ => ftle_value s ((INR n - 1) * Rabs h)) gs)).
  Proof.
    intros He Z HP Hs Hf Ew Eid Ep Ha Hn Hh n h.
    destruct (linear3 interpolate eigvals mems write I HI sv wd w0 m A b gs id He HP Hs Hf Ew Eid Ep Ha Hn Hh) as (s & Hs' & E).
    exists s. split; [|exact E]. rewrite shear_propagator33 in Hs' by exact Z. exact Hs'.
  Qed.

  Theorem shear_value (sv : solver R S P) (wd : world R S P W) w0 m k b gs id :
    presents_fields I (s_source sv) (fun _ => on_rows2 (aff2 (M22 0 k 0 0) b)) -> I w0 (w_interp wd) ->
    w_integrator wd = fresh m -> s_writer sv = false -> src_id (s_source sv) = Ok id ->
    src_particles (s_source sv) (w_source wd) = mk_particles Rops (layout2 gs) -> Forall axis_aligned2 gs ->
    (2 <= src_steps (s_source sv))%nat -> src_timestep (s_source sv) <> 0 ->
    let n := src_steps (s_source sv) in let h := src_timestep (s_source sv) in let g := k * (INR n * h) in
    snd (run Rops interpolate eigvals mems write sv wd) =
      Ok (Some (map (fun _ => XVal (ln ((Rabs g + sqrt (g ^ 2 + 4)) / 2) / ((INR n - 1) * Rabs h))) gs)).
  Proof.
    intros HP Hs Hf Ew Eid Ep Ha Hn Hh n h g.
    destruct (shear2 sv wd w0 m (M22 0 k 0 0) b gs id) as (s & Hs' & E); try assumption; [apply m22_ext; cbn; ring|].
    rewrite E. f_equal. f_equal. apply map_ext. intros _.
    replace (add22 _ _) with (M22 1 g 0 1) in Hs' by (unfold g, n, h; apply m22_ext; cbn; ring). apply shear_norm in Hs'. subst s.
    unfold ftle_value. pose proof (Rabs_pos g). assert (0 < sqrt (g ^ 2 + 4)) by (apply sqrt_lt_R0; nra).
    destruct (Req_EM_T _ 0) as [Q|_]; [lra|reflexivity].
  Qed.
End Shear.

(** Two steps of size 1 in the flow (y, 0). *)
Definition sheared : solver R (list R -> list R) unit := lone (on_rows2 (aff2 (M22 0 1 0 0) (0, 0))) 1 2 (mk_particles Rops (layout2 [cross2])).
Lemma sheared_case eigvals mems m :
  snd (run Rops (@field_interp R) eigvals mems still sheared (start m tt)) = Ok (Some [XVal (ln (1 + sqrt 2))]).
Proof.
  rewrite (shear_value (@field_interp R) eigvals mems still _ field_interp_ok sheared (start m tt) (fun x => x) m 1 (0, 0) [cross2] "a"%string
    (steady_ok _ _ _ _) eq_refl eq_refl eq_refl eq_refl eq_refl ltac:(constructor; [exact cross_aligned2|constructor]) ltac:(cbn; lia) R1_neq_R0).
  cbn [map]. do 4 f_equal. cbn [s_source sheared lone steady src_steps src_timestep INR]. rewrite Rabs_R1.
  replace (1 * ((1 + 1) * 1)) with 2 by ring. rewrite (Rabs_pos_eq 2) by lra.
  replace (sqrt (2 ^ 2 + 4)) with (2 * sqrt 2).
  - replace ((2 + 2 * sqrt 2) / 2) with (1 + sqrt 2) by field. field.
  - symmetry. replace (2 ^ 2 + 4) with (2 * sqrt 2 * (2 * sqrt 2)).
    + apply sqrt_square. pose proof (sqrt_pos 2). lra.
    + replace (2 * sqrt 2 * (2 * sqrt 2)) with (4 * (sqrt 2 * sqrt 2)) by ring. rewrite sqrt_sqrt by lra. ring.
Qed.
