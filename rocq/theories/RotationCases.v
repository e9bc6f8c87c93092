(** Concrete runs for C139 and C140. *)
From Coq Require Import Reals Lra Lia.
From Verif Require Import Base Num Particles Jacobian Ftle Integrate DataSource Solver SpecFtle SpecSeeds SpecIntegrate
  SpecSolver SpecOrder SpecConverge SpecRotation ParticleFacts SolverLinear IntegrateMisc ConvergeCases FrameMain StrainCases RotationFacts.
Local Open Scope R_scope.

(** A run of two steps of size 1 in the rotation at one radian per unit of time. *)
Definition spun : solver R (list R -> list R) unit := lone (on_rows2 (aff2 (spin 1) (0, 0))) 1 2 (mk_particles Rops (layout2 [cross2])).

Lemma spun_euler eigvals mems : snd (run Rops (@field_interp R) eigvals mems still spun (start MEuler tt)) = Ok (Some [XVal (ln 2)]).
Proof.
  rewrite (spin_euler (@field_interp R) eigvals mems still _ field_interp_ok spun (start MEuler tt) (fun x => x) (0, 0) [cross2] "a"%string
    eq_refl eq_refl eq_refl eq_refl ltac:(constructor; [exact cross_aligned2|constructor]) ltac:(cbn; lia) R1_neq_R0 1 (steady_ok _ _ _ _) eq_refl).
  cbn [map]. do 4 f_equal. cbn [s_source spun lone steady src_steps src_timestep]. rewrite Rabs_R1.
  replace (1 + (1 * 1) ^ 2) with 2 by ring. cbn [INR]. field.
Qed.

Lemma spun_rk4 eigvals mems : snd (run Rops (@field_interp R) eigvals mems still spun (start MRK4 tt)) = Ok (Some [XVal (ln (569 / 576))]).
Proof.
  rewrite (spin_rk4 (@field_interp R) eigvals mems still _ field_interp_ok spun (start MRK4 tt) (fun x => x) (0, 0) [cross2] "a"%string
    eq_refl eq_refl eq_refl eq_refl ltac:(constructor; [exact cross_aligned2|constructor]) ltac:(cbn; lia) R1_neq_R0 1 (steady_ok _ _ _ _) eq_refl).
  cbn [map]. do 4 f_equal. cbn [s_source spun lone steady src_steps src_timestep]. rewrite Rabs_R1.
  unfold rk4_square. replace (1 - (1 * 1) ^ 6 / 72 + (1 * 1) ^ 8 / 576) with (569 / 576) by field. cbn [INR]. field.
Qed.

Lemma ln2_pos : 0 < ln 2.
Proof. rewrite <- ln_1. apply ln_increasing; lra. Qed.
Lemma ln_below : ln (569 / 576) < 0.
Proof. rewrite <- ln_1. apply ln_increasing; lra. Qed.

Lemma spun_refutes : exists w h n gs, Forall axis_aligned2 gs /\ (2 <= n)%nat /\ h <> 0 /\
  forall eigvals mems, exists x, x <> 0 /\
    snd (run Rops (@field_interp R) eigvals mems still (lone (on_rows2 (aff2 (spin w) (0, 0))) h n (mk_particles Rops (layout2 gs))) (start MEuler tt)) = Ok (Some [XVal x]).
Proof.
  exists 1, 1, 2%nat, [cross2]. split; [constructor; [exact cross_aligned2|constructor]|]. split; [lia|]. split; [lra|]. intros eigvals mems.
  exists (ln 2). split; [pose proof ln2_pos; lra|apply spun_euler].
Qed.

Lemma spun_negative : exists A h n gs, a00 A + a11 A = 0 /\ Forall axis_aligned2 gs /\ (2 <= n)%nat /\ h <> 0 /\
  forall eigvals mems, exists x, x < 0 /\
    snd (run Rops (@field_interp R) eigvals mems still (lone (on_rows2 (aff2 A (0, 0))) h n (mk_particles Rops (layout2 gs))) (start MRK4 tt)) = Ok (Some [XVal x]).
Proof.
  exists (spin 1), 1, 2%nat, [cross2]. split; [cbn; ring|]. split; [constructor; [exact cross_aligned2|constructor]|]. split; [lia|]. split; [lra|]. intros eigvals mems.
  exists (ln (569 / 576)). split; [exact ln_below|apply spun_rk4].
Qed.

(** The statements with bounds. *)
Section Bounds.
  Context {S P W : Type} (interpolate : S -> mat R -> S * res (mat R)) (eigvals : m33 R -> res (R * R * R))
    (mems : nat -> memory (T := R)) (write : W -> string -> list (xval R) -> mat R -> W * res unit)
    (I : (list R -> list R) -> S -> Prop) (HI : samples_field interpolate I).

  Lemma rotation_euler (sv : solver R S P) (wd : world R S P W) w0 w b gs id :
    presents_fields I (s_source sv) (fun _ => on_rows2 (aff2 (spin w) b)) -> I w0 (w_interp wd) ->
    w_integrator wd = fresh MEuler -> s_writer sv = false -> src_id (s_source sv) = Ok id ->
    src_particles (s_source sv) (w_source wd) = mk_particles Rops (layout2 gs) -> Forall axis_aligned2 gs ->
    (2 <= src_steps (s_source sv))%nat -> src_timestep (s_source sv) <> 0 -> w <> 0 ->
    let n := src_steps (s_source sv) in let h := src_timestep (s_source sv) in
    exists x, snd (run Rops interpolate eigvals mems write sv wd) = Ok (Some (map (fun _ => XVal x) gs)) /\
      x = INR n / (INR n - 1) * (ln (1 + (w * h) ^ 2) / (2 * Rabs h)) /\ 0 < x <= INR n / (INR n - 1) * (w ^ 2 * Rabs h / 2).
  Proof.
    intros HP Hs Hf Ew Eid Ep Ha Hn Hh Hw n h. eexists. split; [exact (spin_euler interpolate eigvals mems write I HI sv wd w0 b gs id Hs Ew Eid Ep Ha Hn Hh w HP Hf)|].
    split; [reflexivity|]. fold n h. assert (2 <= INR n) by (apply (le_INR 2); exact Hn). assert (A : 0 < Rabs h) by (apply Rabs_pos_lt; exact Hh).
    assert (Q : 0 < INR n / (INR n - 1)) by (apply Rdiv_lt_0_compat; lra).
    destruct (euler_floor (w * h) ltac:(apply Rmult_integral_contrapositive; split; assumption)) as [L U]. split.
    - apply Rmult_lt_0_compat; [exact Q|]. apply Rdiv_lt_0_compat; lra.
    - apply Rmult_le_compat_l; [lra|]. apply Rmult_le_reg_r with (2 * Rabs h); [lra|]. unfold Rdiv. rewrite Rmult_assoc, Rinv_l, Rmult_1_r by lra.
      apply Rle_trans with (1 := U). right. transitivity (w ^ 2 * (Rabs h * Rabs h)); [|field]. rewrite <- Rabs_mult, Rabs_pos_eq; [ring|nra].
  Qed.

  Lemma rotation_rk4 (sv : solver R S P) (wd : world R S P W) w0 w b gs id :
    presents_fields I (s_source sv) (fun _ => on_rows2 (aff2 (spin w) b)) -> I w0 (w_interp wd) ->
    w_integrator wd = fresh MRK4 -> s_writer sv = false -> src_id (s_source sv) = Ok id ->
    src_particles (s_source sv) (w_source wd) = mk_particles Rops (layout2 gs) -> Forall axis_aligned2 gs ->
    (2 <= src_steps (s_source sv))%nat -> src_timestep (s_source sv) <> 0 -> w <> 0 -> Rabs (w * src_timestep (s_source sv)) <= 1 ->
    let n := src_steps (s_source sv) in let h := src_timestep (s_source sv) in
    exists x, snd (run Rops interpolate eigvals mems write sv wd) = Ok (Some (map (fun _ => XVal x) gs)) /\
      x = INR n / (INR n - 1) * (ln (1 - (w * h) ^ 6 / 72 + (w * h) ^ 8 / 576) / (2 * Rabs h)) /\
      - (INR n / (INR n - 1) * ((w * h) ^ 6 / (142 * Rabs h))) <= x < 0.
  Proof.
    intros HP Hs Hf Ew Eid Ep Ha Hn Hh Hw Hz n h. eexists. split; [exact (spin_rk4 interpolate eigvals mems write I HI sv wd w0 b gs id Hs Ew Eid Ep Ha Hn Hh w HP Hf)|].
    split; [reflexivity|]. fold n h. assert (2 <= INR n) by (apply (le_INR 2); exact Hn). assert (A : 0 < Rabs h) by (apply Rabs_pos_lt; exact Hh).
    assert (Q : 0 < INR n / (INR n - 1)) by (apply Rdiv_lt_0_compat; lra).
    destruct (rk4_floor (w * h) Hz ltac:(apply Rmult_integral_contrapositive; split; assumption)) as [L U]. split.
    - rewrite Ropp_mult_distr_r. apply Rmult_le_compat_l; [lra|]. apply Rmult_le_reg_r with (2 * Rabs h); [lra|]. unfold Rdiv at 2. rewrite (Rmult_assoc (ln _)), Rinv_l, Rmult_1_r by lra.
      apply Rle_trans with (2 := L). right. field. lra.
    - assert (0 < INR n / (INR n - 1) * (- ln (rk4_square (w * h)) / (2 * Rabs h))) by (apply Rmult_lt_0_compat; [exact Q|]; apply Rdiv_lt_0_compat; lra).
      unfold Rdiv in *. rewrite <- Ropp_mult_distr_l, <- Ropp_mult_distr_r in H0. lra.
  Qed.

  Lemma incompressible (sv : solver R S P) (wd : world R S P W) w0 A b gs id : a00 A + a11 A = 0 ->
    presents_fields I (s_source sv) (fun _ => on_rows2 (aff2 A b)) -> I w0 (w_interp wd) ->
    w_integrator wd = fresh MEuler -> s_writer sv = false -> src_id (s_source sv) = Ok id ->
    src_particles (s_source sv) (w_source wd) = mk_particles Rops (layout2 gs) -> Forall axis_aligned2 gs ->
    (2 <= src_steps (s_source sv))%nat -> src_timestep (s_source sv) <> 0 ->
    exists x, 0 <= x /\ snd (run Rops interpolate eigvals mems write sv wd) = Ok (Some (map (fun _ => XVal x) gs)).
  Proof. intros Ht HP Hs Hf Ew Eid Ep Ha Hn Hh. eapply incompressible_euler; eassumption. Qed.
End Bounds.
