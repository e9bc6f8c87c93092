(** AB2 in the flow (k x, - k y): C147. *)
From Coq Require Import Reals Lra Lia Psatz.
From Verif Require Import Base Num Particles Jacobian Ftle Integrate DataSource Solver SpecFtle SpecSeeds SpecIntegrate
  SpecSolver FtleFacts2 FtleFacts3 ParticleFacts JacobianFacts SolverFacts SolverField SolverLinear IntegrateMisc ConvergeCases FrameMain StrainCases RotationFacts StretchFacts.
Local Open Scope R_scope.

(** AB2 for y' = (z/h) y: the values after n and n+1 steps. *)
Fixpoint ab2_pair (z : R) (n : nat) : R * R :=
  match n with O => (1, 1 + z) | S n' => let (p, q) := ab2_pair z n' in (q, q + z * (3 / 2 * q - 1 / 2 * p)) end.

Lemma ab2_diag k h n : ab2_pair22 h (M22 k 0 0 (- k)) n =
  (diag (fst (ab2_pair (k * h) n)) (fst (ab2_pair (- (k * h)) n)), diag (snd (ab2_pair (k * h) n)) (snd (ab2_pair (- (k * h)) n))).
Proof.
  induction n as [|n IH]; [cbn; f_equal; apply m22_ext; cbn; ring|]. cbn [ab2_pair22 ab2_pair]. rewrite IH.
  destruct (ab2_pair (k * h) n) as [p q], (ab2_pair (- (k * h)) n) as [p' q']. cbn [fst snd]. f_equal. apply m22_ext; cbn; field.
Qed.

Lemma exp_ge_two z : 0 <= z -> 1 + 3 / 2 * z - / 2 * z * exp (- z) <= exp z.
Proof.
  intro Hz.
  assert (De : forall x, derivable_pt_lim (fun z => exp (- z)) x (- exp (- x))).
  { intro x. eapply lim_eq; [apply (derivable_pt_lim_comp (fun z => - z) exp x (-1) (exp (- x)))|ring]; [|apply derivable_pt_lim_exp].
    eapply lim_eq; [apply (derivable_pt_lim_opp (fun z => z) x 1), derivable_pt_lim_id|ring]. }
  assert (Dm : forall x, derivable_pt_lim (fun z => z * exp (- z)) x (exp (- x) - x * exp (- x))).
  { intro x. eapply lim_eq; [apply (derivable_pt_lim_mult (fun z => z) (fun z => exp (- z)) x 1 _ (derivable_pt_lim_id x) (De x))|ring]. }
  assert (L1 : forall z, 0 <= z -> 0 <= exp z + (- (3 / 2) * z ^ 0 + (/ 2 * exp (- z) + - / 2 * (z * exp (- z))))).
  { clear z Hz. intros z Hz.
    assert (G := grows (fun z => exp z + (- (3 / 2) * z ^ 0 + (/ 2 * exp (- z) + - / 2 * (z * exp (- z)))))
      (fun c => exp c + (- (3 / 2) * (INR 0 * c ^ pred 0) + (/ 2 * (- exp (- c)) + - / 2 * (exp (- c) - c * exp (- c))))) z Hz). cbv beta in G.
    replace (exp 0 + _) with 0 in G by (rewrite Ropp_0, exp_0; field). apply G.
    - intros c Hc. apply (derivable_pt_lim_plus exp); [apply derivable_pt_lim_exp|]. apply (derivable_pt_lim_plus (fun z => - (3 / 2) * z ^ 0)); [apply lim_mono|].
      apply (derivable_pt_lim_plus (fun z => / 2 * exp (- z))); [apply (derivable_pt_lim_scal (fun z => exp (- z))), De|apply (derivable_pt_lim_scal (fun z => z * exp (- z))), Dm].
    - intros c Hc. cbn [INR]. pose proof (exp_pos (- c)). assert (exp (- c) <= exp c) by (destruct (Req_dec c 0) as [->|]; [rewrite Ropp_0; lra|left; apply exp_increasing; lra]). nra. }
  assert (G := grows (fun z => exp z + (-1 * z ^ 0 + (- (3 / 2) * z ^ 1 + / 2 * (z * exp (- z)))))
    (fun c => exp c + (- (3 / 2) * c ^ 0 + (/ 2 * exp (- c) + - / 2 * (c * exp (- c))))) z Hz). cbv beta in G.
  enough (exp 0 + (-1 * 0 ^ 0 + (- (3 / 2) * 0 ^ 1 + / 2 * (0 * exp (- 0)))) <= exp z + (-1 * z ^ 0 + (- (3 / 2) * z ^ 1 + / 2 * (z * exp (- z))))) as Q.
  { rewrite exp_0 in Q. cbn [pow] in Q. lra. }
  apply G.
  - intros c Hc. apply (derivable_pt_lim_plus exp); [apply derivable_pt_lim_exp|].
    eapply lim_eq; [apply (derivable_pt_lim_plus (fun z => -1 * z ^ 0)); [apply lim_mono|];
      apply (derivable_pt_lim_plus (fun z => - (3 / 2) * z ^ 1)); [apply lim_mono|apply (derivable_pt_lim_scal (fun z => z * exp (- z))), Dm]|].
    cbn [INR pred pow]. field.
  - intros c Hc. apply L1. lra.
Qed.

(** Growth per step: at least that of Euler, at most that of the flow. *)
Lemma ab2_ratio z n : 0 <= z -> let (p, q) := ab2_pair z n in 0 < p /\ (1 + z) * p <= q <= exp z * p.
Proof.
  intro Hz. induction n as [|n IH]; cbn [ab2_pair].
  - pose proof (exp_ineq1_le z). lra.
  - destruct (ab2_pair z n) as [p q]. destruct IH as (P & L & U). assert (Q : 0 < q) by nra. split; [exact Q|].
    pose proof (exp_pos z) as E0. pose proof (exp_ge_two z Hz) as E. rewrite exp_Ropp in E. split.
    + assert (z * p <= z * q) by (apply Rmult_le_compat_l; [exact Hz|nra]). nra.
    + assert (K : / exp z * q <= p) by (apply (Rmult_le_reg_l (exp z)); [exact E0|]; rewrite <- Rmult_assoc, Rinv_r, Rmult_1_l by lra; exact U).
      apply (Rmult_le_compat_r q) in E; [|lra].
      assert (z * (/ exp z * q) <= z * p) by (apply Rmult_le_compat_l; assumption). nra.
Qed.
Lemma ab2_bounds z n : 0 <= z -> (1 + z) ^ n <= fst (ab2_pair z n) <= exp z ^ n.
Proof.
  intro Hz. enough ((1 + z) ^ n <= fst (ab2_pair z n) <= exp z ^ n /\ (1 + z) ^ S n <= snd (ab2_pair z n) <= exp z ^ S n) by tauto.
  induction n as [|n [_ IH]]; [cbn; pose proof (exp_ineq1_le z); lra|].
  pose proof (ab2_ratio z (S n) Hz) as H. cbn [ab2_pair] in *. destruct (ab2_pair z n) as [p q]. cbn [fst snd] in *. split; [exact IH|].
  destruct H as (P & L & U). change ((1 + z) ^ S (S n)) with ((1 + z) * (1 + z) ^ S n). change (exp z ^ S (S n)) with (exp z * exp z ^ S n). pose proof (exp_pos z). nra.
Qed.
(** The other direction shrinks, or grows less. *)
Lemma ab2_other z n : 0 <= z -> Rabs (fst (ab2_pair (- z) n)) <= fst (ab2_pair z n).
Proof.
  intro Hz. enough (Rabs (fst (ab2_pair (- z) n)) <= fst (ab2_pair z n) /\ Rabs (snd (ab2_pair (- z) n)) <= snd (ab2_pair z n)) by tauto.
  induction n as [|n [A B]]; [cbn; rewrite Rabs_R1; split; [lra|apply Rabs_le; lra]|].
  pose proof (ab2_ratio z n Hz) as H. cbn [ab2_pair]. destruct (ab2_pair z n) as [p q], (ab2_pair (- z) n) as [p' q']. cbn [fst snd] in *.
  split; [exact B|]. destruct H as (P & L & _). assert (ZP : 0 <= z * p) by nra.
  assert (A' : - p <= p' <= p) by (pose proof (Rabs_pos p'); destruct (abs_cases p'); split; lra). assert (B' : - q <= q' <= q) by (pose proof (Rabs_pos q'); destruct (abs_cases q'); split; lra).
  replace (q' + - z * (3 / 2 * q' - 1 / 2 * p')) with ((1 - 3 / 2 * z) * q' + / 2 * z * p') by field.
  replace (q + z * (3 / 2 * q - 1 / 2 * p)) with ((1 + 3 / 2 * z) * q - / 2 * z * p) by field.
  assert (- (/ 2 * z * p) <= / 2 * z * p' <= / 2 * z * p) by (split; nra).
  destruct (Rle_lt_dec (3 / 2 * z) 1).
  - assert (- ((1 - 3 / 2 * z) * q) <= (1 - 3 / 2 * z) * q' <= (1 - 3 / 2 * z) * q) by (split; nra). apply Rabs_le. split; nra.
  - assert (- ((3 / 2 * z - 1) * q) <= (1 - 3 / 2 * z) * q' <= (3 / 2 * z - 1) * q) by (split; nra). apply Rabs_le. split; nra.
Qed.

Lemma ab2_norm k h n s : spectral_norm_2 (propagator2 MAB2 (M22 k 0 0 (- k)) h n) s -> s = fst (ab2_pair (Rabs (k * h)) n).
Proof.
  intro H. cbn [propagator2] in H. rewrite ab2_diag in H. cbn [fst] in H. apply (spectral_norm_2_unique _ _ _ H). set (y := Rabs (k * h)).
  assert (A0 : 0 <= y) by apply Rabs_pos. pose proof (ab2_bounds y n A0) as [L _]. assert (0 < (1 + y) ^ n) by (apply pow_lt; lra).
  assert (Q : Rabs (fst (ab2_pair y n)) = fst (ab2_pair y n)) by (apply Rabs_pos_eq; lra). pose proof (ab2_other y n A0) as Q'.
  destruct (abs_cases (k * h)) as [E|E].
  - rewrite <- E. fold y. apply diag_norm; [lra|lra|exact Q'|left; exact Q].
  - replace (k * h) with (- y) by (unfold y; lra). rewrite Ropp_involutive. apply diag_norm; [lra|exact Q'|lra|right; exact Q].
Qed.

Section Bounds.
  Context {S P W : Type} (interpolate : S -> mat R -> S * res (mat R)) (eigvals : m33 R -> res (R * R * R))
    (mems : nat -> memory (T := R)) (write : W -> string -> list (xval R) -> mat R -> W * res unit)
    (I : (list R -> list R) -> S -> Prop) (HI : samples_field interpolate I).

  Lemma strain_ab2 (sv : solver R S P) (wd : world R S P W) w0 k b gs id :
    presents_fields I (s_source sv) (fun _ => on_rows2 (aff2 (M22 k 0 0 (- k)) b)) -> I w0 (w_interp wd) ->
    w_integrator wd = fresh MAB2 -> s_writer sv = false -> src_id (s_source sv) = Ok id ->
    src_particles (s_source sv) (w_source wd) = mk_particles Rops (layout2 gs) -> Forall axis_aligned2 gs ->
    (2 <= src_steps (s_source sv))%nat -> src_timestep (s_source sv) <> 0 ->
    let n := src_steps (s_source sv) in let h := src_timestep (s_source sv) in
    exists x, snd (run Rops interpolate eigvals mems write sv wd) = Ok (Some (map (fun _ => XVal x) gs)) /\
      INR n / (INR n - 1) * (Rabs k - k ^ 2 * Rabs h / 2) <= x <= INR n / (INR n - 1) * Rabs k.
  Proof.
    intros HP Hs Hf Ew Eid Ep Ha Hn Hh n h.
    destruct (linear2 interpolate eigvals mems write I HI sv wd w0 MAB2 (M22 k 0 0 (- k)) b gs id HP Hs Hf Ew Eid Ep Ha Hn Hh) as (s & Hs' & E).
    fold n h in Hs', E, Hn, Hh. rewrite E. clear E HP Ew Eid Ep. clearbody n h. apply ab2_norm in Hs'.
    assert (N : 2 <= INR n) by (apply (le_INR 2); lia). assert (A : 0 < Rabs h) by (apply Rabs_pos_lt; exact Hh).
    pose proof (Rabs_pos (k * h)) as Y. destruct (ab2_bounds (Rabs (k * h)) n Y) as [L U]. rewrite <- Hs' in L, U.
    assert (P1 : 0 < (1 + Rabs (k * h)) ^ n) by (apply pow_lt; lra). pose proof (ln_euler _ Y) as [EL _].
    assert (LL : INR n * ln (1 + Rabs (k * h)) <= ln s) by (rewrite <- ln_pow by lra; destruct L as [L|L]; [left; apply ln_increasing; assumption|rewrite L; lra]).
    assert (UU : ln s <= INR n * Rabs (k * h)).
    { rewrite <- (ln_exp (Rabs (k * h))), <- ln_pow by apply exp_pos. destruct U as [U|U]; [left; apply ln_increasing; lra|rewrite U; lra]. }
    exists (ln s / ((INR n - 1) * Rabs h)). split; [unfold ftle_value; destruct (Req_EM_T s 0); [lra|reflexivity]|].
    assert (D : 0 < (INR n - 1) * Rabs h) by nra.
    assert (E1 : INR n / (INR n - 1) * (Rabs k - k ^ 2 * Rabs h / 2) = INR n * (Rabs (k * h) - Rabs (k * h) ^ 2 / 2) / ((INR n - 1) * Rabs h)).
    { rewrite Rabs_mult. replace (k ^ 2) with (Rabs k ^ 2) by apply pow2_abs. field. lra. }
    assert (E2 : INR n / (INR n - 1) * Rabs k = INR n * Rabs (k * h) / ((INR n - 1) * Rabs h)) by (rewrite Rabs_mult; field; lra).
    rewrite E1, E2. split; apply Rmult_le_compat_r; try (left; apply Rinv_0_lt_compat; exact D); nra.
  Qed.
End Bounds.
