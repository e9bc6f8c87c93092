(** AB2 in the flow (k0 x, k1 y, k2 z): C147 in 3-D. *)
From Coq Require Import Reals Lra Lia Psatz.
From Verif Require Import Base Num Particles Jacobian Ftle Integrate DataSource Solver SpecFtle SpecSeeds SpecIntegrate
  SpecSolver FtleFacts2 FtleFacts3 ParticleFacts JacobianFacts SolverFacts SolverField SolverLinear IntegrateMisc ConvergeCases FrameMain StrainCases RotationFacts StretchFacts StretchAB2 StretchFacts3.
Local Open Scope R_scope.

Lemma ab2_diag3 k0 k1 k2 h n : ab2_pair33 h (M33 k0 0 0 0 k1 0 0 0 k2) n =
  (diag3 (fst (ab2_pair (k0 * h) n)) (fst (ab2_pair (k1 * h) n)) (fst (ab2_pair (k2 * h) n)),
   diag3 (snd (ab2_pair (k0 * h) n)) (snd (ab2_pair (k1 * h) n)) (snd (ab2_pair (k2 * h) n))).
Proof.
  induction n as [|n IH]; [cbn; f_equal; apply m33_ext; cbn; ring|]. cbn [ab2_pair33 ab2_pair]. rewrite IH.
  destruct (ab2_pair (k0 * h) n) as [p q], (ab2_pair (k1 * h) n) as [p' q'], (ab2_pair (k2 * h) n) as [p'' q'']. cbn [fst snd]. f_equal. apply m33_ext; cbn; field.
Qed.

(** A decay that the step resolves stays bounded. *)
Lemma ab2_decay y n : -1 <= y <= 0 -> let (p, q) := ab2_pair y n in -1 <= p <= 1 /\ -1 <= q <= 1.
Proof.
  intro Hy. induction n as [|n IH]; cbn [ab2_pair]; [lra|]. destruct (ab2_pair y n) as [p q]. destruct IH as [P Q]. split; [exact Q|].
  replace (q + y * (3 / 2 * q - 1 / 2 * p)) with ((1 + 3 / 2 * y) * q + (- y / 2) * p) by field.
  assert (- (- y / 2) <= (- y / 2) * p <= - y / 2) by (split; nra). destruct (Rle_lt_dec (- 2 / 3) y).
  - assert (- (1 + 3 / 2 * y) <= (1 + 3 / 2 * y) * q <= 1 + 3 / 2 * y) by (split; nra). lra.
  - assert (1 + 3 / 2 * y <= (1 + 3 / 2 * y) * q <= - (1 + 3 / 2 * y)) by (split; nra). lra.
Qed.
(** The faster growth stays ahead. *)
Lemma ab2_faster y z n : 0 <= y <= z -> let (p, q) := ab2_pair y n in let (p', q') := ab2_pair z n in 0 < p <= p' /\ 0 <= q - p <= q' - p'.
Proof.
  intro H. induction n as [|n IH]; cbn [ab2_pair]; [lra|]. destruct (ab2_pair y n) as [p q], (ab2_pair z n) as [p' q']. destruct IH as [P D]. split; [lra|].
  replace (q + y * (3 / 2 * q - 1 / 2 * p) - q) with (y * (q + (q - p) / 2)) by field. replace (q' + z * (3 / 2 * q' - 1 / 2 * p') - q') with (z * (q' + (q' - p') / 2)) by field.
  split; [apply Rmult_le_pos; lra|apply Rmult_le_compat; lra].
Qed.
Lemma ab2_ahead y z n : -1 <= y <= z -> 0 <= z -> Rabs (fst (ab2_pair y n)) <= fst (ab2_pair z n).
Proof.
  intros Hy Hz. destruct (Rle_dec y 0) as [N|N].
  - pose proof (ab2_decay y n ltac:(lra)) as D. pose proof (proj1 (ab2_bounds z n Hz)) as B. assert (1 <= (1 + z) ^ n) by (apply pow_R1_Rle; lra).
    destruct (ab2_pair y n) as [p q]. cbn [fst] in *. apply Rabs_le. lra.
  - pose proof (ab2_faster y z n ltac:(lra)) as D. destruct (ab2_pair y n) as [p q], (ab2_pair z n) as [p' q']. cbn [fst] in *. rewrite Rabs_pos_eq; lra.
Qed.

Section Bounds.
  Context {S P W : Type} (interpolate : S -> mat R -> S * res (mat R)) (eigvals : m33 R -> res (R * R * R))
    (mems : nat -> memory (T := R)) (write : W -> string -> list (xval R) -> mat R -> W * res unit)
    (I : (list R -> list R) -> S -> Prop) (HI : samples_field interpolate I) (He : eigvals_ok eigvals).

  Lemma strain3_ab2 (sv : solver R S P) (wd : world R S P W) w0 k0 k1 k2 k b gs id :
    presents_fields I (s_source sv) (fun _ => on_rows3 (aff3 (M33 k0 0 0 0 k1 0 0 0 k2) b)) -> I w0 (w_interp wd) ->
    w_integrator wd = fresh MAB2 -> s_writer sv = false -> src_id (s_source sv) = Ok id ->
    src_particles (s_source sv) (w_source wd) = mk_particles Rops (layout3 gs) -> Forall axis_aligned3 gs ->
    (2 <= src_steps (s_source sv))%nat -> src_timestep (s_source sv) <> 0 ->
    let n := src_steps (s_source sv) in let h := src_timestep (s_source sv) in
    0 <= k -> (forall r, In r [k0; k1; k2] -> -1 <= r * h <= k * Rabs h) -> (exists r, In r [k0; k1; k2] /\ r * h = k * Rabs h) ->
    exists x, snd (run Rops interpolate eigvals mems write sv wd) = Ok (Some (map (fun _ => XVal x) gs)) /\
      INR n / (INR n - 1) * (k - k ^ 2 * Rabs h / 2) <= x <= INR n / (INR n - 1) * k.
  Proof.
    intros HP Hs Hf Ew Eid Ep Ha Hn Hh n h Hk Hr Hm.
    destruct (linear3 interpolate eigvals mems write I HI sv wd w0 MAB2 _ b gs id He HP Hs Hf Ew Eid Ep Ha Hn Hh) as (s & Hs' & ->).
    fold h n in Hs' |- *. fold n in Hn. fold h in Hh. clearbody n h. cbn [propagator3] in Hs'. rewrite ab2_diag3 in Hs'. cbn [fst] in Hs'.
    set (z := k * Rabs h) in *. assert (Z : 0 <= z) by (apply Rmult_le_pos; [exact Hk|apply Rabs_pos]).
    destruct (ab2_bounds z n Z) as [L U]. assert (P1 : 0 < (1 + z) ^ n) by (apply pow_lt; lra).
    assert (A0 : Rabs (fst (ab2_pair z n)) = fst (ab2_pair z n)) by (apply Rabs_pos_eq; lra).
    assert (E : s = fst (ab2_pair z n)).
    { apply (spectral_norm_3_unique _ _ _ Hs'). apply diag3_norm; [lra|apply ab2_ahead; [apply Hr; cbn; auto|exact Z]..|].
      destruct Hm as (r & [<-|[<-|[<-|[]]]] & ->); auto. }
    rewrite <- E in L, U. clear Hs' A0.
    assert (N : 2 <= INR n) by (apply (le_INR 2); lia). assert (A : 0 < Rabs h) by (apply Rabs_pos_lt; exact Hh). pose proof (ln_euler _ Z) as [EL _].
    assert (LL : INR n * ln (1 + z) <= ln s) by (rewrite <- ln_pow by lra; destruct L as [L|L]; [left; apply ln_increasing; assumption|rewrite L; lra]).
    assert (UU : ln s <= INR n * z).
    { rewrite <- (ln_exp z), <- ln_pow by apply exp_pos. destruct U as [U|U]; [left; apply ln_increasing; lra|rewrite U; lra]. }
    exists (ln s / ((INR n - 1) * Rabs h)). split; [unfold ftle_value; destruct (Req_EM_T s 0); [lra|reflexivity]|].
    assert (D : 0 < (INR n - 1) * Rabs h) by nra.
    assert (E1 : INR n / (INR n - 1) * (k - k ^ 2 * Rabs h / 2) = INR n * (z - z ^ 2 / 2) / ((INR n - 1) * Rabs h)) by (unfold z; field; lra).
    assert (E2 : INR n / (INR n - 1) * k = INR n * z / ((INR n - 1) * Rabs h)) by (unfold z; field; lra).
    rewrite E1, E2. split; apply Rmult_le_compat_r; try (left; apply Rinv_0_lt_compat; exact D); nra.
  Qed.
End Bounds.
