(** Runs in the flow (k0 x, k1 y, k2 z): C147 in 3-D. *)
From Coq Require Import Reals Lra Lia Psatz.
From Verif Require Import Base Num Particles Jacobian Ftle Integrate DataSource Solver SpecFtle SpecSeeds SpecIntegrate
  SpecSolver FtleFacts2 FtleFacts3 ParticleFacts JacobianFacts SolverFacts SolverField SolverLinear IntegrateMisc ConvergeCases FrameMain StrainCases RotationFacts StretchFacts.
Local Open Scope R_scope.

Definition diag3 (p q r : R) : m33 R := M33 p 0 0 0 q 0 0 0 r.
Lemma diag3_pow p q r n : pow33 (diag3 p q r) n = diag3 (p ^ n) (q ^ n) (r ^ n).
Proof. induction n as [|n IH]; [reflexivity|]. cbn [pow33]. rewrite IH. apply m33_ext; cbn; ring. Qed.
Lemma sq_le p c : Rabs p <= c -> p * p <= c * c.
Proof. intro H. rewrite <- (Rabs_pos_eq (p * p)) by nra. rewrite Rabs_mult. pose proof (Rabs_pos p). nra. Qed.
Lemma diag3_norm p q r c : 0 <= c -> Rabs p <= c -> Rabs q <= c -> Rabs r <= c -> Rabs p = c \/ Rabs q = c \/ Rabs r = c -> spectral_norm_3 (diag3 p q r) c.
Proof.
  intros Hc Hp Hq Hr E. apply sq_le in Hp, Hq, Hr. split.
  - intros [[x y] z]. unfold norm3, dot3v, app33, diag3, v0, v1, v2. cbn. replace c with (sqrt (c * c)) by (apply sqrt_square; exact Hc).
    rewrite <- sqrt_mult by nra. apply sqrt_le_1_alt.
    replace (_ + _) with (p * p * (x * x) + q * q * (y * y) + r * r * (z * z)) by ring.
    pose proof (Rle_0_sqr x) as X. pose proof (Rle_0_sqr y) as Y. pose proof (Rle_0_sqr z) as Z. unfold Rsqr in *. nra.
  - destruct E as [<-|[<-| <-]]; [exists (1, 0, 0)|exists (0, 1, 0)|exists (0, 0, 1)]; unfold norm3, dot3v, app33, diag3, v0, v1, v2; cbn;
      (split; [replace (_ + _) with 1 by ring; apply sqrt_1|rewrite <- sqrt_sq_abs; f_equal; ring]).
Qed.
Lemma pow3_norm p q r c n s : 0 <= c -> Rabs p <= c -> Rabs q <= c -> Rabs r <= c -> Rabs p = c \/ Rabs q = c \/ Rabs r = c ->
  spectral_norm_3 (pow33 (diag3 p q r) n) s -> s = c ^ n.
Proof.
  intros Hc Hp Hq Hr E H. rewrite diag3_pow in H. apply (spectral_norm_3_unique _ _ _ H). pose proof (Rabs_pos p). pose proof (Rabs_pos q). pose proof (Rabs_pos r).
  apply diag3_norm; rewrite <- ?RPow_abs; [apply pow_le, Hc|apply pow_incr; lra|apply pow_incr; lra|apply pow_incr; lra|].
  destruct E as [<-|[<-| <-]]; [left|right; left|right; right]; reflexivity.
Qed.

(** Both growth factors are between -1 and 1 for a decay that the step resolves, and increase afterwards. *)
Definition tame (g : R -> R) : Prop := (forall y, -2 <= y <= 0 -> -1 <= g y <= 1) /\ (forall y z, 0 <= y <= z -> 1 <= g y <= g z).
Lemma tame_euler : tame (fun y => 1 + y).
Proof. split; intros; lra. Qed.
Lemma tame_rk4 : tame exp4.
Proof.
  split.
  - intros y H. unfold exp4. set (q := 1 + y / 2 + y ^ 2 / 6 + y ^ 3 / 24). assert (Q : 0 <= q).
    { unfold q. set (t := y + 2). replace y with (t - 2) by (unfold t; ring). assert (0 <= t <= 2) by (unfold t; lra).
      replace (_ + _) with (1 / 3 + t / 3 * (1 / 2) - t / 6 + t * (1 / 2 - 2 / 3 + 1 / 2) + t ^ 2 * (1 / 6 - 1 / 4) + t ^ 3 / 24) by field. nra. }
    replace (1 + y + y ^ 2 / 2 + y ^ 3 / 6 + y ^ 4 / 24) with (1 + y * q) by (unfold q; field).
    assert (q <= 1) by (unfold q; nra). nra.
  - intros y z [H0 H]. split; [apply exp4_ge; exact H0|]. unfold exp4.
    pose proof (pow_incr y z 2 (conj H0 H)). pose proof (pow_incr y z 3 (conj H0 H)). pose proof (pow_incr y z 4 (conj H0 H)). lra.
Qed.
Lemma tame_abs g y z : tame g -> -2 <= y <= z -> 0 <= z -> Rabs (g y) <= g z.
Proof.
  intros [A B] Hy Hz. pose proof (B z z ltac:(lra)). apply Rabs_le. destruct (Rle_dec y 0) as [N|N].
  - specialize (A y ltac:(lra)). lra.
  - specialize (B y z ltac:(lra)). lra.
Qed.

Section Stretch.
  Context {S P W : Type} (interpolate : S -> mat R -> S * res (mat R)) (eigvals : m33 R -> res (R * R * R))
    (mems : nat -> memory (T := R)) (write : W -> string -> list (xval R) -> mat R -> W * res unit)
    (I : (list R -> list R) -> S -> Prop) (HI : samples_field interpolate I) (He : eigvals_ok eigvals).

  Lemma stretch3 (g : R -> R) (sv : solver R S P) (wd : world R S P W) w0 m k0 k1 k2 k b gs id : tame g ->
    (forall h n, propagator3 m (M33 k0 0 0 0 k1 0 0 0 k2) h n = pow33 (diag3 (g (k0 * h)) (g (k1 * h)) (g (k2 * h))) n) ->
    presents_fields I (s_source sv) (fun _ => on_rows3 (aff3 (M33 k0 0 0 0 k1 0 0 0 k2) b)) -> I w0 (w_interp wd) ->
    w_integrator wd = fresh m -> s_writer sv = false -> src_id (s_source sv) = Ok id ->
    src_particles (s_source sv) (w_source wd) = mk_particles Rops (layout3 gs) -> Forall axis_aligned3 gs ->
    (2 <= src_steps (s_source sv))%nat -> src_timestep (s_source sv) <> 0 ->
    let n := src_steps (s_source sv) in let h := src_timestep (s_source sv) in
    0 <= k -> (forall r, In r [k0; k1; k2] -> -2 <= r * h <= k * Rabs h) -> (exists r, In r [k0; k1; k2] /\ r * h = k * Rabs h) ->
    snd (run Rops interpolate eigvals mems write sv wd) = Ok (Some (map (fun _ => XVal (INR n / (INR n - 1) * (ln (g (k * Rabs h)) / Rabs h))) gs)).
  Proof.
    intros Hg Hprop HP Hs Hf Ew Eid Ep Ha Hn Hh n h Hk Hr Hm.
    destruct (linear3 interpolate eigvals mems write I HI sv wd w0 m _ b gs id He HP Hs Hf Ew Eid Ep Ha Hn Hh) as (s & Hs' & ->).
    rewrite Hprop in Hs'. fold h n in Hs' |- *. fold n in Hn. fold h in Hh. clearbody n h.
    assert (Z : 0 <= k * Rabs h) by (apply Rmult_le_pos; [exact Hk|apply Rabs_pos]).
    assert (G : 1 <= g (k * Rabs h)) by (apply (proj2 Hg (k * Rabs h) (k * Rabs h)); lra).
    assert (A : Rabs (g (k * Rabs h)) = g (k * Rabs h)) by (apply Rabs_pos_eq; lra).
    apply (pow3_norm _ _ _ (g (k * Rabs h))) in Hs'.
    - subst s. rewrite grown_value by assumption. reflexivity.
    - lra.
    - apply tame_abs; [exact Hg|apply Hr; cbn; auto|exact Z].
    - apply tame_abs; [exact Hg|apply Hr; cbn; auto|exact Z].
    - apply tame_abs; [exact Hg|apply Hr; cbn; auto|exact Z].
    - destruct Hm as (r & [<-|[<-|[<-|[]]]] & ->); auto.
  Qed.

  Lemma quotient_bounds n h k x l u : (2 <= n)%nat -> h <> 0 -> l <= x <= u ->
    INR n / (INR n - 1) * (l / Rabs h) <= INR n / (INR n - 1) * (x / Rabs h) <= INR n / (INR n - 1) * (u / Rabs h) /\ k = k * Rabs h / Rabs h.
  Proof.
    intros Hn Hh [L U]. assert (2 <= INR n) by (apply (le_INR 2); lia). assert (A : 0 < Rabs h) by (apply Rabs_pos_lt; exact Hh).
    assert (C : 0 <= INR n / (INR n - 1)) by (apply Rmult_le_pos; [lra|left; apply Rinv_0_lt_compat; lra]).
    split; [|field; lra]. split; apply Rmult_le_compat_l; try exact C; apply Rmult_le_compat_r; try (left; apply Rinv_0_lt_compat; exact A); lra.
  Qed.

  Lemma strain3_euler (sv : solver R S P) (wd : world R S P W) w0 k0 k1 k2 k b gs id :
    presents_fields I (s_source sv) (fun _ => on_rows3 (aff3 (M33 k0 0 0 0 k1 0 0 0 k2) b)) -> I w0 (w_interp wd) ->
    w_integrator wd = fresh MEuler -> s_writer sv = false -> src_id (s_source sv) = Ok id ->
    src_particles (s_source sv) (w_source wd) = mk_particles Rops (layout3 gs) -> Forall axis_aligned3 gs ->
    (2 <= src_steps (s_source sv))%nat -> src_timestep (s_source sv) <> 0 ->
    let n := src_steps (s_source sv) in let h := src_timestep (s_source sv) in
    0 <= k -> (forall r, In r [k0; k1; k2] -> -2 <= r * h <= k * Rabs h) -> (exists r, In r [k0; k1; k2] /\ r * h = k * Rabs h) ->
    exists x, snd (run Rops interpolate eigvals mems write sv wd) = Ok (Some (map (fun _ => XVal x) gs)) /\
      INR n / (INR n - 1) * (k - k ^ 2 * Rabs h / 2) <= x <= INR n / (INR n - 1) * k.
  Proof.
    intros HP Hs Hf Ew Eid Ep Ha Hn Hh n h Hk Hr Hm. exists (INR n / (INR n - 1) * (ln (1 + k * Rabs h) / Rabs h)). split.
    - apply (stretch3 (fun y => 1 + y) sv wd w0 MEuler k0 k1 k2 k b gs id tame_euler); try assumption.
      intros h' n'. cbn [propagator3]. f_equal. apply m33_ext; cbn; ring.
    - fold n in Hn. fold h in Hh. clearbody n h. assert (A : 0 < Rabs h) by (apply Rabs_pos_lt; exact Hh).
      destruct (quotient_bounds n h k _ _ _ Hn Hh (ln_euler _ (Rmult_le_pos _ _ Hk (Rabs_pos h)))) as [B E]. rewrite <- E in B.
      replace (k - k ^ 2 * Rabs h / 2) with ((k * Rabs h - (k * Rabs h) ^ 2 / 2) / Rabs h) by (field; lra). exact B.
  Qed.

  Lemma strain3_rk4 (sv : solver R S P) (wd : world R S P W) w0 k0 k1 k2 k b gs id :
    presents_fields I (s_source sv) (fun _ => on_rows3 (aff3 (M33 k0 0 0 0 k1 0 0 0 k2) b)) -> I w0 (w_interp wd) ->
    w_integrator wd = fresh MRK4 -> s_writer sv = false -> src_id (s_source sv) = Ok id ->
    src_particles (s_source sv) (w_source wd) = mk_particles Rops (layout3 gs) -> Forall axis_aligned3 gs ->
    (2 <= src_steps (s_source sv))%nat -> src_timestep (s_source sv) <> 0 ->
    let n := src_steps (s_source sv) in let h := src_timestep (s_source sv) in
    0 <= k -> (forall r, In r [k0; k1; k2] -> -2 <= r * h <= k * Rabs h) -> (exists r, In r [k0; k1; k2] /\ r * h = k * Rabs h) ->
    exists x, snd (run Rops interpolate eigvals mems write sv wd) = Ok (Some (map (fun _ => XVal x) gs)) /\
      INR n / (INR n - 1) * (k - k ^ 5 * h ^ 4 / 120) <= x <= INR n / (INR n - 1) * k.
  Proof.
    intros HP Hs Hf Ew Eid Ep Ha Hn Hh n h Hk Hr Hm. exists (INR n / (INR n - 1) * (ln (exp4 (k * Rabs h)) / Rabs h)). split.
    - apply (stretch3 exp4 sv wd w0 MRK4 k0 k1 k2 k b gs id tame_rk4); try assumption.
      intros h' n'. cbn [propagator3]. f_equal. unfold exp4. apply m33_ext; cbn; field.
    - fold n in Hn. fold h in Hh. clearbody n h. assert (A : 0 < Rabs h) by (apply Rabs_pos_lt; exact Hh).
      pose proof (Rmult_le_pos _ _ Hk (Rabs_pos h)) as Z.
      destruct (quotient_bounds n h k _ _ _ Hn Hh (conj (ln_exp4_lower _ Z) (ln_exp4_upper _ Z))) as [B E]. rewrite <- E in B.
      replace (k - k ^ 5 * h ^ 4 / 120) with ((k * Rabs h - (k * Rabs h) ^ 5 / 120) / Rabs h); [exact B|].
      replace (h ^ 4) with (Rabs h ^ 4) by (rewrite RPow_abs; apply Rabs_pos_eq; replace (h ^ 4) with (h ^ 2 * h ^ 2) by ring; nra). field. lra.
  Qed.
End Stretch.

(** Steps of 1 in the flow (x, y, -2 z), forwards and backwards. *)
Lemma sheet_rates h k : h = 1 /\ k = 1 \/ h = -1 /\ k = 2 -> 0 <= k /\
  (forall r, In r [1; 1; -2] -> -2 <= r * h <= k * Rabs h) /\ (exists r, In r [1; 1; -2] /\ r * h = k * Rabs h).
Proof.
  intros [[-> ->]|[-> ->]]; (split; [lra|]).
  - rewrite Rabs_R1. split; [intros r [<-|[<-|[<-|[]]]]; lra|exists 1; cbn; split; [auto|lra]].
  - replace (Rabs (-1)) with 1 by (rewrite Rabs_left; lra). split; [intros r [<-|[<-|[<-|[]]]]; lra|exists (-2); cbn; split; [auto|lra]].
Qed.
