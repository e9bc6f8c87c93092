(** Runs in the flow (k x, - k y): C147. *)
From Coq Require Import Reals Lra Lia Psatz.
From Verif Require Import Base Num Particles Jacobian Ftle Integrate DataSource Solver SpecFtle SpecSeeds SpecIntegrate
  SpecSolver FtleFacts2 FtleFacts3 ParticleFacts JacobianFacts SolverFacts SolverField SolverLinear IntegrateMisc ConvergeCases FrameMain StrainCases RotationFacts.
Local Open Scope R_scope.

Definition exp4 (z : R) : R := 1 + z + z ^ 2 / 2 + z ^ 3 / 6 + z ^ 4 / 24.

Lemma lim_eq f x l l' : derivable_pt_lim f x l -> l = l' -> derivable_pt_lim f x l'.
Proof. intros H <-. exact H. Qed.
Lemma lim_mono n c x : derivable_pt_lim (fun z => c * z ^ n) x (c * (INR n * x ^ pred n)).
Proof. apply (derivable_pt_lim_scal (fun z => z ^ n)), derivable_pt_lim_pow. Qed.
Lemma lim_poly x : derivable_pt_lim (fun z => 1 * z ^ 0 + (1 * z ^ 1 + (/ 2 * z ^ 2 + (/ 6 * z ^ 3 + / 24 * z ^ 4)))) x (1 + x + x ^ 2 / 2 + x ^ 3 / 6).
Proof.
  eapply lim_eq.
  - apply (derivable_pt_lim_plus (fun z => 1 * z ^ 0)); [apply lim_mono|].
    apply (derivable_pt_lim_plus (fun z => 1 * z ^ 1)); [apply lim_mono|].
    apply (derivable_pt_lim_plus (fun z => / 2 * z ^ 2)); [apply lim_mono|].
    apply (derivable_pt_lim_plus (fun z => / 6 * z ^ 3)); apply lim_mono.
  - cbn [pred INR]. field.
Qed.
Lemma poly_exp4 z : 1 * z ^ 0 + (1 * z ^ 1 + (/ 2 * z ^ 2 + (/ 6 * z ^ 3 + / 24 * z ^ 4))) = exp4 z.
Proof. unfold exp4. field. Qed.
Lemma exp4_ge z : 0 <= z -> 1 <= exp4 z.
Proof. intro H. unfold exp4. assert (0 <= z ^ 2) by nra. assert (0 <= z ^ 3) by (replace (z ^ 3) with (z * z ^ 2) by ring; nra). assert (0 <= z ^ 4) by (replace (z ^ 4) with (z ^ 2 * z ^ 2) by ring; nra). lra. Qed.

(** ln(exp4 z) - z has the derivative - (z^4/24) / exp4 z. *)
Lemma lim_ln_poly (f : R -> R) f' x : 0 < f x -> derivable_pt_lim f x f' -> derivable_pt_lim (fun z => ln (f z)) x (f' / f x).
Proof.
  intros P H. eapply lim_eq; [apply (derivable_pt_lim_comp f ln x f' (/ f x) H), derivable_pt_lim_ln, P|]. unfold Rdiv. ring.
Qed.
Lemma grows (f f' : R -> R) z : 0 <= z -> (forall c, 0 <= c <= z -> derivable_pt_lim f c (f' c)) -> (forall c, 0 <= c <= z -> 0 <= f' c) -> f 0 <= f z.
Proof.
  intros [Hz|<-] D N; [|lra]. destruct (MVT_cor2 f f' 0 z Hz D) as (c & E & Hc). specialize (N c ltac:(lra)). nra.
Qed.

Lemma ln_exp4_upper z : 0 <= z -> ln (exp4 z) <= z.
Proof.
  intro Hz. set (p := fun z => 1 * z ^ 0 + (1 * z ^ 1 + (/ 2 * z ^ 2 + (/ 6 * z ^ 3 + / 24 * z ^ 4)))).
  assert (G := grows (fun z => 1 * z ^ 1 + - 1 * ln (p z)) (fun c => 1 + - 1 * ((1 + c + c ^ 2 / 2 + c ^ 3 / 6) / p c)) z Hz).
  cbv beta in G. replace (ln (p 0)) with 0 in G by (unfold p; rewrite poly_exp4; unfold exp4; replace (_ + _) with 1 by field; symmetry; apply ln_1).
  replace (p z) with (exp4 z) in G by (symmetry; apply poly_exp4). enough (1 * 0 ^ 1 + -1 * 0 <= 1 * z ^ 1 + -1 * ln (exp4 z)) by lra. apply G.
  - intros c Hc. apply (derivable_pt_lim_plus (fun z => 1 * z ^ 1)); [eapply lim_eq; [apply lim_mono|cbn; ring]|].
    apply (derivable_pt_lim_scal (fun z => ln (p z))). apply lim_ln_poly; [unfold p; rewrite poly_exp4; pose proof (exp4_ge c ltac:(lra)); lra|apply lim_poly].
  - intros c Hc. unfold p. rewrite poly_exp4. pose proof (exp4_ge c ltac:(lra)) as E. assert (0 <= c ^ 4) by (replace (c ^ 4) with (c ^ 2 * c ^ 2) by ring; nra).
    replace (1 + _) with (c ^ 4 / 24 / exp4 c) by (unfold exp4 in *; field; lra).
    apply Rmult_le_pos; [lra|]. left. apply Rinv_0_lt_compat. lra.
Qed.
Lemma ln_exp4_lower z : 0 <= z -> z - z ^ 5 / 120 <= ln (exp4 z).
Proof.
  intro Hz. set (p := fun z => 1 * z ^ 0 + (1 * z ^ 1 + (/ 2 * z ^ 2 + (/ 6 * z ^ 3 + / 24 * z ^ 4)))).
  assert (G := grows (fun z => ln (p z) + (- 1 * z ^ 1 + / 120 * z ^ 5)) (fun c => (1 + c + c ^ 2 / 2 + c ^ 3 / 6) / p c + (- 1 + / 24 * c ^ 4)) z Hz).
  cbv beta in G. replace (ln (p 0)) with 0 in G by (unfold p; rewrite poly_exp4; unfold exp4; replace (_ + _) with 1 by field; symmetry; apply ln_1).
  replace (p z) with (exp4 z) in G by (symmetry; apply poly_exp4). enough (0 + (-1 * 0 ^ 1 + / 120 * 0 ^ 5) <= ln (exp4 z) + (-1 * z ^ 1 + / 120 * z ^ 5)) by lra. apply G.
  - intros c Hc. apply (derivable_pt_lim_plus (fun z => ln (p z))).
    + apply lim_ln_poly; [unfold p; rewrite poly_exp4; pose proof (exp4_ge c ltac:(lra)); lra|apply lim_poly].
    + apply (derivable_pt_lim_plus (fun z => -1 * z ^ 1)); (eapply lim_eq; [apply lim_mono|cbn [pred INR]; field]).
  - intros c Hc. unfold p. rewrite poly_exp4. pose proof (exp4_ge c ltac:(lra)) as E. assert (0 <= c ^ 4) by (replace (c ^ 4) with (c ^ 2 * c ^ 2) by ring; nra).
    replace (_ + _) with (c ^ 4 / 24 * ((exp4 c - 1) / exp4 c)) by (unfold exp4 in *; field; lra).
    apply Rmult_le_pos; [lra|]. apply Rmult_le_pos; [lra|]. left. apply Rinv_0_lt_compat. lra.
Qed.
Lemma ln_euler z : 0 <= z -> z - z ^ 2 / 2 <= ln (1 + z) <= z.
Proof.
  intro Hz. split.
  - assert (G := grows (fun z => ln (1 * z ^ 0 + 1 * z ^ 1) + (- 1 * z ^ 1 + / 2 * z ^ 2)) (fun c => 1 / (1 * c ^ 0 + 1 * c ^ 1) + (- 1 + c)) z Hz). cbv beta in G.
    replace (ln (1 * 0 ^ 0 + _)) with 0 in G by (replace (_ + _) with 1 by ring; symmetry; apply ln_1).
    replace (1 * z ^ 0 + 1 * z ^ 1) with (1 + z) in G by ring. enough (0 + (-1 * 0 ^ 1 + / 2 * 0 ^ 2) <= ln (1 + z) + (-1 * z ^ 1 + / 2 * z ^ 2)) by lra. apply G.
    + intros c Hc. apply (derivable_pt_lim_plus (fun z => ln (1 * z ^ 0 + 1 * z ^ 1))).
      * apply (lim_ln_poly (fun z => 1 * z ^ 0 + 1 * z ^ 1)); [cbn; lra|]. eapply lim_eq; [apply (derivable_pt_lim_plus (fun z => 1 * z ^ 0)); apply lim_mono|cbn; ring].
      * eapply lim_eq; [apply (derivable_pt_lim_plus (fun z => -1 * z ^ 1)); apply lim_mono|cbn [pred INR]; field].
    + intros c Hc. replace (_ + _) with (c * c / (1 + c)) by (field; lra). apply Rmult_le_pos; [nra|]. left. apply Rinv_0_lt_compat. lra.
  - destruct (exp_ineq1_le z) as [H|H].
    + rewrite <- (ln_exp z) at 2. left. apply ln_increasing; lra.
    + rewrite H, ln_exp. lra.
Qed.

Definition diag (p q : R) : m22 R := M22 p 0 0 q.
Lemma diag_pow p q n : pow22 (diag p q) n = diag (p ^ n) (q ^ n).
Proof. induction n as [|n IH]; [reflexivity|]. cbn [pow22]. rewrite IH. apply m22_ext; cbn; ring. Qed.
Lemma sqrt_sq_abs x : sqrt (x * x) = Rabs x.
Proof. rewrite <- sqrt_Rsqr_abs. reflexivity. Qed.
Lemma diag_norm p q c : 0 <= c -> Rabs p <= c -> Rabs q <= c -> Rabs p = c \/ Rabs q = c -> spectral_norm_2 (diag p q) c.
Proof.
  intros Hc Hp Hq E. assert (P2 : p * p <= c * c) by (rewrite <- (Rabs_pos_eq (p * p)) by nra; rewrite Rabs_mult; pose proof (Rabs_pos p); nra).
  assert (Q2 : q * q <= c * c) by (rewrite <- (Rabs_pos_eq (q * q)) by nra; rewrite Rabs_mult; pose proof (Rabs_pos q); nra). split.
  - intros [x y]. unfold norm2, dot2, app22, diag. cbn. replace c with (sqrt (c * c)) by (apply sqrt_square; exact Hc). rewrite <- sqrt_mult by nra. apply sqrt_le_1_alt.
    replace ((p * x + 0 * y) * (p * x + 0 * y) + (0 * x + q * y) * (0 * x + q * y)) with (p * p * (x * x) + q * q * (y * y)) by ring.
    pose proof (Rle_0_sqr x) as X. pose proof (Rle_0_sqr y) as Y. unfold Rsqr in *. nra.
  - destruct E as [<-|<-]; [exists (1, 0)|exists (0, 1)]; unfold norm2, dot2, app22, diag; cbn; (split; [replace (_ + _) with 1 by ring; apply sqrt_1|]).
    + rewrite <- sqrt_sq_abs. f_equal. ring.
    + rewrite <- sqrt_sq_abs. f_equal. ring.
Qed.

Lemma pow_norm p q c n s : 0 <= c -> Rabs p <= c -> Rabs q <= c -> Rabs p = c \/ Rabs q = c -> spectral_norm_2 (pow22 (diag p q) n) s -> s = c ^ n.
Proof.
  intros Hc Hp Hq E H. rewrite diag_pow in H. apply (spectral_norm_2_unique _ _ _ H). pose proof (Rabs_pos p). pose proof (Rabs_pos q).
  apply diag_norm; rewrite <- ?RPow_abs; [apply pow_le, Hc|apply pow_incr; lra|apply pow_incr; lra|destruct E as [<-|<-]; [left|right]; reflexivity].
Qed.
Lemma grown_value c n h : (2 <= n)%nat -> h <> 0 -> 1 <= c ->
  ftle_value (c ^ n) ((INR n - 1) * Rabs h) = XVal (INR n / (INR n - 1) * (ln c / Rabs h)).
Proof.
  intros Hn Hh Hc. assert (2 <= INR n) by (apply (le_INR 2); lia). assert (0 < Rabs h) by (apply Rabs_pos_lt; exact Hh).
  assert (0 < c ^ n) by (apply pow_lt; lra). unfold ftle_value. destruct (Req_EM_T _ 0); [lra|]. rewrite ln_pow by lra. f_equal. field. lra.
Qed.

Section Stretch.
  Context {S P W : Type} (interpolate : S -> mat R -> S * res (mat R)) (eigvals : m33 R -> res (R * R * R))
    (mems : nat -> memory (T := R)) (write : W -> string -> list (xval R) -> mat R -> W * res unit)
    (I : (list R -> list R) -> S -> Prop) (HI : samples_field interpolate I).
  Context (sv : solver R S P) (wd : world R S P W) (w0 : list R -> list R) (b : vec2) (gs : list (group2 R)) (id : string).
  Context (Hs : I w0 (w_interp wd)) (Ew : s_writer sv = false) (Eid : src_id (s_source sv) = Ok id)
    (Ep : src_particles (s_source sv) (w_source wd) = mk_particles Rops (layout2 gs)) (Ha : Forall axis_aligned2 gs)
    (Hn : (2 <= src_steps (s_source sv))%nat) (Hh : src_timestep (s_source sv) <> 0).
  Local Notation n := (src_steps (s_source sv)).
  Local Notation h := (src_timestep (s_source sv)).

  Lemma abs_cases z : Rabs z = z \/ Rabs z = - z.
  Proof. destruct (Rcase_abs z); [right; apply Rabs_left; assumption|left; apply Rabs_right; assumption]. Qed.

  Theorem stretch_euler k : presents_fields I (s_source sv) (fun _ => on_rows2 (aff2 (M22 k 0 0 (- k)) b)) -> w_integrator wd = fresh MEuler ->
    snd (run Rops interpolate eigvals mems write sv wd) = Ok (Some (map (fun _ => XVal (INR n / (INR n - 1) * (ln (1 + Rabs (k * h)) / Rabs h))) gs)).
  Proof.
    intros HP Hf. destruct (linear2 interpolate eigvals mems write I HI sv wd w0 MEuler (M22 k 0 0 (- k)) b gs id HP Hs Hf Ew Eid Ep Ha Hn Hh) as (s & Hs' & ->).
    cbn [propagator2] in Hs'. replace (add22 _ _) with (diag (1 + k * h) (1 - k * h)) in Hs' by (apply m22_ext; cbn; ring).
    pose proof (Rabs_pos (k * h)) as A0. apply (pow_norm _ _ (1 + Rabs (k * h))) in Hs'; [|lra|..].
    - subst s. rewrite grown_value by (assumption || lra). reflexivity.
    - apply Rabs_le. destruct (abs_cases (k * h)); lra.
    - apply Rabs_le. destruct (abs_cases (k * h)); lra.
    - destruct (abs_cases (k * h)); [left|right]; rewrite Rabs_pos_eq; lra.
  Qed.

  Theorem stretch_rk4 k : presents_fields I (s_source sv) (fun _ => on_rows2 (aff2 (M22 k 0 0 (- k)) b)) -> w_integrator wd = fresh MRK4 ->
    snd (run Rops interpolate eigvals mems write sv wd) = Ok (Some (map (fun _ => XVal (INR n / (INR n - 1) * (ln (exp4 (Rabs (k * h))) / Rabs h))) gs)).
  Proof.
    intros HP Hf. destruct (linear2 interpolate eigvals mems write I HI sv wd w0 MRK4 (M22 k 0 0 (- k)) b gs id HP Hs Hf Ew Eid Ep Ha Hn Hh) as (s & Hs' & ->).
    cbn [propagator2] in Hs'. replace (taylor22 _ _) with (diag (exp4 (k * h)) (exp4 (- (k * h)))) in Hs' by (unfold exp4; apply m22_ext; cbn; field).
    set (y := Rabs (k * h)) in *. assert (A0 : 0 <= y) by apply Rabs_pos. pose proof (exp4_ge y A0) as G.
    assert (Q : Rabs (exp4 y) = exp4 y) by (apply Rabs_pos_eq; lra).
    assert (Q' : Rabs (exp4 (- y)) <= exp4 y).
    { assert (0 <= y ^ 3) by (replace (y ^ 3) with (y * (y * y)) by ring; nra). assert (0 <= y ^ 2) by nra. assert (0 <= y ^ 4) by (replace (y ^ 4) with (y ^ 2 * y ^ 2) by ring; nra).
      unfold exp4. replace ((- y) ^ 2) with (y ^ 2) by ring. replace ((- y) ^ 3) with (- y ^ 3) by ring. replace ((- y) ^ 4) with (y ^ 4) by ring.
      apply Rabs_le. lra. }
    apply (pow_norm _ _ (exp4 y)) in Hs'; [subst s; rewrite grown_value by (assumption || lra); reflexivity|lra|..].
    - destruct (abs_cases (k * h)) as [E|E]; [rewrite <- E; fold y; lra|]. replace (k * h) with (- y) by (unfold y; lra). exact Q'.
    - destruct (abs_cases (k * h)) as [E|E]; [rewrite <- E; fold y; exact Q'|]. rewrite <- E; fold y. lra.
    - destruct (abs_cases (k * h)) as [E|E]; [left|right]; rewrite <- E; fold y; exact Q.
  Qed.
End Stretch.

Section Bounds.
  Context {S P W : Type} (interpolate : S -> mat R -> S * res (mat R)) (eigvals : m33 R -> res (R * R * R))
    (mems : nat -> memory (T := R)) (write : W -> string -> list (xval R) -> mat R -> W * res unit)
    (I : (list R -> list R) -> S -> Prop) (HI : samples_field interpolate I).

  Lemma strain_euler (sv : solver R S P) (wd : world R S P W) w0 k b gs id :
    presents_fields I (s_source sv) (fun _ => on_rows2 (aff2 (M22 k 0 0 (- k)) b)) -> I w0 (w_interp wd) ->
    w_integrator wd = fresh MEuler -> s_writer sv = false -> src_id (s_source sv) = Ok id ->
    src_particles (s_source sv) (w_source wd) = mk_particles Rops (layout2 gs) -> Forall axis_aligned2 gs ->
    (2 <= src_steps (s_source sv))%nat -> src_timestep (s_source sv) <> 0 ->
    let n := src_steps (s_source sv) in let h := src_timestep (s_source sv) in
    exists x, snd (run Rops interpolate eigvals mems write sv wd) = Ok (Some (map (fun _ => XVal x) gs)) /\
      x = INR n / (INR n - 1) * (ln (1 + Rabs (k * h)) / Rabs h) /\
      INR n / (INR n - 1) * (Rabs k - k ^ 2 * Rabs h / 2) <= x <= INR n / (INR n - 1) * Rabs k.
  Proof.
    intros HP Hs Hf Ew Eid Ep Ha Hn Hh n h. exists (INR n / (INR n - 1) * (ln (1 + Rabs (k * h)) / Rabs h)).
    split; [exact (stretch_euler interpolate eigvals mems write I HI sv wd w0 b gs id Hs Ew Eid Ep Ha Hn Hh k HP Hf)|].
    split; [reflexivity|]. fold n h. fold n in Hn. fold h in Hh. clearbody n h.
    assert (2 <= INR n) by (apply (le_INR 2); lia). assert (A : 0 < Rabs h) by (apply Rabs_pos_lt; exact Hh).
    assert (C : 0 <= INR n / (INR n - 1)) by (apply Rmult_le_pos; [lra|left; apply Rinv_0_lt_compat; lra]).
    pose proof (ln_euler _ (Rabs_pos (k * h))) as [L U].
    assert (E1 : Rabs k - k ^ 2 * Rabs h / 2 = (Rabs (k * h) - Rabs (k * h) ^ 2 / 2) / Rabs h).
    { rewrite Rabs_mult. replace (k ^ 2) with (Rabs k ^ 2) by apply pow2_abs. field. lra. }
    assert (E2 : Rabs k = Rabs (k * h) / Rabs h) by (rewrite Rabs_mult; field; lra).
    split; apply Rmult_le_compat_l; try exact C; [rewrite E1|rewrite E2 at 1]; apply Rmult_le_compat_r; try (left; apply Rinv_0_lt_compat; exact A); lra.
  Qed.

  Lemma strain_rk4 (sv : solver R S P) (wd : world R S P W) w0 k b gs id :
    presents_fields I (s_source sv) (fun _ => on_rows2 (aff2 (M22 k 0 0 (- k)) b)) -> I w0 (w_interp wd) ->
    w_integrator wd = fresh MRK4 -> s_writer sv = false -> src_id (s_source sv) = Ok id ->
    src_particles (s_source sv) (w_source wd) = mk_particles Rops (layout2 gs) -> Forall axis_aligned2 gs ->
    (2 <= src_steps (s_source sv))%nat -> src_timestep (s_source sv) <> 0 ->
    let n := src_steps (s_source sv) in let h := src_timestep (s_source sv) in
    exists x, snd (run Rops interpolate eigvals mems write sv wd) = Ok (Some (map (fun _ => XVal x) gs)) /\
      INR n / (INR n - 1) * (Rabs k - Rabs k ^ 5 * h ^ 4 / 120) <= x <= INR n / (INR n - 1) * Rabs k.
  Proof.
    intros HP Hs Hf Ew Eid Ep Ha Hn Hh n h. exists (INR n / (INR n - 1) * (ln (exp4 (Rabs (k * h))) / Rabs h)).
    split; [exact (stretch_rk4 interpolate eigvals mems write I HI sv wd w0 b gs id Hs Ew Eid Ep Ha Hn Hh k HP Hf)|].
    fold n h. fold n in Hn. fold h in Hh. clearbody n h.
    assert (2 <= INR n) by (apply (le_INR 2); lia). assert (A : 0 < Rabs h) by (apply Rabs_pos_lt; exact Hh).
    assert (C : 0 <= INR n / (INR n - 1)) by (apply Rmult_le_pos; [lra|left; apply Rinv_0_lt_compat; lra]).
    pose proof (ln_exp4_lower _ (Rabs_pos (k * h))) as L. pose proof (ln_exp4_upper _ (Rabs_pos (k * h))) as U.
    assert (E1 : Rabs k - Rabs k ^ 5 * h ^ 4 / 120 = (Rabs (k * h) - Rabs (k * h) ^ 5 / 120) / Rabs h).
    { rewrite Rabs_mult. replace (h ^ 4) with (Rabs h ^ 4) by (rewrite RPow_abs; apply Rabs_pos_eq; replace (h ^ 4) with (h ^ 2 * h ^ 2) by ring; nra). field. lra. }
    assert (E2 : Rabs k = Rabs (k * h) / Rabs h) by (rewrite Rabs_mult; field; lra).
    split; apply Rmult_le_compat_l; try exact C; [rewrite E1|rewrite E2 at 1]; apply Rmult_le_compat_r; try (left; apply Rinv_0_lt_compat; exact A); lra.
  Qed.
End Bounds.

(** Two RK4 steps of size 1 in the flow (x, -y). *)
Definition stretched : solver R (list R -> list R) unit := lone (on_rows2 (aff2 (M22 1 0 0 (- 1)) (0, 0))) 1 2 (mk_particles Rops (layout2 [cross2])).
Lemma stretched_case eigvals mems : exists x, 1 < x /\ snd (run Rops (@field_interp R) eigvals mems still stretched (start MRK4 tt)) = Ok (Some [XVal x]).
Proof.
  destruct (strain_rk4 (@field_interp R) eigvals mems still _ field_interp_ok stretched (start MRK4 tt) (fun x => x) 1 (0, 0) [cross2] "a"%string
    (steady_ok _ _ _ _) eq_refl eq_refl eq_refl eq_refl eq_refl ltac:(constructor; [exact cross_aligned2|constructor]) ltac:(cbn; lia) R1_neq_R0) as (x & E & L & _).
  exists x. split; [|exact E]. cbn [s_source stretched lone steady src_steps src_timestep INR] in L. rewrite Rabs_R1 in L. lra.
Qed.
Lemma stretched_refutes : exists k h n gs, Forall axis_aligned2 gs /\ (2 <= n)%nat /\ h <> 0 /\
  forall eigvals mems, exists x, x <> Rabs k /\
    snd (run Rops (@field_interp R) eigvals mems still (lone (on_rows2 (aff2 (M22 k 0 0 (- k)) (0, 0))) h n (mk_particles Rops (layout2 gs))) (start MRK4 tt)) = Ok (Some [XVal x]).
Proof.
  exists 1, 1, 2%nat, [cross2]. split; [constructor; [exact cross_aligned2|constructor]|]. split; [lia|]. split; [lra|]. intros eigvals mems.
  destruct (stretched_case eigvals mems) as (x & H & E). exists x. rewrite Rabs_R1. split; [lra|exact E].
Qed.
