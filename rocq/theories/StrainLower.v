(** Steps that are short for the strain do not bring particles together, so the FTLE is a number. *)
From Coq Require Import Reals Lra Lia Psatz.
From Verif Require Import Base Num Particles Jacobian Ftle Integrate DataSource Solver SpecFtle SpecSeeds SpecIntegrate
  SpecSolver SpecOrder SpecConverge SpecStrain FtleFacts2 FtleFacts3 ParticleFacts JacobianFacts SolverFacts SolverField SolverLinear
  OrderFacts OrderRK4 OrderMain ConvergeFacts ConvergeMain LimitMain StrainFacts.
Local Open Scope R_scope.

Definition apart (e : R) (x y : list R) : Prop := 0 <= e /\ near e x y /\ exists i, Rabs (coord i x - coord i y) = e.

Lemma apart_exists x : forall y, length x = length y -> exists e, apart e x y.
Proof.
  induction x as [|a x IH]; intros [|b y] E; try discriminate.
  - exists 0. split; [lra|]. assert (Z : forall i, Rabs (coord i [] - coord i []) = 0) by (intro i; rewrite Rminus_diag_eq, Rabs_R0; reflexivity).
    split; [split; [reflexivity|intro i; rewrite Z; lra]|]. exists 0%nat. apply Z.
  - destruct (IH y) as (e & He & [_ N] & (i & Ei)); [cbn in E; lia|]. exists (Rmax (Rabs (a - b)) e).
    split; [eapply Rle_trans; [exact He|apply Rmax_r]|]. split.
    + split; [exact E|]. intros [|j]; [apply Rmax_l|]. eapply Rle_trans; [apply (N j)|apply Rmax_r].
    + unfold Rmax. destruct (Rle_dec (Rabs (a - b)) e); [exists (S i); exact Ei|exists 0%nat; reflexivity].
Qed.

Section Lower.
  Context (d : nat) (L h : R) (HL : 0 <= L) (Hz : Rabs h * L <= 1 / 5).
  Local Notation z := (Rabs h * L).
  Local Notation F := (exp (- (5 * z))).

  Lemma F_le : F <= 1 - 5 / 2 * z.
  Proof.
    pose proof (z_pos L h HL) as Z. assert (A : 1 + 5 * z <= exp (5 * z)).
    { destruct (Req_dec (5 * z) 0) as [E|N]; [rewrite E, exp_0; lra|]. left. apply exp_ineq1. exact N. }
    rewrite exp_Ropp. apply Rmult_le_reg_r with (exp (5 * z)); [apply exp_pos|]. rewrite Rinv_l by (apply Rgt_not_eq, exp_pos).
    apply Rle_trans with ((1 - 5 / 2 * z) * (1 + 5 * z)); [nra|]. apply Rmult_le_compat_l; [lra|exact A].
  Qed.
  Lemma F_half : 1 / 2 <= 1 - 5 / 2 * z. Proof. lra. Qed.

  Lemma adds_apart G e x y x' y' : length x = d -> length y = d -> G <= 1 + 5 / 2 * z -> apart e x y -> adds d G e x y x' y' ->
    exists e', apart e' x' y' /\ (1 - 5 / 2 * z) * e <= e'.
  Proof.
    intros Hx Hy HG (He & N & (i & Ei)) (c & k & l & ek & -> & -> & Hk & Hl & [_ Nk] & Hc).
    destruct (apart_exists (x +v c *v k) (y +v c *v l)) as (e' & A); [rewrite !(stage_length d); auto|]. exists e'. split; [exact A|].
    destruct A as (_ & [_ N'] & _). eapply Rle_trans; [|apply (N' i)].
    rewrite !coord_vadd by (rewrite vscale_len; congruence). rewrite !coord_vscale.
    specialize (Nk i). apply Rle_trans with (e - Rabs c * ek); [nra|].
    assert (B : Rabs (c * (coord i k - coord i l)) <= Rabs c * ek) by (rewrite Rabs_mult; apply Rmult_le_compat_l; [apply Rabs_pos|exact Nk]).
    replace (coord i x + c * coord i k - (coord i y + c * coord i l)) with ((coord i x - coord i y) - - (c * (coord i k - coord i l))) by ring.
    eapply Rle_trans; [|apply Rabs_triang_inv]. rewrite Rabs_Ropp. lra.
  Qed.

  Lemma small_rk4 : step_growth L h MRK4 <= 1 + 5 / 2 * z.
  Proof.
    pose proof (z_pos L h HL) as Z. cbn [step_growth]. set (p := z) in *. clearbody p. assert (0 <= p * p <= p) by nra.
    replace (p ^ 3) with (p * p * p) by ring. replace (p ^ 4) with (p * p * (p * p)) by ring. replace (p ^ 2) with (p * p) by ring. nra.
  Qed.

  Lemma ab2_adds v vp wp x y e ep : lip d L v -> length x = d -> length y = d -> length vp = d -> length wp = d -> near e x y -> near (L * ep) vp wp -> ep <= 2 * e ->
    adds d (1 + 5 / 2 * z) e x y (textbook_ab2 Rops v h vp x) (textbook_ab2 Rops v h wp y).
  Proof.
    intros Hv Hx Hy Hp Hw N Np Hep.
    assert (Lv : forall a b, length a = d -> length b = d -> length (vsub Rops (vscale Rops (o_three_halves Rops) a) (vscale Rops (o_half Rops) b)) = d).
    { intros a b Ha Hb. rewrite vsub_len, !vscale_len, Ha, Hb. apply Nat.min_id. }
    pose proof (lip_len d L v x Hv Hx) as Lx. pose proof (lip_len d L v y Hv Hy) as Ly.
    exists h, (vsub Rops (vscale Rops (o_three_halves Rops) (v x)) (vscale Rops (o_half Rops) vp)),
      (vsub Rops (vscale Rops (o_three_halves Rops) (v y)) (vscale Rops (o_half Rops) wp)), (5 / 2 * (L * e)).
    split; [reflexivity|]. split; [reflexivity|]. split; [auto|]. split; [auto|]. split; [|apply Req_le; ring].
    destruct (lip_near d L v x y e Hv Hx Hy N) as [_ N1]. destruct Np as [_ N2]. split; [rewrite !Lv by assumption; reflexivity|].
    intro i. rewrite !coord_vsub by (rewrite !vscale_len; congruence). rewrite !coord_vscale. specialize (N1 i). specialize (N2 i).
    change (o_three_halves Rops) with (3 / 2). change (o_half Rops) with (1 / 2).
    apply abs_le_inv in N1, N2. assert (L * ep <= 2 * (L * e)) by nra. apply Rabs_le. lra.
  Qed.

  Lemma F_chain n e e' e'' : 0 <= e -> (1 - 5 / 2 * z) * e <= e' -> F ^ n * e' <= e'' -> F ^ S n * e <= e''.
  Proof.
    intros He H1 H2. cbn [pow]. pose proof F_le. assert (0 <= F ^ n) by (apply pow_le; left; apply exp_pos).
    apply Rle_trans with (F ^ n * e'); [|exact H2]. replace (F * F ^ n * e) with (F ^ n * (F * e)) by ring. apply Rmult_le_compat_l; nra.
  Qed.

  Lemma ab2_lower st : uniform d L h st -> forall x y e vp wp, length x = d -> length y = d -> apart e x y ->
    match vp, wp with Some a, Some b => length a = d /\ length b = d /\ exists ep, near (L * ep) a b /\ ep <= 2 * e | None, None => True | _, _ => False end ->
    exists e', apart e' (ab2_path Rops st vp x) (ab2_path Rops st wp y) /\ F ^ length st * e <= e'.
  Proof.
    pose proof (z_pos L h HL) as Z. pose proof F_half as Fh.
    induction 1 as [|[v h'] st [Hv Eh] _ IH]; intros x y e vp wp Hx Hy A P; [exists e; split; [exact A|cbn; lra]|].
    cbn [fst snd] in Hv, Eh. subst h'. cbn [ab2_path length]. destruct A as (He & N & HA).
    pose proof (lip_len d L v x Hv Hx) as Lx. pose proof (lip_len d L v y Hv Hy) as Ly.
    assert (K : forall x' y', length x' = d -> length y' = d -> adds d (1 + 5 / 2 * z) e x y x' y' ->
      exists e', apart e' (ab2_path Rops st (Some (v x)) x') (ab2_path Rops st (Some (v y)) y') /\ F ^ S (length st) * e <= e').
    { intros x' y' Hx' Hy' HS. destruct (adds_apart _ e x y x' y' Hx Hy (Rle_refl _) (conj He (conj N HA)) HS) as (e1 & A1 & H1).
      destruct (IH x' y' e1 (Some (v x)) (Some (v y)) Hx' Hy' A1) as (e2 & A2 & H2).
      - split; [exact Lx|]. split; [exact Ly|]. exists e. split; [apply lip_near with (d := d); assumption|].
        assert (1 / 2 * e <= (1 - 5 / 2 * z) * e) by (apply Rmult_le_compat_r; [exact He|exact Fh]). lra.
      - exists e2. split; [exact A2|]. apply F_chain with e1; assumption. }
    destruct vp as [a|], wp as [b|]; try contradiction.
    - destruct P as (Ha & Hb & ep & Nab & Hep). apply K; [apply (ab2_len d L); assumption|apply (ab2_len d L); assumption|]. apply ab2_adds with ep; assumption.
    - apply K; [apply (euler_len d L); assumption|apply (euler_len d L); assumption|].
      destruct (euler_adds d L h v x y e Hv Hx Hy N) as (c & k & l & ek & E1 & E2 & Hk & Hl & Nk & Hc).
      exists c, k, l, ek. repeat (split; [assumption|]). nra.
  Qed.

  Lemma path_lower m st : uniform d L h st -> forall x y e, length x = d -> length y = d -> apart e x y ->
    exists e', apart e' (path Rops m st x) (path Rops m st y) /\ F ^ length st * e <= e'.
  Proof.
    pose proof (z_pos L h HL) as Z. intros U x y e Hx Hy A. destruct m; cbn [path].
    - revert x y e Hx Hy A. induction U as [|[v h'] st [Hv Eh] _ IH]; intros x y e Hx Hy A; [exists e; split; [exact A|cbn; lra]|].
      cbn [fst snd] in Hv, Eh. subst h'. cbn [euler_path length]. pose proof A as (He & N & _).
      destruct (adds_apart (1 + z) e x y _ _ Hx Hy ltac:(lra) A (euler_adds d L h v x y e Hv Hx Hy N)) as (e1 & A1 & H1).
      destruct (IH _ _ e1 (euler_len d L h v x Hv Hx) (euler_len d L h v y Hv Hy) A1) as (e2 & A2 & H2).
      exists e2. split; [exact A2|]. apply F_chain with e1; assumption.
    - apply ab2_lower; auto.
    - revert x y e Hx Hy A. induction U as [|[v h'] st [Hv Eh] _ IH]; intros x y e Hx Hy A; [exists e; split; [exact A|cbn; lra]|].
      cbn [fst snd] in Hv, Eh. subst h'. cbn [rk4_path length]. pose proof A as (He & N & _).
      destruct (adds_apart _ e x y _ _ Hx Hy small_rk4 A (rk4_adds d L h v x y e Hv Hx Hy N)) as (e1 & A1 & H1).
      assert (K : forall q, length q = d -> length (textbook_rk4 Rops v h q) = d) by (apply (rk4_len d L); exact Hv).
      destruct (IH _ _ e1 (K x Hx) (K y Hy) A1) as (e2 & A2 & H2).
      exists e2. split; [exact A2|]. apply F_chain with e1; assumption.
  Qed.

  Lemma F_power n : F ^ n = exp (- (5 * (INR n * z))).
  Proof.
    induction n as [|n IH]; [cbn; rewrite Rmult_0_l, Rmult_0_r, Ropp_0, exp_0; reflexivity|].
    cbn [pow]. rewrite IH, <- exp_plus. f_equal. rewrite S_INR. ring.
  Qed.
End Lower.

Lemma norm_ge_2 F s : spectral_norm_2 F s -> Rabs (a00 F) <= s /\ Rabs (a10 F) <= s.
Proof.
  intros [H _]. specialize (H (1, 0)). unfold norm2, dot2, app22 in H. cbn [fst snd] in H.
  replace (1 * 1 + 0 * 0) with 1 in H by ring. rewrite sqrt_1, (Rmult_1_r s) in H.
  split; (eapply Rle_trans; [|exact H]); rewrite <- sqrt_Rsqr_abs; apply sqrt_le_1_alt; unfold Rsqr; nra.
Qed.
Lemma norm_ge_3 F s : spectral_norm_3 F s -> Rabs (b00 F) <= s /\ Rabs (b10 F) <= s /\ Rabs (b20 F) <= s.
Proof.
  intros [H _]. specialize (H (1, 0, 0)). unfold norm3, dot3v, app33, v0, v1, v2 in H. cbn [fst snd] in H.
  replace (1 * 1 + 0 * 0 + 0 * 0) with 1 in H by ring. rewrite sqrt_1, (Rmult_1_r s) in H.
  repeat split; (eapply Rle_trans; [|exact H]); rewrite <- sqrt_Rsqr_abs; apply sqrt_le_1_alt; unfold Rsqr; nra.
Qed.

Lemma quotient_large a x y G : x <> y -> G * Rabs (x - y) <= Rabs a -> G <= Rabs (a / (x - y)).
Proof.
  intros N H. assert (P : 0 < Rabs (x - y)) by (apply Rabs_pos_lt; lra). unfold Rdiv. rewrite Rabs_mult, Rabs_inv.
  apply Rmult_le_reg_r with (Rabs (x - y)); [exact P|]. rewrite Rmult_assoc, Rinv_l by lra. lra.
Qed.

Lemma value_at_least s K T : 0 < T -> 0 < K -> K <= s -> at_least (ln K / T) (ftle_value s T).
Proof.
  intros PT PK Hs. exists (ln s / T). unfold ftle_value. destruct (Req_EM_T s 0) as [|_]; [lra|]. split; [reflexivity|].
  unfold Rdiv. apply Rmult_le_compat_r; [left; apply Rinv_0_lt_compat; exact PT|]. destruct (Req_dec s K) as [->|]; [lra|]. left. apply ln_increasing; lra.
Qed.

Lemma contraction_form L h n : (2 <= n)%nat -> h <> 0 -> contraction_bound L n = ln (exp (- (5 * (INR n * (Rabs h * L))))) / ((INR n - 1) * Rabs h).
Proof.
  intros Hn Hh. assert (2 <= INR n) by (apply (le_INR 2); lia). assert (0 < Rabs h) by (apply Rabs_pos_lt; exact Hh).
  rewrite ln_exp. unfold contraction_bound. field. lra.
Qed.

Lemma both {A B : Type} (P Q : A -> Prop) (r : res (option (list A))) (g : list B) : 
  (exists f, r = Ok (Some f) /\ length f = length g /\ Forall P f) -> (exists f, r = Ok (Some f) /\ Forall Q f) ->
  exists f, r = Ok (Some f) /\ length f = length g /\ Forall (fun x => P x /\ Q x) f.
Proof.
  intros (f & E & Hl & HP) (f' & E' & HQ). rewrite E in E'. injection E' as <-. exists f. split; [exact E|]. split; [exact Hl|]. clear - HP HQ.
  induction HP; inversion HQ; subst; constructor; auto.
Qed.

Section Runs.
  Context {S P W : Type} (interpolate : S -> mat R -> S * res (mat R)) (eigvals : m33 R -> res (R * R * R))
    (mems : nat -> memory (T := R)) (write : W -> string -> list (xval R) -> mat R -> W * res unit)
    (I : (list R -> list R) -> S -> Prop) (HI : samples_field interpolate I).

  Theorem resolved2 L (v : nat -> list R -> list R) gs m (sv : solver R S P) (w : world R S P W) w0 id :
    0 <= L -> (forall j, lipschitz_field 2 L (fun _ => v j)) -> Forall axis_aligned2 gs ->
    presents_fields I (s_source sv) v -> I w0 (w_interp w) ->
    w_integrator w = fresh m -> s_writer sv = false -> src_id (s_source sv) = Ok id ->
    src_particles (s_source sv) (w_source w) = mk_particles Rops (layout2 gs) ->
    (2 <= src_steps (s_source sv))%nat -> src_timestep (s_source sv) <> 0 -> Rabs (src_timestep (s_source sv)) * L <= 1 / 5 ->
    exists f, snd (run Rops interpolate eigvals mems write sv w) = Ok (Some f) /\ length f = length gs /\
      Forall (fun x => at_most (strain_bound 2 m L (src_timestep (s_source sv)) (src_steps (s_source sv))) x /\
        at_least (contraction_bound L (src_steps (s_source sv))) x) f.
  Proof.
    intros HL Hv Ha HP Hs Hf Ew Eid Ep Hn Hh Hz.
    apply both; [exact (strain2 interpolate eigvals mems write I HI L v gs m sv w w0 id HL Hv Ha HP Hs Hf Ew Eid Ep Hn Hh)|]. rewrite mk_particles_2 in Ep.
    set (n := src_steps (s_source sv)) in *. set (h := src_timestep (s_source sv)) in *.
    destruct (as_map2 (path Rops m (run_fields (s_source sv) v))) as (psi & Hpsi).
    { apply path_len. apply run_fields_dim. intros j x Hx. exact (lip_len 2 L (v j) x (Hv j) Hx). }
    rewrite (run_moved2 Rops interpolate eigvals mems write I HI sv _ m w gs id w0 psi HP Hs Hf Eid Ep Ew Hpsi), compute_ftle_2.
    rewrite jacs_gradients2 by exact Ha. cbn [bind o_mul o_ofZ o_abs Rops]. rewrite period_R. fold n h.
    destruct (ftle2_spec (map (fun g => gradient2 g (image2 psi g)) gs) ((INR n - 1) * Rabs h) (period_nz n h ltac:(lia) Hh)) as (out & -> & Ho).
    cbn [bind]. exists out. split; [reflexivity|].
    set (G := exp (- (5 * (INR n * (Rabs h * L))))).
    assert (Apart : forall a b, snd a = snd b ->
      G * Rabs (fst a - fst b) <= Rabs (fst (psi a) - fst (psi b)) \/ G * Rabs (fst a - fst b) <= Rabs (snd (psi a) - snd (psi b))).
    { intros a b Eab. destruct (path_lower 2 L h HL Hz m (run_fields (s_source sv) v) (run_uniform 2 L (s_source sv) v Hv) (row2 a) (row2 b) (Rabs (fst a - fst b))) as (e & (Pe & _ & (i & Ei)) & He).
      - destruct a; reflexivity.
      - destruct b; reflexivity.
      - destruct a as [a1 a2], b as [b1 b2]. cbn [snd] in Eab. subst b2. split; [apply Rabs_pos|]. split; [|exists 0%nat; reflexivity].
        split; [reflexivity|]. intros [|[|[|i]]]; cbn; [lra| | |]; apply same; reflexivity.
      - rewrite !Hpsi in Ei. rewrite run_count, F_power in He by assumption. fold n G in He. rewrite <- Ei in He.
        destruct (psi a) as [p1 p2], (psi b) as [q1 q2]. destruct i as [|[|[|i]]]; cbn in He; [left; exact He|right; exact He| |];
          rewrite (Rminus_diag_eq 0 0 eq_refl), Rabs_R0 in He; left; (eapply Rle_trans; [exact He|apply Rabs_pos]). }
    assert (Pn : 2 <= INR n) by (apply (le_INR 2); lia). assert (Ph : 0 < Rabs h) by (apply Rabs_pos_lt; exact Hh).
    assert (PT : 0 < (INR n - 1) * Rabs h) by nra.
    rewrite (contraction_form L h n Hn Hh). fold G. assert (PG : 0 < G) by apply exp_pos.
    clear - Ho Ha Apart PT PG. revert out Ho. induction gs as [|g gs IH]; intros out Ho; cbn [map] in Ho; inversion Ho as [|? o ? os Hg Hrest]; subst; constructor.
    - inversion Ha as [|? ? Hag]; subst. destruct Hg as (s & Hs & ->). apply value_at_least; [exact PT|exact PG|].
      destruct (norm_ge_2 _ _ Hs) as [B0 B1]. unfold gradient2 in B0, B1. cbn [a00 a10 image2 g_left g_right g_top g_bottom] in B0, B1.
      destruct Hag as (E1 & E2 & Nx & Ny).
      destruct (Apart (g_right g) (g_left g) E1) as [K|K]; apply quotient_large in K; try exact Nx; lra.
    - inversion Ha; subst. apply IH; assumption.
  Qed.

  Context (He : eigvals_ok eigvals).
  Theorem resolved3 L (v : nat -> list R -> list R) gs m (sv : solver R S P) (w : world R S P W) w0 id :
    0 <= L -> (forall j, lipschitz_field 3 L (fun _ => v j)) -> Forall axis_aligned3 gs ->
    presents_fields I (s_source sv) v -> I w0 (w_interp w) ->
    w_integrator w = fresh m -> s_writer sv = false -> src_id (s_source sv) = Ok id ->
    src_particles (s_source sv) (w_source w) = mk_particles Rops (layout3 gs) ->
    (2 <= src_steps (s_source sv))%nat -> src_timestep (s_source sv) <> 0 -> Rabs (src_timestep (s_source sv)) * L <= 1 / 5 ->
    exists f, snd (run Rops interpolate eigvals mems write sv w) = Ok (Some f) /\ length f = length gs /\
      Forall (fun x => at_most (strain_bound 3 m L (src_timestep (s_source sv)) (src_steps (s_source sv))) x /\
        at_least (contraction_bound L (src_steps (s_source sv))) x) f.
  Proof.
    intros HL Hv Ha HP Hs Hf Ew Eid Ep Hn Hh Hz.
    apply both; [exact (strain3 interpolate eigvals mems write I HI He L v gs m sv w w0 id HL Hv Ha HP Hs Hf Ew Eid Ep Hn Hh)|]. rewrite mk_particles_3 in Ep.
    set (n := src_steps (s_source sv)) in *. set (h := src_timestep (s_source sv)) in *.
    destruct (as_map3 (path Rops m (run_fields (s_source sv) v))) as (psi & Hpsi).
    { apply path_len. apply run_fields_dim. intros j x Hx. exact (lip_len 3 L (v j) x (Hv j) Hx). }
    rewrite (run_moved3 Rops interpolate eigvals mems write I HI sv _ m w gs id w0 psi HP Hs Hf Eid Ep Ew Hpsi), compute_ftle_3.
    rewrite jacs_gradients3 by exact Ha. cbn [bind o_mul o_ofZ o_abs Rops]. rewrite period_R. fold n h.
    destruct (ftle3_spec eigvals (map (fun g => gradient3 g (image3 psi g)) gs) ((INR n - 1) * Rabs h) He (period_nz n h ltac:(lia) Hh)) as (out & -> & Ho).
    cbn [bind]. exists out. split; [reflexivity|].
    set (G := exp (- (5 * (INR n * (Rabs h * L))))).
    assert (Apart : forall a b, v1 a = v1 b -> v2 a = v2 b ->
      G * Rabs (v0 a - v0 b) <= Rabs (v0 (psi a) - v0 (psi b)) \/ G * Rabs (v0 a - v0 b) <= Rabs (v1 (psi a) - v1 (psi b)) \/
      G * Rabs (v0 a - v0 b) <= Rabs (v2 (psi a) - v2 (psi b))).
    { intros a b Eab Eac. destruct (path_lower 3 L h HL Hz m (run_fields (s_source sv) v) (run_uniform 3 L (s_source sv) v Hv) (row3 a) (row3 b) (Rabs (v0 a - v0 b))) as (e & (Pe & _ & (i & Ei)) & He').
      - destruct a as [[? ?] ?]; reflexivity.
      - destruct b as [[? ?] ?]; reflexivity.
      - destruct a as [[a1 a2] a3], b as [[b1 b2] b3]. cbn in Eab, Eac. subst b2 b3. split; [apply Rabs_pos|]. split; [|exists 0%nat; reflexivity].
        split; [reflexivity|]. intros [|[|[|[|i]]]]; cbn; [lra| | | |]; apply same; reflexivity.
      - rewrite !Hpsi in Ei. rewrite run_count, F_power in He' by assumption. fold n G in He'. rewrite <- Ei in He'.
        destruct (psi a) as [[p1 p2] p3], (psi b) as [[q1 q2] q3]. destruct i as [|[|[|[|i]]]]; cbn in He'; [left; exact He'|right; left; exact He'|right; right; exact He'| |];
          rewrite (Rminus_diag_eq 0 0 eq_refl), Rabs_R0 in He'; left; (eapply Rle_trans; [exact He'|apply Rabs_pos]). }
    assert (Pn : 2 <= INR n) by (apply (le_INR 2); lia). assert (Ph : 0 < Rabs h) by (apply Rabs_pos_lt; exact Hh).
    assert (PT : 0 < (INR n - 1) * Rabs h) by nra.
    rewrite (contraction_form L h n Hn Hh). fold G. assert (PG : 0 < G) by apply exp_pos.
    clear - Ho Ha Apart PT PG. revert out Ho. induction gs as [|g gs IH]; intros out Ho; cbn [map] in Ho; inversion Ho as [|? o ? os Hg Hrest]; subst; constructor.
    - inversion Ha as [|? ? Hag]; subst. destruct Hg as (s & Hs & ->). apply value_at_least; [exact PT|exact PG|].
      destruct (norm_ge_3 _ _ Hs) as (B0 & B1 & B2). unfold gradient3 in B0, B1, B2. cbn [b00 b10 b20 image3 h_left h_right h_top h_bottom h_front h_back] in B0, B1, B2.
      destruct Hag as (E1 & E2 & _ & _ & _ & _ & Nx & _).
      destruct (Apart (h_right g) (h_left g) E1 E2) as [K|[K|K]]; apply quotient_large in K; try exact Nx; lra.
    - inversion Ha; subst. apply IH; assumption.
  Qed.
End Runs.
