(** The FTLE is bounded by the Lipschitz constant of the velocity. *)
From Coq Require Import Reals Lra Lia Psatz.
From Verif Require Import Base Num Particles Jacobian Ftle Integrate DataSource Solver SpecFtle SpecSeeds SpecIntegrate
  SpecSolver SpecOrder SpecConverge SpecStrain FtleFacts2 FtleFacts3 ParticleFacts JacobianFacts SolverFacts SolverField SolverLinear
  OrderFacts OrderRK4 OrderMain ConvergeFacts ConvergeMain LimitMain.
Local Open Scope R_scope.

Definition lip (d : nat) (L : R) (v : list R -> list R) : Prop := lipschitz_field d L (fun _ => v).

Lemma abs_le_inv x e : Rabs x <= e -> - e <= x <= e.
Proof. unfold Rabs. destruct (Rcase_abs x); lra. Qed.

Section Growth.
  Context (d : nat) (L h : R) (HL : 0 <= L).
  Local Notation z := (Rabs h * L).
  Lemma z_pos : 0 <= z. Proof. pose proof (Rabs_pos h). nra. Qed.

  Definition step_growth (m : method) : R :=
    match m with MEuler => 1 + z | MAB2 => 1 + 2 * z | MRK4 => 1 + z + z ^ 2 / 2 + z ^ 3 / 6 + z ^ 4 / 24 end.

  Lemma lip_len v x : lip d L v -> length x = d -> length (v x) = d.
  Proof. intros [H _] Hx. exact (H 0 x Hx). Qed.
  Lemma lip_near v x y e : lip d L v -> length x = d -> length y = d -> near e x y -> near (L * e) (v x) (v y).
  Proof. intros [_ H] Hx Hy. exact (H 0 x y e Hx Hy). Qed.

  Lemma euler_spread v x y e : lip d L v -> length x = d -> length y = d -> near e x y ->
    near ((1 + z) * e) (textbook_euler Rops v h x) (textbook_euler Rops v h y).
  Proof.
    intros Hv Hx Hy N. apply near_le with (e + Rabs h * (L * e)); [|apply Req_le; ring].
    apply (near_stage d); auto using lip_len, lip_near.
  Qed.

  Lemma ab2_spread v vp wp x y e : lip d L v -> length x = d -> length y = d -> length vp = d -> length wp = d -> near e x y -> near (L * e) vp wp ->
    near ((1 + 2 * z) * e) (textbook_ab2 Rops v h vp x) (textbook_ab2 Rops v h wp y).
  Proof.
    intros Hv Hx Hy Hp Hw N Np. unfold textbook_ab2.
    assert (Lv : forall a b, length a = d -> length b = d -> length (vsub Rops (vscale Rops (o_three_halves Rops) a) (vscale Rops (o_half Rops) b)) = d).
    { intros a b Ha Hb. rewrite vsub_len, !vscale_len, Ha, Hb. apply Nat.min_id. }
    apply near_le with (e + Rabs h * (2 * (L * e))); [|apply Req_le; ring].
    pose proof (lip_len v x Hv Hx) as Lx. pose proof (lip_len v y Hv Hy) as Ly.
    apply (near_stage d); auto.
    destruct (lip_near v x y e Hv Hx Hy N) as [_ N1]. destruct Np as [_ N2]. split; [rewrite !Lv by assumption; reflexivity|].
    intro i. rewrite !coord_vsub by (rewrite !vscale_len; congruence). rewrite !coord_vscale. specialize (N1 i). specialize (N2 i).
    change (o_three_halves Rops) with (3 / 2). change (o_half Rops) with (1 / 2).
    apply abs_le_inv in N1, N2. apply Rabs_le. lra.
  Qed.

  (** A step adds to each particle something that differs between the two by no more than (growth - 1) times their distance. *)
  Definition adds (G e : R) (x y x' y' : list R) : Prop :=
    exists c k l ek, x' = x +v c *v k /\ y' = y +v c *v l /\ length k = d /\ length l = d /\ near ek k l /\ Rabs c * ek <= (G - 1) * e.

  Lemma adds_near G e x y x' y' : length x = d -> length y = d -> near e x y -> adds G e x y x' y' -> near (G * e) x' y'.
  Proof.
    intros Hx Hy N (c & k & l & ek & -> & -> & Hk & Hl & Nk & Hc). apply near_le with (e + Rabs c * ek); [apply (near_stage d); assumption|lra].
  Qed.

  Lemma euler_adds v x y e : lip d L v -> length x = d -> length y = d -> near e x y ->
    adds (1 + z) e x y (textbook_euler Rops v h x) (textbook_euler Rops v h y).
  Proof.
    intros Hv Hx Hy N. exists h, (v x), (v y), (L * e). split; [reflexivity|]. split; [reflexivity|].
    split; [apply lip_len; assumption|]. split; [apply lip_len; assumption|]. split; [apply lip_near; assumption|]. apply Req_le. ring.
  Qed.

  Lemma rk4_adds v x y e : lip d L v -> length x = d -> length y = d -> near e x y ->
    adds (step_growth MRK4) e x y (textbook_rk4 Rops v h x) (textbook_rk4 Rops v h y).
  Proof.
    intros Hv Hx Hy N. unfold textbook_rk4. cbv zeta.
    change (o_mul Rops (o_half Rops) h) with (1 / 2 * h). change (o_div Rops h (o_ofZ Rops 6)) with (h / 6). change (o_ofZ Rops 2) with 2.
    set (k1 := v x). set (l1 := v y).
    assert (A1 : length k1 = d) by (apply lip_len; assumption). assert (B1 : length l1 = d) by (apply lip_len; assumption).
    assert (N1 : near (L * e) k1 l1) by (apply lip_near; assumption).
    assert (E2 : Rabs (1 / 2 * h) = / 2 * Rabs h) by (rewrite Rabs_mult, Rabs_pos_eq by lra; lra).
    set (k2 := v (x +v 1 / 2 * h *v k1)). set (l2 := v (y +v 1 / 2 * h *v l1)).
    assert (A2 : length k2 = d) by (apply lip_len; [assumption|apply stage_length; assumption]).
    assert (B2 : length l2 = d) by (apply lip_len; [assumption|apply stage_length; assumption]).
    assert (N2 : near (L * (e + / 2 * Rabs h * (L * e))) k2 l2).
    { apply lip_near; try apply stage_length; try assumption. rewrite <- E2. apply (near_stage d); assumption. }
    set (k3 := v (x +v 1 / 2 * h *v k2)). set (l3 := v (y +v 1 / 2 * h *v l2)).
    assert (A3 : length k3 = d) by (apply lip_len; [assumption|apply stage_length; assumption]).
    assert (B3 : length l3 = d) by (apply lip_len; [assumption|apply stage_length; assumption]).
    assert (N3 : near (L * (e + / 2 * Rabs h * (L * (e + / 2 * Rabs h * (L * e))))) k3 l3).
    { apply lip_near; try apply stage_length; try assumption. rewrite <- E2. apply (near_stage d); try assumption. rewrite E2. assumption. }
    set (k4 := v (x +v h *v k3)). set (l4 := v (y +v h *v l3)).
    assert (A4 : length k4 = d) by (apply lip_len; [assumption|apply stage_length; assumption]).
    assert (B4 : length l4 = d) by (apply lip_len; [assumption|apply stage_length; assumption]).
    assert (N4 : near (L * (e + Rabs h * (L * (e + / 2 * Rabs h * (L * (e + / 2 * Rabs h * (L * e))))))) k4 l4).
    { apply lip_near; try apply stage_length; try assumption. apply (near_stage d); assumption. }
    assert (E6 : Rabs (h / 6) = Rabs h / 6) by (unfold Rdiv; rewrite Rabs_mult, (Rabs_pos_eq (/ 6)) by lra; reflexivity).
    exists (h / 6). eexists _, _, _. split; [reflexivity|]. split; [reflexivity|]. split; [|split; [|split]].
    - apply sum_length; [apply stage_length; [apply stage_length|]|]; assumption.
    - apply sum_length; [apply stage_length; [apply stage_length|]|]; assumption.
    - apply (near_add d); [apply stage_length; [apply stage_length|]; assumption|apply stage_length; [apply stage_length|]; assumption|assumption|assumption| |eassumption].
      apply (near_stage d); [apply stage_length; assumption|apply stage_length; assumption|assumption|assumption| |eassumption].
      apply (near_stage d); eassumption.
    - rewrite E6, (Rabs_pos_eq 2) by lra. apply Req_le. unfold step_growth. field.
  Qed.

  Lemma rk4_spread v x y e : lip d L v -> length x = d -> length y = d -> near e x y ->
    near (step_growth MRK4 * e) (textbook_rk4 Rops v h x) (textbook_rk4 Rops v h y).
  Proof. intros Hv Hx Hy N. apply (adds_near _ _ x y); auto using rk4_adds. Qed.

  Lemma growth_ge_1 m : 1 <= step_growth m.
  Proof. pose proof z_pos as P. destruct m; cbn [step_growth]; try lra. pose proof (pow_le z 2 P). pose proof (pow_le z 3 P). pose proof (pow_le z 4 P). lra. Qed.

  Definition uniform (st : list ((list R -> list R) * R)) : Prop := Forall (fun a => lip d L (fst a) /\ snd a = h) st.

  Lemma euler_len v x : lip d L v -> length x = d -> length (textbook_euler Rops v h x) = d.
  Proof. intros Hv Hx. apply stage_length; [exact Hx|apply lip_len; assumption]. Qed.
  Lemma ab2_len v vp x : lip d L v -> length x = d -> length vp = d -> length (textbook_ab2 Rops v h vp x) = d.
  Proof. intros Hv Hx Hp. apply stage_length; [exact Hx|]. rewrite vsub_len, !vscale_len, (lip_len v x Hv Hx), Hp. apply Nat.min_id. Qed.

  Lemma rk4_len v : lip d L v -> forall q, length q = d -> length (textbook_rk4 Rops v h q) = d.
  Proof.
    intros Hv q Hq. unfold textbook_rk4. cbv zeta.
    assert (S : forall c k, length k = d -> length (v (q +v c *v k)) = d) by (intros c k Hk; apply lip_len; [exact Hv|apply stage_length; assumption]).
    pose proof (lip_len v q Hv Hq).
    apply stage_length; [exact Hq|]. apply sum_length; [apply stage_length; [apply stage_length|]|]; auto.
  Qed.

  Lemma ab2_growth st : uniform st -> forall x y e vp wp, length x = d -> length y = d -> 0 <= e -> near e x y ->
    match vp, wp with Some a, Some b => length a = d /\ length b = d /\ near (L * e) a b | None, None => True | _, _ => False end ->
    near (step_growth MAB2 ^ length st * e) (ab2_path Rops st vp x) (ab2_path Rops st wp y).
  Proof.
    pose proof z_pos as Z. induction 1 as [|[v h'] st [Hv Eh] _ IH]; intros x y e vp wp Hx Hy He N P; [cbn; apply near_le with e; [exact N|lra]|].
    cbn [fst snd] in Hv, Eh. subst h'. cbn [ab2_path length pow].
    replace (step_growth MAB2 * step_growth MAB2 ^ length st * e) with (step_growth MAB2 ^ length st * (step_growth MAB2 * e)) by ring.
    pose proof (growth_ge_1 MAB2) as G.
    assert (Q : near (L * (step_growth MAB2 * e)) (v x) (v y)) by (apply near_le with (L * e); [apply lip_near; assumption|apply Rmult_le_compat_l; [exact HL|nra]]).
    assert (E' : 0 <= step_growth MAB2 * e) by nra.
    pose proof (lip_len v x Hv Hx) as Lx. pose proof (lip_len v y Hv Hy) as Ly.
    destruct vp as [a|], wp as [b|]; try contradiction.
    - destruct P as (Ha & Hb & Nab). apply IH; auto using ab2_len. apply ab2_spread; assumption.
    - apply IH; auto using euler_len. apply near_le with ((1 + z) * e); [apply euler_spread; assumption|cbn [step_growth]; nra].
  Qed.

  Lemma path_growth m st : uniform st -> forall x y e, length x = d -> length y = d -> 0 <= e -> near e x y ->
    near (step_growth m ^ length st * e) (path Rops m st x) (path Rops m st y).
  Proof.
    intros U x y e Hx Hy He N. destruct m; cbn [path].
    - revert x y e Hx Hy He N. induction U as [|[v h'] st [Hv Eh] _ IH]; intros x y e Hx Hy He N; [cbn; apply near_le with e; [exact N|lra]|].
      cbn [fst snd] in Hv, Eh. subst h'. cbn [euler_path length pow].
      replace (step_growth MEuler * step_growth MEuler ^ length st * e) with (step_growth MEuler ^ length st * (step_growth MEuler * e)) by ring.
      pose proof (growth_ge_1 MEuler). apply IH; auto using euler_len; [nra|apply euler_spread; assumption].
    - apply ab2_growth; auto.
    - revert x y e Hx Hy He N. induction U as [|[v h'] st [Hv Eh] _ IH]; intros x y e Hx Hy He N; [cbn; apply near_le with e; [exact N|lra]|].
      cbn [fst snd] in Hv, Eh. subst h'. cbn [rk4_path length pow].
      replace (step_growth MRK4 * step_growth MRK4 ^ length st * e) with (step_growth MRK4 ^ length st * (step_growth MRK4 * e)) by ring.
      pose proof (growth_ge_1 MRK4).
      assert (K : forall x, length x = d -> length (textbook_rk4 Rops v h x) = d) by (apply rk4_len; exact Hv).
      apply IH; auto; [nra|apply rk4_spread; assumption].
  Qed.

  Lemma growth_exp m : step_growth m <= exp (weight m * z).
  Proof.
    pose proof z_pos as P. destruct m; cbn [step_growth weight].
    - rewrite Rmult_1_l. destruct (Req_dec z 0) as [->|N]; [rewrite exp_0; lra|]. left. apply exp_ineq1. lra.
    - destruct (Req_dec (2 * z) 0) as [E|N]; [rewrite E, exp_0; lra|]. left. apply exp_ineq1. lra.
    - rewrite Rmult_1_l. set (p := z) in *. clearbody p. clear - P.
      (* the Taylor polynomial of exp *)
      unfold exp. destruct (exist_exp p) as [s Hs]. cbn [proj1_sig].
      pose proof (sum_incr (fun i => / INR (fact i) * p ^ i) 4 s) as S. cbv beta in S.
      assert (T : sum_f_R0 (fun i => / INR (fact i) * p ^ i) 4 <= s).
      { apply S; [|intro n; apply Rmult_le_pos; [left; apply Rinv_0_lt_compat, lt_0_INR, lt_O_fact|apply pow_le; exact P]].
        intros eps He. destruct (Hs eps He) as [N HN]. exists N. intros n Hn. exact (HN n Hn). }
      eapply Rle_trans; [|exact T]. apply Req_le. cbn [sum_f_R0 fact INR pow Nat.mul Nat.add]. field.
  Qed.
  Lemma growth_power m n : step_growth m ^ n <= exp (weight m * (INR n * z)).
  Proof.
    pose proof (growth_ge_1 m) as G. eapply Rle_trans; [apply pow_incr; split; [lra|apply growth_exp]|].
    apply Req_le. induction n as [|n IH]; [cbn [pow INR]; rewrite Rmult_0_l, Rmult_0_r, exp_0; reflexivity|].
    cbn [pow]. rewrite IH, <- exp_plus. f_equal. rewrite S_INR. ring.
  Qed.
End Growth.

Lemma value_at_most s K T : 0 < T -> 0 <= s <= K -> 0 < K -> at_most (ln K / T) (ftle_value s T).
Proof.
  intros PT Hs PK. unfold ftle_value. destruct (Req_EM_T s 0) as [|N]; [destruct (Rlt_dec 0 T); [exact I|contradiction]|]. cbn.
  unfold Rdiv. apply Rmult_le_compat_r; [left; apply Rinv_0_lt_compat; exact PT|]. destruct (Req_dec s K) as [->|]; [lra|]. left. apply ln_increasing; lra.
Qed.

Lemma quotient_bound a b x y G : x <> y -> Rabs (a - b) <= G * Rabs (x - y) -> Rabs ((a - b) / (x - y) - 0) <= G.
Proof.
  intros N H. assert (P : 0 < Rabs (x - y)) by (apply Rabs_pos_lt; lra). rewrite Rminus_0_r. unfold Rdiv. rewrite Rabs_mult, Rabs_inv.
  apply Rmult_le_reg_r with (Rabs (x - y)); [exact P|]. rewrite Rmult_assoc, Rinv_l by lra. lra.
Qed.

Lemma same x y z : x = y -> Rabs (x - y) <= Rabs z.
Proof. intros ->. rewrite Rminus_diag_eq, Rabs_R0 by reflexivity. apply Rabs_pos. Qed.

Lemma forall2_len {A B} {Q : A -> B -> Prop} {l k} : Forall2 Q l k -> length l = length k.
Proof. induction 1; cbn; congruence. Qed.

Lemma spectral_zero_2 : spectral_norm_2 (M22 0 0 0 0) 0.
Proof. destruct (spectral_norm_2_exists (M22 0 0 0 0)) as (r & Hr). pose proof (zero_is_2 r Hr). subst r. exact Hr. Qed.
Lemma spectral_zero_3 : spectral_norm_3 (M33 0 0 0 0 0 0 0 0 0) 0.
Proof. destruct (spectral_norm_3_exists (M33 0 0 0 0 0 0 0 0 0)) as (r & Hr). pose proof (zero_is_3 r Hr). subst r. exact Hr. Qed.

Lemma run_uniform {S P} d L (src : source R S P) v : (forall j, lip d L (v j)) -> uniform d L (src_timestep src) (run_fields src v).
Proof. intro H. apply Forall_forall. intros a Ha. unfold run_fields in Ha. apply in_map_iff in Ha as (j & <- & _). split; [apply H|reflexivity]. Qed.
Lemma run_count {S P} (src : source R S P) v : length (run_fields src v) = src_steps src.
Proof. unfold run_fields. rewrite map_length, seq_length. reflexivity. Qed.

Section Runs.
  Context {S P W : Type} (interpolate : S -> mat R -> S * res (mat R)) (eigvals : m33 R -> res (R * R * R))
    (mems : nat -> memory (T := R)) (write : W -> string -> list (xval R) -> mat R -> W * res unit)
    (I : (list R -> list R) -> S -> Prop) (HI : samples_field interpolate I).

  Theorem strain2 L (v : nat -> list R -> list R) gs m (sv : solver R S P) (w : world R S P W) w0 id :
    0 <= L -> (forall j, lipschitz_field 2 L (fun _ => v j)) -> Forall axis_aligned2 gs ->
    presents_fields I (s_source sv) v -> I w0 (w_interp w) ->
    w_integrator w = fresh m -> s_writer sv = false -> src_id (s_source sv) = Ok id ->
    src_particles (s_source sv) (w_source w) = mk_particles Rops (layout2 gs) ->
    (2 <= src_steps (s_source sv))%nat -> src_timestep (s_source sv) <> 0 ->
    exists f, snd (run Rops interpolate eigvals mems write sv w) = Ok (Some f) /\ length f = length gs /\
      Forall (at_most (strain_bound 2 m L (src_timestep (s_source sv)) (src_steps (s_source sv)))) f.
  Proof.
    intros HL Hv Ha HP Hs Hf Ew Eid Ep Hn Hh. rewrite mk_particles_2 in Ep.
    set (n := src_steps (s_source sv)) in *. set (h := src_timestep (s_source sv)) in *.
    destruct (as_map2 (path Rops m (run_fields (s_source sv) v))) as (psi & Hpsi).
    { apply path_len. apply run_fields_dim. intros j x Hx. exact (lip_len 2 L (v j) x (Hv j) Hx). }
    rewrite (run_moved2 Rops interpolate eigvals mems write I HI sv _ m w gs id w0 psi HP Hs Hf Eid Ep Ew Hpsi), compute_ftle_2.
    rewrite jacs_gradients2 by exact Ha. cbn [bind o_mul o_ofZ o_abs Rops]. rewrite period_R. fold n h.
    destruct (ftle2_spec (map (fun g => gradient2 g (image2 psi g)) gs) ((INR n - 1) * Rabs h) (period_nz n h ltac:(lia) Hh)) as (out & -> & Ho).
    cbn [bind]. exists out. split; [reflexivity|]. split; [rewrite <- (forall2_len Ho), map_length; reflexivity|].
    set (G := step_growth L h m ^ n).
    assert (Spread : forall a b e, 0 <= e -> Rabs (fst a - fst b) <= e -> Rabs (snd a - snd b) <= e ->
      Rabs (fst (psi a) - fst (psi b)) <= G * e /\ Rabs (snd (psi a) - snd (psi b)) <= G * e).
    { intros a b e Pe H1 H2. apply near_row2. rewrite <- !Hpsi. unfold G, n. rewrite <- (run_count (s_source sv) v).
      destruct a as [a1 a2], b as [b1 b2].
      apply (path_growth 2 L h HL m); try reflexivity; [exact (run_uniform 2 L (s_source sv) v Hv)|exact Pe|].
      split; [reflexivity|]. intros [|[|[|i]]]; cbn; try assumption; rewrite Rminus_diag_eq, Rabs_R0 by reflexivity; exact Pe. }
    assert (PG : 1 <= G) by (apply pow_R1_Rle, growth_ge_1; exact HL).
    assert (Pn : 2 <= INR n) by (apply (le_INR 2); lia). assert (Ph : 0 < Rabs h) by (apply Rabs_pos_lt; exact Hh).
    assert (PT : 0 < (INR n - 1) * Rabs h) by nra.
    clear - Ho Ha Spread PG PT HL. revert out Ho. induction gs as [|g gs IH]; intros out Ho; cbn [map] in Ho; inversion Ho as [|? o ? os Hg Hrest]; subst; constructor.
    - inversion Ha as [|? ? Hag]; subst. destruct Hg as (s & Hs & ->). unfold strain_bound.
      assert (Hb : s <= 0 + 2 * G).
      { apply (norm_le_2 G (M22 0 0 0 0) (gradient2 g (image2 psi g))); [|apply spectral_zero_2|exact Hs].
        destruct Hag as (E1 & E2 & Nx & Ny).
          destruct (Spread (g_right g) (g_left g) (Rabs (fst (g_right g) - fst (g_left g)))) as [X1 X2]; [apply Rabs_pos|lra|apply same; exact E1|].
          destruct (Spread (g_top g) (g_bottom g) (Rabs (snd (g_top g) - snd (g_bottom g)))) as [Y1 Y2]; [apply Rabs_pos|apply same; exact E2|lra|].
          apply close22_sym. unfold gradient2, close22. cbn [a00 a01 a10 a11 image2 g_left g_right g_top g_bottom]. repeat split; apply quotient_bound; assumption. }
      replace (ln (INR 2) + weight m * (INR n * (Rabs h * L))) with (ln (2 * exp (weight m * (INR n * (Rabs h * L))))).
      2:{ rewrite ln_mult, ln_exp by (lra || apply exp_pos). reflexivity. }
      pose proof (growth_power L h HL m n) as K. fold G in K. pose proof (exp_pos (weight m * (INR n * (Rabs h * L)))).
      apply value_at_most; [exact PT|pose proof (spectral_norm_2_nonneg _ _ Hs); lra|lra].
    - inversion Ha; subst. apply IH; assumption.
  Qed.
  Context (He : eigvals_ok eigvals).
  Theorem strain3 L (v : nat -> list R -> list R) gs m (sv : solver R S P) (w : world R S P W) w0 id :
    0 <= L -> (forall j, lipschitz_field 3 L (fun _ => v j)) -> Forall axis_aligned3 gs ->
    presents_fields I (s_source sv) v -> I w0 (w_interp w) ->
    w_integrator w = fresh m -> s_writer sv = false -> src_id (s_source sv) = Ok id ->
    src_particles (s_source sv) (w_source w) = mk_particles Rops (layout3 gs) ->
    (2 <= src_steps (s_source sv))%nat -> src_timestep (s_source sv) <> 0 ->
    exists f, snd (run Rops interpolate eigvals mems write sv w) = Ok (Some f) /\ length f = length gs /\
      Forall (at_most (strain_bound 3 m L (src_timestep (s_source sv)) (src_steps (s_source sv)))) f.
  Proof.
    intros HL Hv Ha HP Hs Hf Ew Eid Ep Hn Hh. rewrite mk_particles_3 in Ep.
    set (n := src_steps (s_source sv)) in *. set (h := src_timestep (s_source sv)) in *.
    destruct (as_map3 (path Rops m (run_fields (s_source sv) v))) as (psi & Hpsi).
    { apply path_len. apply run_fields_dim. intros j x Hx. exact (lip_len 3 L (v j) x (Hv j) Hx). }
    rewrite (run_moved3 Rops interpolate eigvals mems write I HI sv _ m w gs id w0 psi HP Hs Hf Eid Ep Ew Hpsi), compute_ftle_3.
    rewrite jacs_gradients3 by exact Ha. cbn [bind o_mul o_ofZ o_abs Rops]. rewrite period_R. fold n h.
    destruct (ftle3_spec eigvals (map (fun g => gradient3 g (image3 psi g)) gs) ((INR n - 1) * Rabs h) He (period_nz n h ltac:(lia) Hh)) as (out & -> & Ho).
    cbn [bind]. exists out. split; [reflexivity|]. split; [rewrite <- (forall2_len Ho), map_length; reflexivity|].
    set (G := step_growth L h m ^ n).
    assert (Spread : forall a b e, 0 <= e -> Rabs (v0 a - v0 b) <= e -> Rabs (v1 a - v1 b) <= e -> Rabs (v2 a - v2 b) <= e ->
      Rabs (v0 (psi a) - v0 (psi b)) <= G * e /\ Rabs (v1 (psi a) - v1 (psi b)) <= G * e /\ Rabs (v2 (psi a) - v2 (psi b)) <= G * e).
    { intros a b e Pe H1 H2 H3. apply near_row3. rewrite <- !Hpsi. unfold G, n. rewrite <- (run_count (s_source sv) v).
      destruct a as [[a1 a2] a3], b as [[b1 b2] b3].
      apply (path_growth 3 L h HL m); try reflexivity; [exact (run_uniform 3 L (s_source sv) v Hv)|exact Pe|].
      split; [reflexivity|]. intros [|[|[|[|i]]]]; cbn; try assumption; rewrite Rminus_diag_eq, Rabs_R0 by reflexivity; exact Pe. }
    assert (PG : 1 <= G) by (apply pow_R1_Rle, growth_ge_1; exact HL).
    assert (Pn : 2 <= INR n) by (apply (le_INR 2); lia). assert (Ph : 0 < Rabs h) by (apply Rabs_pos_lt; exact Hh).
    assert (PT : 0 < (INR n - 1) * Rabs h) by nra.
    clear - Ho Ha Spread PG PT HL. revert out Ho. induction gs as [|g gs IH]; intros out Ho; cbn [map] in Ho; inversion Ho as [|? o ? os Hg Hrest]; subst; constructor.
    - inversion Ha as [|? ? Hag]; subst. destruct Hg as (s & Hs & ->). unfold strain_bound.
      assert (Hb : s <= 0 + 3 * G).
      { apply (norm_le_3 G (M33 0 0 0 0 0 0 0 0 0) (gradient3 g (image3 psi g))); [|apply spectral_zero_3|exact Hs].
        destruct Hag as (E1 & E2 & E3 & E4 & E5 & E6 & Nx & Ny & Nz).
        destruct (Spread (h_right g) (h_left g) (Rabs (v0 (h_right g) - v0 (h_left g)))) as (X1 & X2 & X3); [apply Rabs_pos|lra|apply same; exact E1|apply same; exact E2|].
        destruct (Spread (h_top g) (h_bottom g) (Rabs (v1 (h_top g) - v1 (h_bottom g)))) as (Y1 & Y2 & Y3); [apply Rabs_pos|apply same; exact E3|lra|apply same; exact E4|].
        destruct (Spread (h_front g) (h_back g) (Rabs (v2 (h_front g) - v2 (h_back g)))) as (Z1 & Z2 & Z3); [apply Rabs_pos|apply same; exact E5|apply same; exact E6|lra|].
        apply close33_sym. unfold gradient3, close33. cbn [b00 b01 b02 b10 b11 b12 b20 b21 b22 image3 h_left h_right h_top h_bottom h_front h_back].
        repeat split; apply quotient_bound; assumption. }
      replace (ln (INR 3) + weight m * (INR n * (Rabs h * L))) with (ln (3 * exp (weight m * (INR n * (Rabs h * L))))).
      2:{ rewrite ln_mult, ln_exp by (lra || apply exp_pos). f_equal. f_equal. cbn. ring. }
      pose proof (growth_power L h HL m n) as K. fold G in K. pose proof (exp_pos (weight m * (INR n * (Rabs h * L)))).
      apply value_at_most; [exact PT|pose proof (spectral_norm_3_nonneg _ _ Hs); lra|lra].
    - inversion Ha; subst. apply IH; assumption.
  Qed.
End Runs.
