(** Uniform flows, normalisation, single snapshots, repeated runs. *)
From Coq Require Import Reals Lra Lia.
From Verif Require Import Base Num Particles Jacobian Ftle Integrate DataSource Solver SpecFtle SpecSeeds
  SpecIntegrate FtleFacts2 FtleFacts3 IntegrateFacts IntegratePoint ParticleFacts JacobianFacts SpecSolver SolverFacts SolverField SolverLinear.
Local Open Scope R_scope.

(* ---- uniform, time-dependent flows ---- *)
Definition uniform2 (v : list R -> list R) : Prop := exists c, forall q, v (row2 q) = row2 c.
Definition uniform3 (v : list R -> list R) : Prop := exists c, forall q, v (row3 q) = row3 c.
Definition shift2 (c x : R * R) : R * R := aff2 id22 c x.
Definition shift3 (c x : vec3) : vec3 := aff3 id33 c x.

Lemma shift2_comp c d x : shift2 c (shift2 d x) = shift2 (add2 c d) x.
Proof. unfold shift2, aff2, app22, add2, id22. cbn. apply pair_eq; ring. Qed.
Lemma shift3_comp c d x : shift3 c (shift3 d x) = shift3 (add3 c d) x.
Proof. unfold shift3, aff3, app33, add3, id33, v0, v1, v2. cbn. apply triple_eq; ring. Qed.
Lemma shift2_0 x : shift2 (0, 0) x = x.
Proof. apply aff2_id. Qed.
Lemma shift3_0 x : shift3 (0, 0, 0) x = x.
Proof. apply aff3_id. Qed.
Lemma row2_shift x h c : vadd Rops (row2 x) (vscale Rops h (row2 c)) = row2 (shift2 (scale2 h c) x).
Proof. destruct x, c. unfold shift2, aff2, app22, id22, scale2. cbn. apply row2_eq; ring. Qed.
Lemma row3_shift x h c : vadd Rops (row3 x) (vscale Rops h (row3 c)) = row3 (shift3 (scale3 h c) x).
Proof. destruct x as [[? ?] ?], c as [[? ?] ?]. unfold shift3, aff3, app33, id33, scale3, v0, v1, v2. cbn. apply row3_eq; ring. Qed.

Lemma uniform_step2 v h : uniform2 v -> exists c,
  (forall x, textbook_euler Rops v h (row2 x) = row2 (shift2 c x)).
Proof. intros [c H]. exists (scale2 h c). intro x. unfold textbook_euler. rewrite H. apply row2_shift. Qed.
Lemma uniform_rk2 v h : uniform2 v -> exists c, (forall x, textbook_rk4 Rops v h (row2 x) = row2 (shift2 c x)).
Proof.
  intros [c H]. exists (scale2 h c). intro x. unfold textbook_rk4. cbn [o_mul o_div o_ofZ Rops].
  assert (G : forall a, v (vadd Rops (row2 x) (vscale Rops a (row2 c))) = row2 c) by (intro a; rewrite row2_shift; apply H).
  rewrite !H, !G.
  destruct x, c. unfold shift2, aff2, app22, id22, scale2. cbn. apply row2_eq; field.
Qed.
Lemma uniform_ab2 v h w : uniform2 v -> exists c, (forall x, textbook_ab2 Rops v h (row2 w) (row2 x) = row2 (shift2 c x)).
Proof.
  intros [c H]. exists (scale2 h (add2 (scale2 (3/2) c) (scale2 (-1/2) w))). intro x. unfold textbook_ab2. rewrite H.
  destruct x, c, w. unfold shift2, aff2, app22, id22, scale2, add2, o_half, o_three_halves. cbn. apply row2_eq; field.
Qed.
Lemma uniform_step3 v h : uniform3 v -> exists c,
  (forall x, textbook_euler Rops v h (row3 x) = row3 (shift3 c x)).
Proof. intros [c H]. exists (scale3 h c). intro x. unfold textbook_euler. rewrite H. apply row3_shift. Qed.
Lemma uniform_rk3 v h : uniform3 v -> exists c, (forall x, textbook_rk4 Rops v h (row3 x) = row3 (shift3 c x)).
Proof.
  intros [c H]. exists (scale3 h c). intro x. unfold textbook_rk4. cbn [o_mul o_div o_ofZ Rops].
  assert (G : forall a, v (vadd Rops (row3 x) (vscale Rops a (row3 c))) = row3 c) by (intro a; rewrite row3_shift; apply H).
  rewrite !H, !G.
  destruct x as [[? ?] ?], c as [[? ?] ?]. unfold shift3, aff3, app33, id33, scale3, v0, v1, v2. cbn. apply row3_eq; field.
Qed.
Lemma uniform_ab3 v h w : uniform3 v -> exists c, (forall x, textbook_ab2 Rops v h (row3 w) (row3 x) = row3 (shift3 c x)).
Proof.
  intros [c H]. exists (scale3 h (add3 (scale3 (3/2) c) (scale3 (-1/2) w))). intro x. unfold textbook_ab2. rewrite H.
  destruct x as [[? ?] ?], c as [[? ?] ?], w as [[? ?] ?].
  unfold shift3, aff3, app33, id33, scale3, add3, o_half, o_three_halves, v0, v1, v2. cbn. apply row3_eq; field.
Qed.

Lemma uniform_path2 m st : Forall (fun a => uniform2 (fst a)) st ->
  exists c, forall q, path Rops m st (row2 q) = row2 (shift2 c q).
Proof.
  intro H. destruct m; cbn [path].
  - induction H as [|[v h] st Hv _ (c & IH)]; [exists (0, 0); intro q; rewrite shift2_0; reflexivity|].
    destruct (uniform_step2 v h Hv) as (d & Hd). exists (add2 c d). intro q. cbn [euler_path].
    rewrite Hd, IH, shift2_comp. reflexivity.
  - enough (G : forall vp, (forall w, vp = Some w -> exists u, w = row2 u) ->
       exists c, forall q, ab2_path Rops st vp (row2 q) = row2 (shift2 c q)) by (apply G; discriminate).
    induction H as [|[v h] st Hv _ IH]; intros vp Hvp; [exists (0, 0); intro q; rewrite shift2_0; reflexivity|].
    destruct Hv as [e He]. cbn [fst] in He. destruct (IH (Some (row2 e))) as (c & Hc); [intros w [= <-]; eauto|].
    destruct vp as [w|].
    + destruct (Hvp w eq_refl) as (u & ->). destruct (uniform_ab2 v h u (ex_intro _ e He)) as (d & Hd).
      exists (add2 c d). intro q. cbn [ab2_path]. rewrite He, Hd, Hc, shift2_comp. reflexivity.
    + destruct (uniform_step2 v h (ex_intro _ e He)) as (d & Hd).
      exists (add2 c d). intro q. cbn [ab2_path]. rewrite He, Hd, Hc, shift2_comp. reflexivity.
  - induction H as [|[v h] st Hv _ (c & IH)]; [exists (0, 0); intro q; rewrite shift2_0; reflexivity|].
    destruct (uniform_rk2 v h Hv) as (d & Hd). exists (add2 c d). intro q. cbn [rk4_path].
    rewrite Hd, IH, shift2_comp. reflexivity.
Qed.
Lemma uniform_path3 m st : Forall (fun a => uniform3 (fst a)) st ->
  exists c, forall q, path Rops m st (row3 q) = row3 (shift3 c q).
Proof.
  intro H. destruct m; cbn [path].
  - induction H as [|[v h] st Hv _ (c & IH)]; [exists (0, 0, 0); intro q; rewrite shift3_0; reflexivity|].
    destruct (uniform_step3 v h Hv) as (d & Hd). exists (add3 c d). intro q. cbn [euler_path].
    rewrite Hd, IH, shift3_comp. reflexivity.
  - enough (G : forall vp, (forall w, vp = Some w -> exists u, w = row3 u) ->
       exists c, forall q, ab2_path Rops st vp (row3 q) = row3 (shift3 c q)) by (apply G; discriminate).
    induction H as [|[v h] st Hv _ IH]; intros vp Hvp; [exists (0, 0, 0); intro q; rewrite shift3_0; reflexivity|].
    destruct Hv as [e He]. cbn [fst] in He. destruct (IH (Some (row3 e))) as (c & Hc); [intros w [= <-]; eauto|].
    destruct vp as [w|].
    + destruct (Hvp w eq_refl) as (u & ->). destruct (uniform_ab3 v h u (ex_intro _ e He)) as (d & Hd).
      exists (add3 c d). intro q. cbn [ab2_path]. rewrite He, Hd, Hc, shift3_comp. reflexivity.
    + destruct (uniform_step3 v h (ex_intro _ e He)) as (d & Hd).
      exists (add3 c d). intro q. cbn [ab2_path]. rewrite He, Hd, Hc, shift3_comp. reflexivity.
  - induction H as [|[v h] st Hv _ (c & IH)]; [exists (0, 0, 0); intro q; rewrite shift3_0; reflexivity|].
    destruct (uniform_rk3 v h Hv) as (d & Hd). exists (add3 c d). intro q. cbn [rk4_path].
    rewrite Hd, IH, shift3_comp. reflexivity.
Qed.

Lemma orth_id2 : orthogonal_2 id22.
Proof. unfold orthogonal_2, mul22, tr22, id22. cbn. apply m22_eq; ring. Qed.
Lemma orth_id3 : orthogonal_3 id33.
Proof. unfold orthogonal_3, mul33, tr33, id33. cbn. apply m33_eq; ring. Qed.

Section Runs.
  Context {S P W : Type}.
  Variable interpolate : S -> mat R -> S * res (mat R).
  Variable eigvals : m33 R -> res (R * R * R).
  Variable mems : nat -> memory (T := R).
  Variable write : W -> string -> list (xval R) -> mat R -> W * res unit.
  Variable I : (list R -> list R) -> S -> Prop.
  Hypothesis HI : samples_field interpolate I.

  Lemma run_uniform2 sv (w : world R S P W) w0 m c gs id :
    presents_fields I (s_source sv) (fun j => on_rows2 (fun _ => c j)) ->
    I w0 (w_interp w) -> w_integrator w = fresh m -> s_writer sv = false ->
    src_id (s_source sv) = Ok id -> src_particles (s_source sv) (w_source w) = mk_particles Rops (layout2 gs) ->
    Forall axis_aligned2 gs -> (2 <= src_steps (s_source sv))%nat -> src_timestep (s_source sv) <> 0 ->
    snd (run Rops interpolate eigvals mems write sv w) = Ok (Some (map (fun _ => XVal 0) gs)).
  Proof.
    intros HP Hs Hf Ew Eid Ep Hg Hn Hh. rewrite mk_particles_2 in Ep.
    destruct (uniform_path2 m (run_fields (s_source sv) (fun j => on_rows2 (fun _ => c j)))) as (d & Hd).
    { unfold run_fields. apply Forall_forall. intros a Ha. apply in_map_iff in Ha. destruct Ha as (j & <- & _).
      exists (c j). intros [x y]. reflexivity. }
    rewrite (run_moved2 Rops interpolate eigvals mems write I HI sv _ m w gs id w0 (shift2 d) HP Hs Hf Eid Ep Ew Hd).
    unfold compute_ftle. cbn [moved2 set_positions mk2 num_neighbors Nat.eqb].
    change (set_positions (mk2 Rops gs) (layout2 (map (image2 (shift2 d)) gs))) with (moved2 Rops (shift2 d) gs).
    unfold moved2, shift2, aff2.
    rewrite (jac2_affine gs id22 d (mk2 Rops gs) (mk_particles_2 Rops gs) Hg). cbn [bind o_mul o_ofZ o_abs Rops].
    rewrite period_R. rewrite ftle2_isometry.
    - rewrite map_map. reflexivity.
    - apply period_nz; assumption.
    - apply Forall_forall. intros F HF. apply in_map_iff in HF. destruct HF as (g & <- & _). apply orth_id2.
  Qed.
  Lemma run_uniform3 sv (w : world R S P W) w0 m c gs id : eigvals_ok eigvals ->
    presents_fields I (s_source sv) (fun j => on_rows3 (fun _ => c j)) ->
    I w0 (w_interp w) -> w_integrator w = fresh m -> s_writer sv = false ->
    src_id (s_source sv) = Ok id -> src_particles (s_source sv) (w_source w) = mk_particles Rops (layout3 gs) ->
    Forall axis_aligned3 gs -> (2 <= src_steps (s_source sv))%nat -> src_timestep (s_source sv) <> 0 ->
    snd (run Rops interpolate eigvals mems write sv w) = Ok (Some (map (fun _ => XVal 0) gs)).
  Proof.
    intros He HP Hs Hf Ew Eid Ep Hg Hn Hh. rewrite mk_particles_3 in Ep.
    destruct (uniform_path3 m (run_fields (s_source sv) (fun j => on_rows3 (fun _ => c j)))) as (d & Hd).
    { unfold run_fields. apply Forall_forall. intros a Ha. apply in_map_iff in Ha. destruct Ha as (j & <- & _).
      exists (c j). intros [[x y] z]. reflexivity. }
    rewrite (run_moved3 Rops interpolate eigvals mems write I HI sv _ m w gs id w0 (shift3 d) HP Hs Hf Eid Ep Ew Hd).
    unfold compute_ftle. cbn [moved3 set_positions mk3 num_neighbors Nat.eqb].
    change (set_positions (mk3 Rops gs) (layout3 (map (image3 (shift3 d)) gs))) with (moved3 Rops (shift3 d) gs).
    unfold moved3, shift3, aff3.
    rewrite (jac3_affine gs id33 d (mk3 Rops gs) (mk_particles_3 Rops gs) Hg). cbn [bind o_mul o_ofZ o_abs Rops].
    rewrite period_R. rewrite ftle3_isometry.
    - rewrite map_map. reflexivity.
    - exact He.
    - apply period_nz; assumption.
    - apply Forall_forall. intros F HF. apply in_map_iff in HF. destruct HF as (g & <- & _). apply orth_id3.
  Qed.

  (* ---- C51: the factor n / (n - 1) ---- *)
  Lemma period_factor s n h : s <> 0 -> (2 <= n)%nat -> h <> 0 ->
    ftle_value s ((INR n - 1) * Rabs h) = XVal (ln s / (INR n * Rabs h) * (INR n / (INR n - 1))).
  Proof.
    intros Hs Hn Hh. unfold ftle_value. destruct (Req_EM_T s 0) as [E|_]; [contradiction|]. f_equal.
    apply le_INR in Hn. cbn in Hn. pose proof (Rabs_no_R0 _ Hh). field. repeat split; lra.
  Qed.
  Lemma linear2_factor sv (w : world R S P W) w0 m A b gs id s :
    presents_fields I (s_source sv) (fun _ => on_rows2 (aff2 A b)) ->
    I w0 (w_interp w) -> w_integrator w = fresh m -> s_writer sv = false ->
    src_id (s_source sv) = Ok id -> src_particles (s_source sv) (w_source w) = mk_particles Rops (layout2 gs) ->
    Forall axis_aligned2 gs -> (2 <= src_steps (s_source sv))%nat -> src_timestep (s_source sv) <> 0 ->
    let n := src_steps (s_source sv) in let h := src_timestep (s_source sv) in
    spectral_norm_2 (propagator2 m A h n) s -> s <> 0 ->
    snd (run Rops interpolate eigvals mems write sv w) =
      Ok (Some (map (fun _ => XVal (ln s / (INR n * Rabs h) * (INR n / (INR n - 1)))) gs)).
  Proof.
    intros HP Hs Hf Ew Eid Ep Hg Hn Hh n h Hsn H0.
    destruct (linear2 interpolate eigvals mems write I HI sv w w0 m A b gs id HP Hs Hf Ew Eid Ep Hg Hn Hh) as (t & Ht & ->).
    rewrite (spectral_norm_2_unique _ _ _ Ht Hsn). do 2 f_equal. apply map_ext. intros _. apply period_factor; assumption.
  Qed.
  Lemma linear3_factor sv (w : world R S P W) w0 m A b gs id s : eigvals_ok eigvals ->
    presents_fields I (s_source sv) (fun _ => on_rows3 (aff3 A b)) ->
    I w0 (w_interp w) -> w_integrator w = fresh m -> s_writer sv = false ->
    src_id (s_source sv) = Ok id -> src_particles (s_source sv) (w_source w) = mk_particles Rops (layout3 gs) ->
    Forall axis_aligned3 gs -> (2 <= src_steps (s_source sv))%nat -> src_timestep (s_source sv) <> 0 ->
    let n := src_steps (s_source sv) in let h := src_timestep (s_source sv) in
    spectral_norm_3 (propagator3 m A h n) s -> s <> 0 ->
    snd (run Rops interpolate eigvals mems write sv w) =
      Ok (Some (map (fun _ => XVal (ln s / (INR n * Rabs h) * (INR n / (INR n - 1)))) gs)).
  Proof.
    intros He HP Hs Hf Ew Eid Ep Hg Hn Hh n h Hsn H0.
    destruct (linear3 interpolate eigvals mems write I HI sv w w0 m A b gs id He HP Hs Hf Ew Eid Ep Hg Hn Hh) as (t & Ht & ->).
    rewrite (spectral_norm_3_unique _ _ _ Ht Hsn). do 2 f_equal. apply map_ext. intros _. apply period_factor; assumption.
  Qed.
End Runs.

(* ---- C52 ---- *)
Section Single.
  Context {T : Type} (O : ops T) {S P W : Type}.
  Variable interpolate : S -> mat T -> S * res (mat T).
  Variable eigvals : m33 T -> res (T * T * T).
  Variable mems : nat -> memory (T := T).
  Variable write : W -> string -> list (xval T) -> mat T -> W * res unit.

  Lemma single_compute h p : zero_period O h -> exists e, compute_ftle O eigvals 1 h p = Err e.
  Proof.
    unfold zero_period. intro H. unfold compute_ftle. change (Z.of_nat 1 - 1)%Z with 0%Z.
    destruct (num_neighbors p =? 4)%nat.
    - destruct (compute_flow_map_jacobian_2x2 O p) as [Fs|e]; [|exists e; reflexivity]. cbn [bind].
      exists ZeroDivisionError. unfold compute_ftle_2x2, ftle_of_eigs, py_div. rewrite H. reflexivity.
    - destruct (compute_flow_map_jacobian_3x3 O p) as [Fs|e]; [|exists e; reflexivity]. cbn [bind].
      unfold compute_ftle_3x3. destruct (max_eigenvalue_3x3 O eigvals (compute_cauchy_green_3x3 O Fs)) as [es|e]; [|exists e; reflexivity].
      exists ZeroDivisionError. unfold ftle_of_eigs, py_div. cbn [bind]. rewrite H. reflexivity.
  Qed.

  Lemma single_fails sv (w w' : world T S P W) r :
    run O interpolate eigvals mems write sv w = (w', r) ->
    src_steps (s_source sv) = 1%nat -> zero_period O (src_timestep (s_source sv)) ->
    w_writer w' = w_writer w /\ exists e, r = Err e.
  Proof.
    intros E Hn Hz. apply run_outcome in E.
    destruct E as [(e & _ & -> & ->) | (id & p & _ & _ & E)]; [eauto|]. rewrite Hn in E. cbn zeta in E.
    destruct E as [(e & m & b & c & -> & _ & _ & _ & _ & _ & E & _) | (p' & _ & _ & _ & _ & E)]; [eauto|].
    destruct (single_compute (src_timestep (s_source sv)) p' Hz) as (e & He). rewrite He in E.
    destruct E as [(e' & _ & -> & E) | (f & E & _)]; [eauto|discriminate].
  Qed.
End Single.

Lemma zero_period_R h : zero_period Rops h.
Proof. unfold zero_period, o_zero. cbn. unfold R_eqb. destruct (Req_EM_T (0 * Rabs h) 0) as [_|H]; [reflexivity|]. lra. Qed.
