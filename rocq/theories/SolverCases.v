(** Exact single-snapshot error, the general normalisation, and concrete runs. *)
From Coq Require Import Reals Lra Lia Floats.
From Verif Require Import Base Num NdArray Particles Jacobian Ftle Integrate Readers DataSource Solver SpecFtle SpecSeeds
  SpecIntegrate SpecFiles FtleFacts2 FtleFacts3 IntegrateFacts IntegratePoint IntegrateMisc ParticleFacts JacobianFacts
  ReaderFacts SpecSolver SolverFacts SolverField SolverLinear SolverRerun SolverMain.
Local Open Scope R_scope.

(* ---- C52, exact error ---- *)
Section Zero.
  Context {T : Type} (O : ops T) {S P W : Type}.
  Variable interpolate : S -> mat T -> S * res (mat T).
  Variable eigvals : m33 T -> res (T * T * T).
  Variable mems : nat -> memory (T := T).
  Variable write : W -> string -> list (xval T) -> mat T -> W * res unit.
  Variable I : (list T -> list T) -> S -> Prop.
  Hypothesis HI : samples_field interpolate I.

  Lemma mapr_err {A B} (f : A -> res B) e l : (forall x, (exists y, f x = Ok y) \/ f x = Err e) ->
    (exists ys, mapr f l = Ok ys) \/ mapr f l = Err e.
  Proof.
    intro H. induction l as [|x l IH]; cbn; [eauto|]. destruct (H x) as [(y & ->)| ->]; [|right; reflexivity]. cbn.
    destruct IH as [(ys & ->)| ->]; [left; eexists; reflexivity|right; reflexivity].
  Qed.
  Lemma jac2_group_err gg : (exists M, jac2_group O gg = Ok M) \/ jac2_group O gg = Err ZeroDivisionError.
  Proof. destruct (jac2_group_cases O gg) as [[_ H]|[_ H]]; auto. Qed.
  Lemma jac3_group_err gg : (exists M, jac3_group O gg = Ok M) \/ jac3_group O gg = Err ZeroDivisionError.
  Proof. destruct (jac3_group_cases O gg) as [[_ H]|[_ H]]; auto. Qed.

  Lemma single2 sv v m (w : world T S P W) w0 gs id :
    presents_fields I (s_source sv) v -> (forall j x, length x = 2%nat -> length (v j x) = 2%nat) ->
    I w0 (w_interp w) -> w_integrator w = fresh m -> s_writer sv = false ->
    src_id (s_source sv) = Ok id -> src_particles (s_source sv) (w_source w) = mk_particles O (layout2 gs) ->
    src_steps (s_source sv) = 1%nat -> zero_period O (src_timestep (s_source sv)) ->
    snd (run O interpolate eigvals mems write sv w) = Err ZeroDivisionError.
  Proof.
    intros HP Hv Hs Hf Ew Eid Ep Hn Hz. rewrite mk_particles_2 in Ep.
    destruct (as_map2 (path O m (run_fields (s_source sv) v))) as (phi & Hphi).
    { intros x Hx. apply path_len; [|exact Hx]. unfold run_fields. apply Forall_forall. intros a Ha.
      apply in_map_iff in Ha. destruct Ha as (j & <- & _). exact (Hv j). }
    rewrite (run_moved2 O interpolate eigvals mems write I HI sv v m w gs id w0 phi HP Hs Hf Eid Ep Ew Hphi).
    rewrite compute_ftle_2, Hn. change (Z.of_nat 1 - 1)%Z with 0%Z.
    destruct (mapr_err _ ZeroDivisionError gs (fun g => jac2_group_err (g, image2 phi g))) as [(Fs & ->)| ->]; [|reflexivity].
    cbn [bind]. unfold compute_ftle_2x2, ftle_of_eigs, py_div. unfold zero_period in Hz. rewrite Hz. reflexivity.
  Qed.
  Lemma single3 sv v m (w : world T S P W) w0 gs id :
    (forall M, exists e, eigvals M = Ok e) ->
    presents_fields I (s_source sv) v -> (forall j x, length x = 3%nat -> length (v j x) = 3%nat) ->
    I w0 (w_interp w) -> w_integrator w = fresh m -> s_writer sv = false ->
    src_id (s_source sv) = Ok id -> src_particles (s_source sv) (w_source w) = mk_particles O (layout3 gs) ->
    src_steps (s_source sv) = 1%nat -> zero_period O (src_timestep (s_source sv)) ->
    snd (run O interpolate eigvals mems write sv w) = Err ZeroDivisionError.
  Proof.
    intros He HP Hv Hs Hf Ew Eid Ep Hn Hz. rewrite mk_particles_3 in Ep.
    destruct (as_map3 (path O m (run_fields (s_source sv) v))) as (phi & Hphi).
    { intros x Hx. apply path_len; [|exact Hx]. unfold run_fields. apply Forall_forall. intros a Ha.
      apply in_map_iff in Ha. destruct Ha as (j & <- & _). exact (Hv j). }
    rewrite (run_moved3 O interpolate eigvals mems write I HI sv v m w gs id w0 phi HP Hs Hf Eid Ep Ew Hphi).
    rewrite compute_ftle_3, Hn. change (Z.of_nat 1 - 1)%Z with 0%Z.
    destruct (mapr_err _ ZeroDivisionError gs (fun g => jac3_group_err (g, image3 phi g))) as [(Fs & ->)| ->]; [|reflexivity].
    cbn [bind]. unfold compute_ftle_3x3, max_eigenvalue_3x3.
    assert (X : exists es, mapr (max_eig_3x3 O eigvals) (compute_cauchy_green_3x3 O Fs) = Ok es).
    { induction (compute_cauchy_green_3x3 O Fs) as [|C Cs (es & IH)]; cbn; [eauto|].
      unfold max_eig_3x3 at 1. destruct (He C) as ([[? ?] ?] & ->). cbn. rewrite IH. cbn. eauto. }
    destruct X as (es & ->). cbn [bind]. unfold ftle_of_eigs, py_div. unfold zero_period in Hz. rewrite Hz. reflexivity.
  Qed.

  (* ---- a run that gets through its steps ---- *)
  Lemma run_advance sv (w : world T S P W) id p ig s p' :
    s_writer sv = false -> src_id (s_source sv) = Ok id -> src_particles (s_source sv) (w_source w) = Ok p ->
    advance O interpolate mems (w_clock w) (s_source sv) (src_steps (s_source sv))
      (w_integrator w, w_interp w, p) (ig, s, p') ->
    exists q, run O interpolate eigvals mems write sv w =
      (World ig s (src_keep (s_source sv) (w_source w) p') (w_queue w ++ q) (w_writer w)
         (w_clock w + src_steps (s_source sv))%nat,
       let* f := compute_ftle O eigvals (src_steps (s_source sv)) (src_timestep (s_source sv)) p' in Ok (Some f)).
  Proof.
    intros Ew Eid Ep Ha.
    destruct (run O interpolate eigvals mems write sv w) as [w' r] eqn:E. apply run_outcome in E.
    destruct E as [(e & [H|[_ H]] & _) | (id2 & p2 & E1 & E2 & E)]; [congruence|congruence|].
    rewrite Eid in E1. injection E1 as <-. rewrite Ep in E2. injection E2 as <-. cbn zeta in E.
    destruct E as [(e & j & b & c & _ & Hj & Hb & Hbl & _) | (p2 & Ha2 & Ec & Eq & Es & E)].
    { exfalso. exact (advance_not_blocked _ _ _ _ _ _ _ _ Ha _ _ _ _ Hj Hb Hbl). }
    pose proof (advance_det _ _ _ _ _ _ _ _ Ha _ Ha2) as Heq. injection Heq as E1 E2 E3. subst p2.
    eexists. f_equal.
    - destruct w'. cbn in *. subst. f_equal. destruct E as [(e & _ & _ & E)|(f & _ & [(_ & _ & E)|(E & _)])]; congruence.
    - destruct E as [(e & -> & -> & _) | (f & -> & [(_ & -> & _)|(E & _)])]; [reflexivity|reflexivity|congruence].
  Qed.
End Zero.

(** Binary64: the period of a single snapshot is 0 for every finite time step. *)
Lemma zero_period_F lnF h : (exists b, Prim2SF h = S754_zero b) \/ (exists b m e, Prim2SF h = S754_finite b m e) ->
  zero_period (Fops lnF) h.
Proof.
  intro H. unfold zero_period, o_zero. cbn [o_eqb o_mul o_ofZ o_abs Fops].
  rewrite FloatAxioms.eqb_spec, FloatAxioms.mul_spec, FloatAxioms.abs_spec. change (Prim2SF (F_ofZ 0)) with (S754_zero false).
  destruct H as [(b & ->)|(b & m & e & ->)]; reflexivity.
Qed.

(* ---- C51, general ---- *)
Section Norm.
  Context {S P W : Type}.
  Variable interpolate : S -> mat R -> S * res (mat R).
  Variable eigvals : m33 R -> res (R * R * R).
  Variable mems : nat -> memory (T := R).
  Variable write : W -> string -> list (xval R) -> mat R -> W * res unit.

  Lemma normalised2 sv (w w' : world R S P W) f :
    s_writer sv = false -> (2 <= src_steps (s_source sv))%nat -> src_timestep (s_source sv) <> 0 ->
    run Rops interpolate eigvals mems write sv w = (w', Ok (Some f)) ->
    exists p p', src_particles (s_source sv) (w_source w) = Ok p /\
      advance Rops interpolate mems (w_clock w) (s_source sv) (src_steps (s_source sv))
        (w_integrator w, w_interp w, p) (w_integrator w', w_interp w', p') /\
      (num_neighbors p' = 4%nat -> exists Fs, compute_flow_map_jacobian_2x2 Rops p' = Ok Fs /\
         Forall2 (fun F x => exists s, spectral_norm_2 F s /\
           x = ftle_value s ((INR (src_steps (s_source sv)) - 1) * Rabs (src_timestep (s_source sv)))) Fs f).
  Proof.
    intros Ew Hn Hh E. apply run_ok in E; [|exact Ew]. destruct E as (id & p & p' & _ & Ep & Ha & Hf & _).
    exists p, p'. split; [exact Ep|split; [exact Ha|]]. intro H4. apply proj1 in Hf. specialize (Hf H4).
    destruct (compute_flow_map_jacobian_2x2 Rops p') as [Fs|e]; [|discriminate]. exists Fs. split; [reflexivity|].
    cbn [o_mul o_ofZ o_abs Rops] in Hf. rewrite period_R in Hf.
    destruct (ftle2_spec Fs _ (period_nz _ _ Hn Hh)) as (out & E & H). rewrite E in Hf. injection Hf as <-. exact H.
  Qed.
End Norm.

(* ---- concrete runs: v(x) = x ---- *)
Definition seed1 : group2 R := Group2 (-1, 0) (1, 0) (0, 1) (0, -1).
Definition scaled (s : R) : R * R -> R * R := fun x => (fst (app22 (scal22 s id22) x) + 0, snd (app22 (scal22 s id22) x) + 0).
Definition seed_at (s : R) : particles R := set_positions (mk2 Rops [seed1]) (layout2 [image2 (scaled s) seed1]).

Lemma seed1_aligned : Forall axis_aligned2 [seed1].
Proof. constructor; [|constructor]. unfold axis_aligned2; cbn. repeat split; lra. Qed.
Lemma norm_scaled s : 0 <= s -> spectral_norm_2 (scal22 s id22) s.
Proof.
  intro H. pose proof (spectral_norm_2_scal s id22 1) as X. rewrite (Rabs_pos_eq _ H), Rmult_1_r in X. apply X.
  split; [intro q; replace (app22 id22 q) with q; [lra|] | exists (1, 0); split; [|]].
  - destruct q as [a b]. unfold app22, id22. cbn. apply pair_eq; ring.
  - unfold norm2. replace (dot2 (1, 0) (1, 0)) with 1 by (unfold dot2; cbn; ring). apply sqrt_1.
  - unfold norm2. replace (dot2 _ _) with 1 by (unfold dot2, app22, id22; cbn; ring). apply sqrt_1.
Qed.
Lemma seed_value eigvals n h s : (2 <= n)%nat -> h <> 0 -> 0 < s ->
  compute_ftle Rops eigvals n h (seed_at s) = Ok [XVal (ln s / ((INR n - 1) * Rabs h))].
Proof.
  intros Hn Hh Hs. unfold compute_ftle. cbn [seed_at set_positions mk2 num_neighbors Nat.eqb].
  change (set_positions (mk2 Rops [seed1]) (layout2 [image2 (scaled s) seed1])) with (seed_at s).
  rewrite (jac2_affine [seed1] (scal22 s id22) (0, 0) (mk2 Rops [seed1]) (mk_particles_2 Rops _) seed1_aligned
    : compute_flow_map_jacobian_2x2 Rops (seed_at s) = _).
  cbn [bind o_mul o_ofZ o_abs Rops map]. rewrite period_R.
  rewrite (ftle2_one _ _ s (period_nz _ _ Hn Hh) (norm_scaled s (Rlt_le _ _ Hs))). unfold ftle_value.
  destruct (Req_EM_T s 0) as [E|_]; [lra|]. reflexivity.
Qed.
Lemma seed_at_1 : mk2 Rops [seed1] = seed_at 1.
Proof.
  unfold seed_at, mk2, set_positions. f_equal.
  unfold layout2, image2, seed1, scaled, app22, scal22, id22, arr2. cbn. repeat f_equal; ring.
Qed.

Ltac rows_ring := repeat match goal with
  | |- cons _ _ = cons _ _ => apply (f_equal2 (@cons _))
  | |- nil = nil => reflexivity
  | |- @eq R _ _ => ring
  end.
Ltac rows_field := repeat match goal with
  | |- cons _ _ = cons _ _ => apply (f_equal2 (@cons _))
  | |- nil = nil => reflexivity
  | |- @eq R _ _ => field
  end.

Section Demo.
  Context {W : Type}.
  Variable eigvals : m33 R -> res (R * R * R).
  Variable mems : nat -> memory (T := R).
  Variable write : W -> string -> list (xval R) -> mat R -> W * res unit.
  Variable w0 : W.
  Definition same_field : list R -> list R := fun x => x.

  Lemma euler_demo mem b s : (b = None \/ exists m, b = Some m /\ nrows m = 4%nat /\ mcols m = 2%nat) ->
    exists m, integrate Rops (@field_interp R) mem (Euler b) same_field 1 (seed_at s) =
      (Euler (Some m), same_field, seed_at (2 * s), Ok tt) /\ nrows m = 4%nat /\ mcols m = 2%nat.
  Proof.
    intro Hb.
    assert (E : exists m, integrate Rops (@field_interp R) mem (Euler b) same_field 1 (seed_at s) =
      (Euler (Some m), same_field, set_positions (mk2 Rops [seed1])
         (Mat 2 (map (fun x => vadd Rops x (vscale Rops 1 x)) (mrows (positions (seed_at s))))), Ok tt)
         /\ nrows m = 4%nat /\ mcols m = 2%nat).
    { destruct Hb as [->|(m & -> & H1 & H2)].
      - eexists. split; [reflexivity|split; reflexivity].
      - destruct m as [c rows]. cbn in H1, H2. subst c. destruct rows as [|r1 [|r2 [|r3 [|r4 [|]]]]]; try discriminate H1.
        eexists. split; [reflexivity|split; reflexivity]. }
    destruct E as (m & -> & H1 & H2). exists m. split; [|auto]. do 2 f_equal.
    unfold seed_at at 2. f_equal. unfold layout2, image2, arr2, seed_at, layout2, image2, seed1, arr2.
    cbn [positions set_positions mrows map app g_left g_right g_top g_bottom].
    unfold scaled, app22, scal22, id22. cbn. apply (f_equal (Mat 2)). rows_ring.
  Qed.

  Lemma euler_twice {P} k (src : source R (list R -> list R) P) s b : (b = None \/ exists m, b = Some m /\ nrows m = 4%nat /\ mcols m = 2%nat) ->
    src_timestep src = 1 -> (forall j x, src_update src x j = (x, Ok tt)) ->
    exists m, advance Rops (@field_interp R) mems k src 2 (Euler b, same_field, seed_at s)
      (Euler (Some m), same_field, seed_at (4 * s)) /\ nrows m = 4%nat /\ mcols m = 2%nat.
  Proof.
    intros Hb Hh Hu. destruct (euler_demo (mems (k + 0)) b s Hb) as (m1 & E1 & H1).
    destruct (euler_demo (mems (k + 1)) (Some m1) (2 * s)) as (m2 & E2 & H2); [right; eauto|].
    exists m2. split; [|exact H2]. replace (4 * s) with (2 * (2 * s)) by ring.
    refine (advance_S _ _ _ _ _ 1%nat _ _ _ _ _ _ _ _ _ (Hu _ _) _).
    - refine (advance_S _ _ _ _ _ 0%nat _ _ _ _ _ _ _ _ (advance_0 _ _ _ _ _ _) (Hu _ _) _). rewrite Hh. exact E1.
    - rewrite Hh. exact E2.
  Qed.

  (** C56 with the analytical source. *)
  Definition an2 : solver R (list R -> list R) (particles R) :=
    Solver (analytical_batch (fun _ => "0.000000"%string) 1 [0; 1]) true false.
  Definition an_world : world R (list R -> list R) (particles R) W := World (Euler None) same_field (mk2 Rops [seed1]) [] w0 0.
  Notation runs := (run Rops (@field_interp R) eigvals mems write).

  Lemma an_first : exists m q, runs an2 an_world = (World (Euler (Some m)) same_field (seed_at 4) q w0 2, Ok (Some [XVal (ln 4)]))
    /\ nrows m = 4%nat /\ mcols m = 2%nat.
  Proof.
    destruct (euler_twice (P := particles R) 0 (s_source an2) 1 None (or_introl eq_refl) eq_refl (fun _ _ => eq_refl)) as (m & Ha & Hm).
    rewrite Rmult_1_r, <- seed_at_1 in Ha.
    destruct (run_advance Rops (@field_interp R) eigvals mems write an2 an_world "0.000000"%string (mk2 Rops [seed1]) _ _ _ eq_refl eq_refl eq_refl Ha) as (q & E).
    exists m. eexists. split; [|exact Hm]. rewrite E. f_equal.
    cbn [an2 s_source analytical_batch src_steps src_timestep length].
    rewrite (seed_value eigvals 2 1 4) by (lia || lra). cbn [bind]. repeat f_equal. cbn. rewrite Rabs_R1. field.
  Qed.
  Lemma an_second : snd (runs an2 (fst (runs an2 an_world))) = Ok (Some [XVal (ln 16)]).
  Proof.
    destruct an_first as (m & q & -> & Hm). cbn [fst]. set (w := World _ _ _ _ _ _).
    destruct (euler_twice (P := particles R) 2 (s_source an2) 4 (Some m) (or_intror (ex_intro _ m (conj eq_refl Hm))) eq_refl (fun _ _ => eq_refl)) as (m' & Ha & _).
    replace (4 * 4) with 16 in Ha by ring.
    destruct (run_advance Rops (@field_interp R) eigvals mems write an2 w "0.000000"%string (seed_at 4) _ _ _ eq_refl eq_refl eq_refl Ha) as (q' & E).
    rewrite E. cbn [snd].
    cbn [an2 s_source analytical_batch src_steps src_timestep length].
    rewrite (seed_value eigvals 2 1 16) by (lia || lra). cbn [bind]. repeat f_equal. cbn. rewrite Rabs_R1. field.
  Qed.
  Lemma ln_neq a b : 0 < a -> a < b -> XVal (ln a) <> XVal (ln b).
  Proof. intros Ha Hb [= E]. pose proof (ln_increasing a b Ha Hb). lra. Qed.

  (** C56 with AB2 and a source that reads its particles again. *)
  Definition again2 : solver R (list R -> list R) unit :=
    Solver (Source (Ok "0.000000"%string) 1 2 (fun _ => Ok (mk2 Rops [seed1])) (fun u _ => u) (fun s _ => (s, Ok tt))) true false.
  Definition velocity_at (s : R) : mat R := positions (seed_at s).
  Lemma ab2_first mem b s : (b = None \/ exists m, b = Some m /\ nrows m = 4%nat /\ mcols m = 2%nat) ->
    integrate Rops (@field_interp R) mem (AB2 None b) same_field 1 (seed_at s) =
      (AB2 (Some (velocity_at s)) (Some (velocity_at s)), same_field, seed_at (2 * s), Ok tt).
  Proof.
    intros Hb.
    assert (E : integrate Rops (@field_interp R) mem (AB2 None b) same_field 1 (seed_at s) =
      (AB2 (Some (velocity_at s)) (Some (velocity_at s)), same_field, set_positions (mk2 Rops [seed1])
         (Mat 2 (map (fun x => vadd Rops x (vscale Rops 1 x)) (mrows (positions (seed_at s))))), Ok tt)).
    { destruct Hb as [->|(m & -> & H1 & H2)]; [reflexivity|].
      destruct m as [c rows]. cbn in H1, H2. subst c. destruct rows as [|r1 [|r2 [|r3 [|r4 [|]]]]]; try discriminate H1.
      reflexivity. }
    rewrite E. do 2 f_equal.
    unfold seed_at at 2. f_equal. unfold layout2, image2, arr2, seed_at, layout2, image2, seed1, arr2.
    cbn [positions set_positions mrows map app g_left g_right g_top g_bottom].
    unfold scaled, app22, scal22, id22. cbn. apply (f_equal (Mat 2)). rows_ring.
  Qed.
  Lemma ab2_later mem s t :
    integrate Rops (@field_interp R) mem (AB2 (Some (velocity_at t)) (Some (velocity_at t))) same_field 1 (seed_at s) =
      (AB2 (Some (velocity_at s)) (Some (velocity_at s)), same_field, seed_at (5/2 * s - 1/2 * t), Ok tt).
  Proof.
    assert (E : integrate Rops (@field_interp R) mem (AB2 (Some (velocity_at t)) (Some (velocity_at t))) same_field 1 (seed_at s) =
      (AB2 (Some (velocity_at s)) (Some (velocity_at s)), same_field, set_positions (mk2 Rops [seed1])
         (Mat 2 (zip_with (fun x y => vadd Rops x (vscale Rops 1 (vsub Rops (vscale Rops (o_three_halves Rops) x) (vscale Rops (o_half Rops) y))))
            (mrows (velocity_at s)) (mrows (velocity_at t)))), Ok tt)) by reflexivity.
    rewrite E. do 2 f_equal.
    unfold seed_at at 1. f_equal.
    unfold velocity_at, seed_at, layout2, image2, seed1, arr2.
    cbn [positions set_positions mrows map app g_left g_right g_top g_bottom].
    unfold scaled, app22, scal22, id22, o_three_halves, o_half. cbn. apply (f_equal (Mat 2)). rows_field.
  Qed.

  Lemma ab2_twice_fresh k s : advance Rops (@field_interp R) mems k (s_source again2) 2 (AB2 None None, same_field, seed_at s)
      (AB2 (Some (velocity_at (2 * s))) (Some (velocity_at (2 * s))), same_field, seed_at (9/2 * s)).
  Proof.
    replace (9/2 * s) with (5/2 * (2 * s) - 1/2 * s) by field.
    refine (advance_S _ _ _ _ (s_source again2) 1%nat _ _ _ _ _ _ _ _ _ eq_refl (ab2_later _ _ _)).
    refine (advance_S _ _ _ _ (s_source again2) 0%nat _ _ _ _ _ _ _ _ (advance_0 _ _ _ _ _ _) eq_refl (ab2_first _ _ _ (or_introl eq_refl))).
  Qed.
  Lemma ab2_twice_later k s t : advance Rops (@field_interp R) mems k (s_source again2) 2
      (AB2 (Some (velocity_at t)) (Some (velocity_at t)), same_field, seed_at s)
      (AB2 (Some (velocity_at (5/2 * s - 1/2 * t))) (Some (velocity_at (5/2 * s - 1/2 * t))), same_field,
       seed_at (5/2 * (5/2 * s - 1/2 * t) - 1/2 * s)).
  Proof.
    refine (advance_S _ _ _ _ (s_source again2) 1%nat _ _ _ _ _ _ _ _ _ eq_refl (ab2_later _ _ _)).
    refine (advance_S _ _ _ _ (s_source again2) 0%nat _ _ _ _ _ _ _ _ (advance_0 _ _ _ _ _ _) eq_refl (ab2_later _ _ _)).
  Qed.
  Definition again_world : world R (list R -> list R) unit W := World (AB2 None None) same_field tt [] w0 0.
  Lemma again_first : exists q, runs again2 again_world =
    (World (AB2 (Some (velocity_at 2)) (Some (velocity_at 2))) same_field tt q w0 2, Ok (Some [XVal (ln (9/2))])).
  Proof.
    pose proof (ab2_twice_fresh 0 1) as Ha. rewrite !Rmult_1_r, <- seed_at_1 in Ha.
    destruct (run_advance Rops (@field_interp R) eigvals mems write again2 again_world "0.000000"%string (mk2 Rops [seed1]) _ _ _ eq_refl eq_refl eq_refl Ha) as (q & E).
    eexists. rewrite E. f_equal. cbn [again2 s_source src_steps src_timestep].
    rewrite (seed_value eigvals 2 1 (9/2)) by (lia || lra). cbn [bind]. repeat f_equal. cbn. rewrite Rabs_R1. field.
  Qed.
  Lemma again_second : snd (runs again2 (fst (runs again2 again_world))) = Ok (Some [XVal (ln (13/4))]).
  Proof.
    destruct again_first as (q & ->). cbn [fst]. set (w := World _ _ _ _ _ _).
    pose proof (ab2_twice_later 2 1 2) as Ha. rewrite <- seed_at_1 in Ha.
    replace (5/2 * (5/2 * 1 - 1/2 * 2) - 1/2 * 1) with (13/4) in Ha by field.
    destruct (run_advance Rops (@field_interp R) eigvals mems write again2 w "0.000000"%string (mk2 Rops [seed1]) _ _ _ eq_refl eq_refl eq_refl Ha) as (q' & E).
    rewrite E. cbn [snd again2 s_source src_steps src_timestep].
    rewrite (seed_value eigvals 2 1 (13/4)) by (lia || lra). cbn [bind]. repeat f_equal. cbn. rewrite Rabs_R1. field.
  Qed.

  (** C54: one snapshot. *)
  Definition one (wr : bool) : solver R (list R -> list R) (particles R) :=
    Solver (analytical_batch (fun _ => "0.000000"%string) 1 [0]) true wr.
  Lemma done_without_result wr : exists w', runs (one wr) an_world = (w', Err ZeroDivisionError) /\
    w_queue w' = [Progress "0.000000" 0; Done "0.000000"] /\ w_writer w' = w0.
  Proof.
    destruct (euler_demo (mems 0) None 1 (or_introl eq_refl)) as (m & E & _). rewrite <- seed_at_1 in E.
    unfold run, an_world. cbn [one s_source analytical_batch src_particles src_id src_steps length an_world w_source].
    cbn [run_steps src_update s_source one analytical_batch w_interp w_clock w_integrator src_timestep].
    fold same_field. rewrite E. cbn [run_steps].
    eexists. unfold compute_ftle. cbn [seed_at set_positions mk2 num_neighbors Nat.eqb].
    change (set_positions (mk2 Rops [seed1]) (layout2 [image2 (scaled (2 * 1)) seed1])) with (seed_at (2 * 1)).
    rewrite (jac2_affine [seed1] (scal22 (2 * 1) id22) (0, 0) (mk2 Rops [seed1]) (mk_particles_2 Rops _) seed1_aligned
      : compute_flow_map_jacobian_2x2 Rops (seed_at (2 * 1)) = _).
    cbn [bind map]. change (Z.of_nat 1 - 1)%Z with 0%Z. unfold compute_ftle_2x2, ftle_of_eigs, py_div.
    pose proof (zero_period_R 1) as Hz. unfold zero_period in Hz. rewrite Hz. split; [reflexivity|]. split; reflexivity.
  Qed.
End Demo.
