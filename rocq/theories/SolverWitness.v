(** Concrete runs for the statements about the solver, and the plain form of some lemmas. *)
From Coq Require Import Reals Lra Lia.
From Verif Require Import Base Num NdArray Particles Jacobian Ftle Integrate Interpolate Readers DataSource Solver FileRun
  SpecFtle SpecSeeds SpecIntegrate SpecInterp SpecSolver ParticleFacts FtleFacts3 JacobianFacts
  SolverFacts SolverField SolverLinear SolverRerun SolverMain SolverCases FileRunFacts IntegrateMisc.
Local Open Scope R_scope.

(** The interpolator of [an2] and [one] samples v(x) = x and is never changed. *)
Definition only_same (v s : list R -> list R) : Prop := v = same_field /\ s = same_field.
Lemma only_same_ok : samples_field (@field_interp R) only_same.
Proof. intros v s m [-> ->]. exists same_field. split; [reflexivity|split; reflexivity]. Qed.
Lemma an2_presents : presents_fields only_same (s_source an2) (fun _ => same_field).
Proof. intros j w s _ [-> ->]. exists same_field. split; [reflexivity|split; reflexivity]. Qed.
Lemma one_presents wr : presents_fields only_same (s_source (one wr)) (fun _ => same_field).
Proof. intros j w s _ [-> ->]. exists same_field. split; [reflexivity|split; reflexivity]. Qed.

Lemma id_is_affine (x : R * R) : on_rows2 (aff2 id22 (0, 0)) (row2 x) = same_field (row2 x).
Proof. destruct x as [a b]. unfold on_rows2, aff2, app22, id22, same_field, row2. cbn. f_equal; [ring|f_equal; ring]. Qed.

Definition turning : nat -> R * R := fun j => (1, INR j).
Definition turning_source : source R (list R -> list R) unit :=
  Source (Ok "a"%string) (-2) 3 (fun _ => mk_particles Rops (layout2 [seed1])) (fun u _ => u)
    (fun _ j => (on_rows2 (fun _ => turning j), Ok tt)).
Lemma uniform_case : exists (src : source R (list R -> list R) unit) (c : nat -> R * R),
  presents_fields (fun v s => s = v) src (fun j => on_rows2 (fun _ => c j)) /\ c 0%nat <> c 1%nat /\
  src_particles src tt = mk_particles Rops (layout2 [seed1]) /\ Forall axis_aligned2 [seed1] /\
  src_steps src = 3%nat /\ src_timestep src = -2.
Proof.
  exists turning_source, turning. split; [|split; [|split; [reflexivity|split; [exact seed1_aligned|split; reflexivity]]]].
  - intros j w s _ _. eexists. split; reflexivity.
  - unfold turning. cbn. intros [= E]. lra.
Qed.

Lemma elapsed_refuted eigvals mems (write : unit -> string -> list (xval R) -> mat R -> unit * res unit) :
  exists (sv : solver R (list R -> list R) (particles R)) w w' p p' F s x,
  run Rops (@field_interp R) eigvals mems write sv w = (w', Ok (Some [x])) /\
  src_particles (s_source sv) (w_source w) = Ok p /\
  advance Rops (@field_interp R) mems (w_clock w) (s_source sv) 2
    (w_integrator w, w_interp w, p) (w_integrator w', w_interp w', p') /\
  compute_flow_map_jacobian_2x2 Rops p' = Ok [F] /\ spectral_norm_2 F s /\
  x <> ftle_value s (INR 2 * Rabs (src_timestep (s_source sv))).
Proof.
  destruct (an_first eigvals mems write tt) as (m & q & E & _).
  exists an2, (an_world tt). eexists. exists (mk2 Rops [seed1]), (seed_at 4), (scal22 4 id22), 4. eexists.
  split; [exact E|]. split; [reflexivity|]. apply run_ok in E; [|reflexivity].
  destruct E as (id & p & p' & _ & Ep & Ha & _ & Ew). cbn in Ep. injection Ep as <-.
  cbn [src_keep s_source an2 analytical_batch w_source] in Ew. injection Ew as Ew _. subst p'.
  split; [exact Ha|]. split; [|split; [apply norm_scaled; lra|]].
  - exact (jac2_affine [seed1] (scal22 4 id22) (0, 0) (mk2 Rops [seed1]) (mk_particles_2 Rops _) seed1_aligned).
  - unfold ftle_value. destruct (Req_EM_T 4 0) as [H|_]; [lra|].
    cbn [an2 s_source analytical_batch src_timestep]. rewrite Rabs_R1. intros [= H].
    assert (0 < ln 4) by (rewrite <- ln_1; apply ln_increasing; lra). cbn in H. lra.
Qed.

Lemma done_refuted eigvals mems (W : Type)
  (write : W -> string -> list (xval R) -> mat R -> W * res unit) (w0 : W) :
  exists (sv : solver R (list R -> list R) (particles R)) w w',
  s_writer sv = true /\ w_writer w = w0 /\
  run Rops (@field_interp R) eigvals mems write sv w = (w', Err ZeroDivisionError) /\
  w_queue w' = [Progress "0.000000" 0; Done "0.000000"] /\ w_writer w' = w0.
Proof.
  destruct (done_without_result eigvals mems write w0 true) as (w' & E & H).
  exists (one true), (an_world w0), w'. split; [reflexivity|]. split; [reflexivity|]. split; [exact E|exact H].
Qed.

Lemma done_integrated {T} (O : ops T) {S P W} interpolate eigvals mems
  (write : W -> string -> list (xval T) -> mat T -> W * res unit) (sv : solver T S P) (w w' : world T S P W) r id :
  run O interpolate eigvals mems write sv w = (w', r) -> ~ In (Done id) (w_queue w) -> In (Done id) (w_queue w') ->
  src_id (s_source sv) = Ok id /\ exists p p', src_particles (s_source sv) (w_source w) = Ok p /\
    advance O interpolate mems (w_clock w) (s_source sv) (src_steps (s_source sv))
      (w_integrator w, w_interp w, p) p'.
Proof.
  assert (N : forall id' n, ~ In (Done id) (step_messages id' n)).
  { intros id' n H. unfold step_messages in H. apply in_map_iff in H. destruct H as (x & H & _). discriminate. }
  intros E Hn Hi. apply messages in E. destruct E as [E1 E2]. destruct (s_queue sv); [|rewrite (E1 eq_refl) in Hi; contradiction].
  destruct (E2 eq_refl) as [(e & _ & _ & Eq) | (id' & p & Eid & Ep & [(m & e & b & c & _ & _ & _ & _ & Eq) | ((b & Hb) & Eq)])];
    rewrite Eq in Hi.
  - contradiction.
  - apply in_app_iff in Hi. destruct Hi as [Hi|Hi]; [contradiction|]. destruct (N _ _ Hi).
  - rewrite !in_app_iff in Hi. destruct Hi as [Hi|[Hi|[Hi|[]]]]; [contradiction|destruct (N _ _ Hi)|].
    injection Hi as ->. split; [exact Eid|]. exists p, b. split; [exact Ep|exact Hb].
Qed.

Lemma recorded eigvals mems : exists w',
  run Rops (@field_interp R) eigvals mems (fun W n f c => (W ++ [(n, f, c)], Ok tt))
    (Solver (s_source an2) true true) (an_world []) = (w', Ok None) /\
  w_writer w' = [("ftle_0.000000"%string, [XVal (ln 4)], initial_centroid (mk2 Rops [seed1]))].
Proof.
  set (wr := fun (W : list (string * list (xval R) * mat R)) n f c => (W ++ [(n, f, c)], Ok tt)).
  destruct (euler_twice mems (P := particles R) 0 (s_source an2) 1 None (or_introl eq_refl) eq_refl (fun _ _ => eq_refl)) as (m & Ha & _).
  rewrite Rmult_1_r, <- seed_at_1 in Ha.
  set (sv := Solver (s_source an2) true true).
  destruct (run Rops (@field_interp R) eigvals mems wr sv (an_world [])) as [w' r] eqn:E. exists w'.
  apply run_outcome in E.
  destruct E as [(e & [H|[_ H]] & _) | (id2 & p2 & E1 & E2 & E)]; [discriminate|discriminate|].
  cbn in E1, E2. injection E1 as <-. injection E2 as <-. cbn zeta in E.
  destruct E as [(e & j & b & c & _ & Hj & Hb & Hbl & _) | (p2 & Ha2 & Ec & Eq & Es & E)].
  { exfalso. exact (advance_not_blocked _ _ _ _ _ _ _ _ Ha _ _ _ _ Hj Hb Hbl). }
  pose proof (advance_det _ _ _ _ _ _ _ _ Ha _ Ha2) as Heq. injection Heq as _ _ E3. subst p2.
  cbn [sv s_source an2 analytical_batch src_steps src_timestep length] in E.
  rewrite (seed_value eigvals 2 1 4) in E by (lia || lra).
  destruct E as [(e & E & _) | (f & E & [(E2 & _) | (_ & rw & E2 & ->)])]; [discriminate E|discriminate E2|].
  injection E as <-. cbn in E2. injection E2 as E2 <-. split; [reflexivity|]. rewrite <- E2. rewrite Rabs_R1.
  replace (ln 4 / ((1 + 1 - 1) * 1)) with (ln 4) by field. reflexivity.
Qed.

Lemma rerun_analytical eigvals mems (write : unit -> string -> list (xval R) -> mat R -> unit * res unit) :
  let runs := run Rops (@field_interp R) eigvals mems write in
  exists (sv : solver R (list R -> list R) (particles R)) w, w_integrator w = Euler None /\
    snd (runs sv w) = Ok (Some [XVal (ln 4)]) /\ snd (runs sv (fst (runs sv w))) = Ok (Some [XVal (ln 16)]) /\
    ln 4 <> ln 16.
Proof.
  cbn zeta. exists an2, (an_world tt). split; [reflexivity|]. split; [|split; [apply an_second|]].
  - destruct (an_first eigvals mems write tt) as (m & q & E & _). rewrite E. reflexivity.
  - pose proof (ln_increasing 4 16). lra.
Qed.
Lemma rerun_ab2 eigvals mems (write : unit -> string -> list (xval R) -> mat R -> unit * res unit) :
  let runs := run Rops (@field_interp R) eigvals mems write in
  exists (sv : solver R (list R -> list R) unit) w, w_integrator w = AB2 None None /\
    snd (runs sv w) = Ok (Some [XVal (ln (9/2))]) /\ snd (runs sv (fst (runs sv w))) = Ok (Some [XVal (ln (13/4))]) /\
    ln (9/2) <> ln (13/4).
Proof.
  cbn zeta. exists again2, (again_world tt). split; [reflexivity|]. split; [|split; [apply again_second|]].
  - destruct (again_first eigvals mems write tt) as (q & E). rewrite E. reflexivity.
  - pose proof (ln_increasing (13/4) (9/2)). lra.
Qed.

Lemma rerun_files {T} (O : ops T) (scp : scipy T) imems fs f {W} eigvals mems
  (write : W -> string -> list (xval T) -> mat T -> W * res unit) q (w : world T (istate scp) unit W) :
  is_unstructured (fst (w_interp w)) ->
  reachable O (i_interpolate O scp imems) (w_integrator w) -> (forall a b, w_integrator w <> AB2 a b) ->
  (forall p, src_particles (file_task O scp fs f) tt = Ok p -> mcols (positions p) = 2%nat /\ nrows (positions p) <> 3%nat) ->
  let again := file_worker O scp imems eigvals mems write fs f q false in
  snd (again (fst (again w))) = snd (again w).
Proof.
  intros K R H Hp. apply file_rerun; [exact K|exact R| |exact Hp].
  destruct (w_integrator w) as [b|a b|b]; [exact I|destruct (H a b eq_refl)|exact I].
Qed.
