(** Lemmas about programs with another unit of time. *)
From Coq Require Import Lia Reals Lra FunctionalExtensionality.
From Verif Require Import Base Num NdArray Particles Jacobian Ftle Integrate GridInterp Interpolate Readers DataSource Solver FileRun Writers Batches FileUtils
  Hyper Manager Monitor Executor ManagerRun Jobs Decorators Program SpecUnits SpecTimescale SpecProgram SpecGridProgram UnitsFacts TimescaleFacts ManagerFacts
  ReverseFacts ExecutorMap.
Open Scope nat_scope.

Lemma batches_units c ss cs ps period h : (0 < c)%R ->
  create_batches Rops ss cs ps (c * period)%R (c * h)%R = rmap (map (retimed_task c)) (create_batches Rops ss cs ps period h).
Proof.
  intro Hc. unfold create_batches. assert (E : window_length Rops (c * period)%R (c * h)%R = window_length Rops period h).
  { unfold window_length, py_div. cbn [o_abs o_div o_eqb o_zero o_ofZ Rops]. unfold o_zero. cbn [o_ofZ Rops]. rewrite Rabs_mult, (Rabs_pos_eq c) by lra.
    unfold R_eqb. destruct (Req_EM_T h 0) as [->|Hh].
    - rewrite Rabs_R0. destruct (Req_EM_T (c * 0) 0); destruct (Req_EM_T 0 0); try reflexivity; try lra.
    - assert (Rabs h <> 0)%R by (apply Rabs_no_R0; exact Hh).
      destruct (Req_EM_T (c * Rabs h) 0) as [Z|_]; [apply Rmult_integral in Z; lra|]. destruct (Req_EM_T (Rabs h) 0); [contradiction|].
      cbn [bind]. replace (c * period / (c * Rabs h))%R with (period / Rabs h)%R by (field; split; lra). reflexivity. }
  rewrite E. destruct (window_length Rops period h) as [p|]; [|reflexivity]. cbn [bind].
  destruct (cycled cs _) as [cc|]; [|reflexivity]. cbn [bind]. destruct (cycled ps _) as [pc|]; [|reflexivity]. cbn [bind].
  destruct (mapr (get pc) _) as [pb|]; [|reflexivity]. cbn [bind]. rewrite <- mapr_rmap. apply mapr_ext. intro i.
  destruct (get (map _ _) i) as [s|]; [|reflexivity]. cbn [bind]. destruct (get (map _ _) i) as [co|]; [|reflexivity]. cbn [bind].
  destruct (get pb i) as [q|]; [|reflexivity]. cbn [bind]. unfold mk_file_source. destruct s; reflexivity.
Qed.

Lemma job_like {S P S' P' A B} (g : A -> B) c i (work : world R S P (@wstate R) -> world R S P (@wstate R) * res A)
  (work' : world R S' P' (@wstate R) -> world R S' P' (@wstate R) * res B) w w' :
  let out := work (with_files w no_files) in let out' := work' (with_files w' no_files) in
  snd out' = rmap g (snd out) -> w_queue (fst out') = w_queue (fst out) ->
  (forall p, w_files (w_writer (fst out')) p = option_map (retimed_output c) (w_files (w_writer (fst out)) p)) ->
  like g (retimed_results c) (job i work w) (job i work' w').
Proof.
  cbv zeta. intros E1 E2 E3. unfold job. split; [exact E2|split; [exact E1|split]]; intro fs; cbn [t_open t_effect]; extensionality p; unfold open_files, close_files, retimed_results; rewrite E3.
  - destruct (w_files _ p); cbn; [|reflexivity]. destruct (fs p) as [[]|]; reflexivity.
  - destruct (w_files _ p); cbn; [|reflexivity]. destruct (fs p) as [[|[|j []]|]|]; cbn; try reflexivity. destruct (j =? i); reflexivity.
Qed.

Section Units.
  Variable scp : scipy R.
  Variable c : R.
  Hypothesis Hc : (0 < c)%R.
  Hypothesis Hscp : homogeneous c scp.
  Variable parse_float : string -> res R.
  Variable eigvals : m33 R -> res (R * R * R).

  (** The manager of the run in the new unit. *)
  Definition unit_manager (m : manager scp) : manager scp :=
    Manager (m_snapshots m) (m_coordinates m) (m_particles m) (c * m_timestep m)%R (c * m_period m)%R (m_processes m) (m_integrator m) (m_interpolator m) (m_writer m).

  Lemma task_like imems mems inputs m f : retimed_interp c scp (m_interpolator m) = m_interpolator m -> retimed_integrator c (m_integrator m) = m_integrator m ->
    like (option_map (map (rate c))) (retimed_results c) (manager_task Rops scp imems mems eigvals inputs m f)
      (manager_task Rops scp (fun i k => retimed_memory c (imems i k)) (fun i k => retimed_memory c (mems i k)) eigvals (retimed c inputs) (unit_manager m) (fst f, retimed_task c (snd f))).
  Proof.
    intros E1 E2. unfold manager_task. cbn [fst snd]. change (m_writer (unit_manager m)) with (m_writer m).
    assert (Hc' : c <> 0%R) by lra.
    pose proof (worker_map c Hc' scp Hscp (imems (fst f)) eigvals (mems (fst f)) (write Rops (m_writer m)) (wmap c) inputs (snd f) true true
      (with_files (manager_world scp m) no_files) (write_map c (m_writer m))) as H.
    assert (Ew : gworld c (retimed_istate c scp) (wmap c) (with_files (manager_world scp m) no_files) = with_files (manager_world scp (unit_manager m)) no_files).
    { unfold gworld, with_files, manager_world, retimed_istate. cbn. rewrite E1, E2. reflexivity. }
    rewrite Ew in H. apply job_like; rewrite H; cbn [fst snd]; [|reflexivity|reflexivity].
    match goal with |- rates _ ?x = _ => destruct x as [[]|] end; reflexivity.
  Qed.

  Lemma init_units texts a a' : experiment_name a' = experiment_name a ->
    list_velocity_files a' = list_velocity_files a -> list_coordinate_files a' = list_coordinate_files a -> list_particle_files a' = list_particle_files a ->
    Manager.integrator_name a' = Manager.integrator_name a -> interpolator_name a' = interpolator_name a -> num_processes a' = num_processes a ->
    output_format a' = output_format a -> flow_grid_shape a' = flow_grid_shape a -> particles_grid_shape a' = particles_grid_shape a ->
    Manager.snapshot_timestep a' = (c * Manager.snapshot_timestep a)%R -> flow_map_period a' = (c * flow_map_period a)%R ->
    manager_init Rops scp texts a' = rmap unit_manager (manager_init Rops scp texts a) /\
    forall m, manager_init Rops scp texts a = Ok m -> retimed_interp c scp (m_interpolator m) = m_interpolator m /\ retimed_integrator c (m_integrator m) = m_integrator m.
  Proof.
    intros E1 E2 E3 E4 E5 E6 E7 E8 E9 E10 Eh Ep. unfold manager_init. rewrite E1, E2, E3, E4, E5, E6, E7, E8, E9, E10, Eh, Ep.
    destruct (get_files_list (texts (list_velocity_files a))) as [vs|]; [|split; [reflexivity|discriminate]]. cbn [bind].
    destruct (get_files_list (texts (list_coordinate_files a))) as [cs|]; [|split; [reflexivity|discriminate]]. cbn [bind].
    destruct (get_files_list (texts (list_particle_files a))) as [ps|]; [|split; [reflexivity|discriminate]]. cbn [bind].
    assert (N : forall i, named (fun n => create_interpolator Rops scp n (shape_of (flow_grid_shape a)) None) (interpolator_name a) = Ok i -> retimed_interp c scp i = i).
    { intros i H. destruct (interpolator_name a) as [n|]; [|discriminate]. cbn in H. pose proof (new_map c scp n (shape_of (flow_grid_shape a))) as E. rewrite H in E. cbn in E. congruence. }
    assert (N' : forall i, named (@create_integrator R) (Manager.integrator_name a) = Ok i -> retimed_integrator c i = i).
    { intros i H. destruct (Manager.integrator_name a) as [n|]; [|discriminate]. cbn in H. unfold create_integrator in H. repeat (destruct (String.eqb _ _); [injection H as <-; reflexivity|]). discriminate. }
    destruct (named _ (interpolator_name a)) as [i|]; [|split; [reflexivity|discriminate]]. cbn [bind].
    destruct (named _ (Manager.integrator_name a)) as [ig|]; [|split; [reflexivity|discriminate]]. cbn [bind].
    destruct (match output_format a with Some f0 => _ | None => _ end) as [w|]; [|split; [reflexivity|discriminate]]. cbn [bind].
    destruct (paths vs); [|split; [reflexivity|discriminate]]. cbn [bind]. destruct (paths cs); [|split; [reflexivity|discriminate]]. cbn [bind].
    destruct (paths ps); [|split; [reflexivity|discriminate]]. cbn [bind]. split.
    - cbn [rmap]. unfold unit_manager. cbn [m_snapshots m_coordinates m_particles m_timestep m_period m_processes m_integrator m_interpolator m_writer].
      unfold handle_direction. cbn [o_ltb o_zero o_ofZ Rops]. unfold o_zero. cbn [o_ofZ Rops].
      replace (R_ltb (c * Manager.snapshot_timestep a) 0) with (R_ltb (Manager.snapshot_timestep a) 0); [reflexivity|].
      unfold R_ltb. destruct (Rlt_dec (Manager.snapshot_timestep a) 0) as [l|l], (Rlt_dec (c * Manager.snapshot_timestep a) 0) as [l'|l']; try reflexivity; exfalso; nra.
    - intros m [= <-]. cbn. split; [apply N|apply N']; reflexivity.
  Qed.

  Lemma ends_units texts inputs cl cl' a a' imems mems fs out fs' : parse_args parse_float cl = Ok a -> parse_args parse_float cl' = Ok a' ->
    experiment_name a' = experiment_name a ->
    list_velocity_files a' = list_velocity_files a -> list_coordinate_files a' = list_coordinate_files a -> list_particle_files a' = list_particle_files a ->
    Manager.integrator_name a' = Manager.integrator_name a -> interpolator_name a' = interpolator_name a -> num_processes a' = num_processes a ->
    output_format a' = output_format a -> flow_grid_shape a' = flow_grid_shape a -> particles_grid_shape a' = particles_grid_shape a ->
    Manager.snapshot_timestep a' = (c * Manager.snapshot_timestep a)%R -> flow_map_period a' = (c * flow_map_period a)%R ->
    main_ends Rops scp parse_float imems mems eigvals texts inputs cl fs out fs' ->
    main_ends Rops scp parse_float (fun i k => retimed_memory c (imems i k)) (fun i k => retimed_memory c (mems i k)) eigvals texts (retimed c inputs) cl'
      (retimed_results c fs) out (retimed_results c fs').
  Proof.
    intros Pa Pa' E1 E2 E3 E4 E5 E6 E7 E8 E9 E10 Eh Ep H.
    destruct (init_units texts a a' E1 E2 E3 E4 E5 E6 E7 E8 E9 E10 Eh Ep) as [Ei Ef].
    inversion H as [e He E|m s r Hm Hs Hx E]; subst; clear H.
    - apply init_fails. rewrite Pa in He. rewrite Pa'. cbn [bind] in *. rewrite Ei, He. reflexivity.
    - rewrite Pa in Hm. cbn [bind] in Hm. destruct (Ef m Hm) as [F1 F2].
      replace (guarded (let* _ := r in Ok tt)) with (guarded (let* _ := rmap (gresults (option_map (map (rate c)))) r in Ok tt)) by (destruct r; reflexivity).
      apply (run_ends Rops scp _ _ _ _ _ _ cl' _ (unit_manager m) (gstate (option_map (map (rate c))) (retimed_results c) s) _).
      + rewrite Pa'. cbn [bind]. rewrite Ei, Hm. reflexivity.
      + change (m_processes (unit_manager m)) with (m_processes m).
        apply (run_states_map _ _ (let* tasks := manager_batches Rops scp m in Ok (indexed tasks)) _ (manager_task Rops scp imems mems eigvals inputs m) _
          (fun f => (fst f, retimed_task c (snd f)))); [| |exact Hs].
        * unfold manager_batches. cbn [m_snapshots m_coordinates m_particles m_timestep m_period unit_manager]. rewrite batches_units by exact Hc.
          destruct (create_batches Rops _ _ _ _ (m_timestep m)) as [ts|]; cbn [rmap bind]; [|reflexivity]. rewrite indexed_map. reflexivity.
        * intro f. apply task_like; assumption.
      + cbn. rewrite Hx. reflexivity.
  Qed.
End Units.

(* ---- back to the old unit ---- *)
Section Inverse.
  Variable c : R.
  Hypothesis Hc : (0 < c)%R.
  Lemma inv_pos : (0 < / c)%R. Proof. apply Rinv_0_lt_compat, Hc. Qed.
  Lemma retime_inv v : retime (/ c) (retime c v) = v. Proof. unfold retime. field. lra. Qed.
  Lemma retime_inv' v : retime c (retime (/ c) v) = v. Proof. unfold retime. field. lra. Qed.
  Lemma rate_inv x : rate (/ c) (rate c x) = x.
  Proof. destruct x; cbn; try reflexivity. f_equal. pose proof inv_pos. rewrite !Rabs_pos_eq by lra. field. lra. Qed.
  Lemma both_inv z : both (retime c) (both (retime (/ c)) z) = z.
  Proof. destruct z. unfold both. cbn. rewrite !retime_inv'. reflexivity. Qed.
  Lemma both_inv' z : both (retime (/ c)) (both (retime c) z) = z.
  Proof. destruct z. unfold both. cbn. rewrite !retime_inv. reflexivity. Qed.
  Lemma map_inv {A} (f g : A -> A) l : (forall x, f (g x) = x) -> map f (map g l) = l.
  Proof. intro H. rewrite map_map. induction l as [|x l IH]; cbn; [reflexivity|]. rewrite H, IH. reflexivity. Qed.
  Lemma nd_inv {A} (f g : A -> A) (a : nd A) : (forall x, f (g x) = x) -> nd_values f (nd_values g a) = a.
  Proof. intro H. destruct a. unfold nd_values. cbn. rewrite (map_inv f g) by exact H. reflexivity. Qed.
  Lemma divided_inv {A} (f g : A -> A) r : (forall x, f (g x) = x) -> divided f (divided g r) = r.
  Proof. intro H. destruct r; cbn; [|reflexivity]. rewrite (map_inv f g) by exact H. reflexivity. Qed.
  Lemma homogeneous_inv scp : homogeneous c scp -> homogeneous (/ c) scp.
  Proof.
    intros (H1 & H2 & H3 & H4 & H5 & H6 & H7).
    assert (K : forall A (f g : A -> A) r r', (forall x, f (g x) = x) -> r' = divided g r -> r = divided f r') by (intros; subst; symmetry; apply divided_inv; assumption).
    repeat split; intros.
    - eapply K; [exact both_inv'|]. rewrite <- H1, (map_inv _ _ z both_inv). reflexivity.
    - eapply K; [exact both_inv'|]. rewrite <- H2, (map_inv _ _ z both_inv). reflexivity.
    - eapply K; [exact retime_inv|]. rewrite <- H3, (map_inv _ _ z retime_inv'). reflexivity.
    - eapply K; [exact both_inv'|]. rewrite <- H4, (map_inv _ _ z both_inv). reflexivity.
    - eapply K; [exact retime_inv|]. rewrite <- H5, (map_inv _ _ z retime_inv'). reflexivity.
    - rewrite <- (H6 m axes (nd_values (retime (/ c)) v)), (nd_inv _ _ v retime_inv'). reflexivity.
    - eapply K; [exact retime_inv|]. rewrite <- H7, (nd_inv _ _ b retime_inv'), (nd_inv _ _ v retime_inv'). reflexivity.
  Qed.
  Lemma retimed_inv inputs : retimed (/ c) (retimed c inputs) = inputs.
  Proof.
    extensionality p. unfold retimed. destruct (inputs p) as [data|]; [|reflexivity]. f_equal. extensionality name. unfold retimed_file.
    destruct (in_dec _ _ _); [|reflexivity]. destruct (data name) as [a|]; [|reflexivity]. cbn. destruct a. cbn. rewrite (map_inv _ _ _ retime_inv). reflexivity.
  Qed.
  Lemma results_inv fs : retimed_results (/ c) (retimed_results c fs) = fs.
  Proof.
    extensionality p. unfold retimed_results. destruct (fs p) as [[x| |]|]; cbn; try reflexivity. do 2 f_equal.
    destruct x; cbn; rewrite ?(map_inv _ _ _ rate_inv), ?(nd_inv _ _ _ rate_inv); reflexivity.
  Qed.
End Inverse.

Lemma units_program scp c : (0 < c)%R -> homogeneous c scp -> forall parse_float eigvals texts inputs cl cl' a a' fs out fs',
  parse_args parse_float cl = Ok a -> parse_args parse_float cl' = Ok a' ->
  experiment_name a' = experiment_name a ->
  list_velocity_files a' = list_velocity_files a -> list_coordinate_files a' = list_coordinate_files a -> list_particle_files a' = list_particle_files a ->
  Manager.integrator_name a' = Manager.integrator_name a -> interpolator_name a' = interpolator_name a -> num_processes a' = num_processes a ->
  output_format a' = output_format a -> flow_grid_shape a' = flow_grid_shape a -> particles_grid_shape a' = particles_grid_shape a ->
  Manager.snapshot_timestep a' = (c * Manager.snapshot_timestep a)%R -> flow_map_period a' = (c * flow_map_period a)%R ->
  (exists imems mems, main_ends Rops scp parse_float imems mems eigvals texts inputs cl fs out fs') <->
  (exists imems mems, main_ends Rops scp parse_float imems mems eigvals texts (retimed c inputs) cl' (retimed_results c fs) out (retimed_results c fs')).
Proof.
  intros Hc Hs parse_float eigvals texts inputs cl cl' a a' fs out fs' Pa Pa' E1 E2 E3 E4 E5 E6 E7 E8 E9 E10 Eh Ep. split; intros (imems & mems & H).
  - eexists _, _. exact (ends_units scp c Hc Hs parse_float eigvals texts inputs cl cl' a a' imems mems fs out fs' Pa Pa' E1 E2 E3 E4 E5 E6 E7 E8 E9 E10 Eh Ep H).
  - eexists _, _. rewrite <- (retimed_inv c Hc inputs), <- (results_inv c Hc fs), <- (results_inv c Hc fs').
    refine (ends_units scp (/ c) (inv_pos c Hc) (homogeneous_inv c Hc scp Hs) parse_float eigvals texts _ cl' cl a' a imems mems _ out _ Pa' Pa _ _ _ _ _ _ _ _ _ _ _ _ H);
      try (symmetry; assumption); rewrite ?Eh, ?Ep; field; lra.
Qed.
