(** Lemmas about runs with another scale of time, and about runs backward in time. *)
From Coq Require Import Lia Reals Lra FunctionalExtensionality.
From Verif Require Import Base Num NdArray Particles Jacobian Ftle Integrate GridInterp Interpolate Readers DataSource Solver FileRun Writers Batches FileUtils
  Hyper Manager Monitor Executor ManagerRun Jobs Decorators Program SpecUnits SpecTimescale SpecProgram SpecGridProgram UnitsFacts TimescaleFacts ManagerFacts.
Open Scope nat_scope.

Section Run.
  Variable c : R.
  Hypothesis Hc : c <> 0%R.
  Notation fm := (mat_map (retime c)).
  Context {S P W : Type} (interp interp' : S -> mat R -> S * res (mat R)) (g : S -> S).
  Hypothesis Hi : forall s q, interp' (g s) q = (g (fst (interp s q)), rmap fm (snd (interp s q))).
  Variable eigvals : m33 R -> res (R * R * R).
  Variable mems : nat -> memory (T := R).
  Variable write : W -> string -> list (xval R) -> mat R -> W * res unit.
  Variable gW : W -> W.
  Hypothesis HW : forall w name field p, write (gW w) name (map (rate c) field) p = (gW (fst (write w name field p)), snd (write w name field p)).
  Variables sv sv' : solver R S P.
  Hypothesis Hid : src_id (s_source sv') = src_id (s_source sv).
  Hypothesis Hh : src_timestep (s_source sv') = (c * src_timestep (s_source sv))%R.
  Hypothesis Hn : src_steps (s_source sv') = src_steps (s_source sv).
  Hypothesis Hp : forall p, src_particles (s_source sv') p = src_particles (s_source sv) p.
  Hypothesis Hk : forall p q, src_keep (s_source sv') p q = src_keep (s_source sv) p q.
  Hypothesis Hu : forall s i, src_update (s_source sv') (g s) i = (g (fst (src_update (s_source sv) s i)), snd (src_update (s_source sv) s i)).
  Hypothesis Hq : s_queue sv' = s_queue sv.
  Hypothesis Hw : s_writer sv' = s_writer sv.

  Definition gworld (w : world R S P W) : world R S P W :=
    World (retimed_integrator c (w_integrator w)) (g (w_interp w)) (w_source w) (w_queue w) (gW (w_writer w)) (w_clock w).
  Notation mems' := (fun k => retimed_memory c (mems k)).

  Lemma steps_map id : forall n i w p, run_steps Rops interp' mems' sv' id n i (gworld w) p =
    match run_steps Rops interp mems sv id n i w p with (w', p', r) => (gworld w', p', r) end.
  Proof.
    induction n as [|n IH]; intros i w p; [reflexivity|]. cbn [run_steps]. change (w_interp (gworld w)) with (g (w_interp w)). rewrite Hu.
    destruct (src_update (s_source sv) (w_interp w) i) as [s1 [[]|]]; cbn [fst snd]; [|reflexivity].
    unfold integrate. rewrite Hh. change (w_integrator (gworld w)) with (retimed_integrator c (w_integrator w)). change (w_clock (gworld w)) with (w_clock w).
    rewrite (integrate_map c Hc interp interp' g Hi). destruct (integrate_pos Rops interp (mems (w_clock w)) (w_integrator w) s1 _ (positions p)) as [[ig s2] [pos|]]; cbn [out_map]; [|reflexivity].
    rewrite Hq. exact (IH (1 + i) (World ig s2 (w_source w) (if s_queue sv then w_queue w ++ [Progress id i] else w_queue w) (w_writer w) (1 + w_clock w)) (set_positions p pos)).
  Qed.
  Lemma ftle_map n h p : compute_ftle Rops eigvals n (c * h)%R p = rmap (map (rate c)) (compute_ftle Rops eigvals n h p).
  Proof.
    assert (E : forall es t, ftle_of_eigs Rops es (Rabs c * t)%R = rmap (map (rate c)) (ftle_of_eigs Rops es t)).
    { intros es t. pose proof (ftle_of_eigs_units c t es Hc) as E. destruct (ftle_of_eigs Rops es (Rabs c * t)%R), (ftle_of_eigs Rops es t); cbn in *; congruence. }
    unfold compute_ftle. cbn [o_mul o_ofZ o_abs Rops]. rewrite period_units. destruct (_ =? 4).
    - destruct (compute_flow_map_jacobian_2x2 Rops p); [|reflexivity]. cbn [bind]. apply E.
    - destruct (compute_flow_map_jacobian_3x3 Rops p); [|reflexivity]. cbn [bind]. unfold compute_ftle_3x3.
      destruct (max_eigenvalue_3x3 _ _); [|reflexivity]. cbn [bind]. apply E.
  Qed.
  Lemma run_map w : run Rops interp' eigvals mems' write sv' (gworld w) =
    (gworld (fst (run Rops interp eigvals mems write sv w)), rates c (snd (run Rops interp eigvals mems write sv w))).
  Proof.
    unfold run. change (w_source (gworld w)) with (w_source w). rewrite Hp. destruct (src_particles (s_source sv) (w_source w)) as [p|]; [|reflexivity].
    rewrite Hid. destruct (src_id (s_source sv)) as [id|]; [|reflexivity]. rewrite Hn, steps_map.
    destruct (run_steps Rops interp mems sv id (src_steps (s_source sv)) 0 w p) as [[w1 p1] [[]|]].
    2:{ cbn. unfold keep, gworld. cbn. rewrite Hk. reflexivity. }
    rewrite Hh, ftle_map. destruct (compute_ftle Rops eigvals (src_steps (s_source sv)) _ p1) as [field|]; cbn [rmap].
    2:{ cbn. unfold keep, gworld. cbn. rewrite Hk, Hq. reflexivity. }
    rewrite Hw. destruct (s_writer sv).
    - cbn [keep w_writer gworld]. rewrite HW. destruct (write (w_writer w1) _ field _) as [wr [[]|]]; cbn; unfold gworld; cbn; rewrite Hk, Hq; reflexivity.
    - cbn. unfold keep, gworld. cbn. rewrite Hk, Hq. reflexivity.
  Qed.
End Run.

Section Files.
  Variable c : R.
  Hypothesis Hc : c <> 0%R.
  Notation fm := (mat_map (retime c)).

  Lemma stack_map rows : stack (map (map (retime c)) rows) = rmap fm (stack rows).
  Proof.
    destruct rows as [|r rest]; [reflexivity|]. cbn [map stack]. rewrite map_length.
    assert (E : forallb (fun x => length x =? length r) (map (map (retime c)) rest) = forallb (fun x => length x =? length r) rest).
    { induction rest as [|x rest IH]; cbn; [reflexivity|]. rewrite map_length, IH. reflexivity. }
    rewrite E. destruct (forallb _ rest); reflexivity.
  Qed.
  Lemma velocity_map data : read_velocity (retimed_file c data) = rmap fm (read_velocity data).
  Proof.
    unfold read_velocity. change (retimed_file c data "velocity_x"%string) with (option_map (nd_values (retime c)) (data "velocity_x"%string)).
    change (retimed_file c data "velocity_y"%string) with (option_map (nd_values (retime c)) (data "velocity_y"%string)).
    change (retimed_file c data "velocity_z"%string) with (option_map (nd_values (retime c)) (data "velocity_z"%string)).
    destruct (data "velocity_x"%string) as [x|]; [|reflexivity]. destruct (data "velocity_y"%string) as [y|]; [|reflexivity].
    destruct (data "velocity_z"%string) as [z|]; cbn [option_map].
    - apply (stack_map [ravel_c x; ravel_c y; ravel_c z]).
    - apply (stack_map [ravel_c x; ravel_c y]).
  Qed.
  Lemma coordinate_map data : read_coordinate (retimed_file c data) = read_coordinate data.
  Proof. reflexivity. Qed.
  Lemma seeds_map data : read_seed_particles_coordinates Rops (retimed_file c data) = read_seed_particles_coordinates Rops data.
  Proof. reflexivity. Qed.
  Lemma data_map fs f i : get_data_for_step (retimed c fs) (retimed_task c f) i = rmap (fun x => (fm (fst x), snd x)) (get_data_for_step fs f i).
  Proof.
    unfold get_data_for_step. cbn [retimed_task snapshot_files coordinate_files reuse_coordinates]. destruct (get (snapshot_files f) i) as [vf|]; [|reflexivity].
    cbn [bind]. destruct (get (coordinate_files f) i) as [cf|]; [|reflexivity]. cbn [bind]. unfold retimed at 1. destruct (fs vf) as [vd|]; [|reflexivity]. cbn [bind].
    rewrite velocity_map. destruct (read_velocity vd) as [v|]; [|reflexivity]. cbn [rmap bind]. destruct (_ || _); [|reflexivity].
    unfold retimed. destruct (fs cf) as [cd|]; [|reflexivity]. cbn [bind]. rewrite coordinate_map. destruct (read_coordinate cd); reflexivity.
  Qed.

  Variable scp : scipy R.
  Hypothesis Hscp : homogeneous c scp.
  Definition retimed_istate (s : istate scp) : istate scp := (retimed_interp c scp (fst s), snd s).

  Lemma worker_map {W} imems eigvals mems (write : W -> string -> list (xval R) -> mat R -> W * res unit) gW fs f queue writer w :
    (forall w name field p, write (gW w) name (map (rate c) field) p = (gW (fst (write w name field p)), snd (write w name field p))) ->
    file_worker Rops scp (fun k => retimed_memory c (imems k)) eigvals (fun k => retimed_memory c (mems k)) write (retimed c fs) (retimed_task c f) queue writer
      (gworld c retimed_istate gW w) =
    (gworld c retimed_istate gW (fst (file_worker Rops scp imems eigvals mems write fs f queue writer w)),
     rates c (snd (file_worker Rops scp imems eigvals mems write fs f queue writer w))).
  Proof.
    intro HW. unfold file_worker. apply run_map; try reflexivity; try assumption.
    - intros [i k] q. unfold i_interpolate, retimed_istate. cbn [fst snd]. rewrite (interpolate_map c Hc scp Hscp).
      destruct (interpolate Rops scp (imems k) i q); reflexivity.
    - intro p. cbn. unfold retimed. destruct (fs (particle_file f)); reflexivity.
    - intros [i k] n. cbn [s_source file_task file_batch src_update]. rewrite data_map.
      destruct (get_data_for_step fs f n) as [[v p]|]; [|reflexivity]. cbn [rmap fst snd]. unfold i_update, retimed_istate. cbn [fst snd].
      rewrite (update_map c scp Hscp). destruct (update Rops scp i v p); reflexivity.
  Qed.
End Files.

(* ---- the writers ---- *)
Section Write.
  Variable c : R.
  Notation fr := (retimed_output c).
  Definition wmap (w : @wstate R) : @wstate R := WState (w_dim w) (fun p => option_map fr (w_files w p)).
  Lemma mat_content_map gs d field p : mat_content gs d (map (rate c) field) p = rmap fr (mat_content gs d field p).
  Proof.
    unfold mat_content. destruct gs as [[|n s]|].
    1,3: destruct (get_col p 0) as [x|]; [|reflexivity]; cbn [bind]; destruct (get_col p 1) as [y|]; [|reflexivity]; cbn [bind]; rewrite nd_map_list;
      destruct (d =? 3); [|reflexivity]; destruct (get_col p 2) as [z|]; reflexivity.
    destruct (grid3 (n :: s)) as [[[nx ny] nz]|]; [|reflexivity]. cbn [bind]. rewrite nd_map_list, reshape_c_map.
    destruct (reshape_c (nd_of_list field) _) as [f|]; [|reflexivity]. cbn [rmap bind]. destruct (reshape_c (nd_of_mat p) _) as [co|]; [|reflexivity]. cbn [bind].
    destruct (last_axis co 0) as [x|]; [|reflexivity]. cbn [bind]. destruct (last_axis co 1) as [y|]; [|reflexivity]. cbn [bind].
    destruct (d =? 3); [|reflexivity]. destruct (last_axis co 2) as [z|]; reflexivity.
  Qed.
  Lemma attach_map nx ny nz (pts : list (R * R * R)) v : attach nx ny nz pts (map (rate c) v) = rmap fr (attach nx ny nz pts v).
  Proof. unfold attach. rewrite map_length. destruct (_ =? _); [reflexivity|]. destruct (_ && _); reflexivity. Qed.
  Lemma transpose_102_map {A B} (f : A -> B) (a : nd A) : transpose_102 (nd_values f a) = rmap (nd_values f) (transpose_102 a).
  Proof.
    unfold transpose_102. cbn [shape nd_values]. destruct (shape a) as [|q [|r [|s [|]]]]; try reflexivity. rewrite <- nd_build_map.
    apply nd_build_ext. intros [|i [|j [|k [|]]]]; try reflexivity. apply nd_get_map.
  Qed.
  Lemma ravel_f_map {A B} (f : A -> B) (a : nd A) : ravel_f (nd_values f a) = rmap (map f) (ravel_f a).
  Proof. unfold ravel_f. cbn [shape nd_values]. rewrite <- mapr_rmap. apply mapr_ext. intro. apply nd_get_map. Qed.
  Lemma vtk_content_map gs d field p : vtk_content Rops gs d (map (rate c) field) p = rmap fr (vtk_content Rops gs d field p).
  Proof.
    unfold vtk_content. destruct gs as [[|nx [|ny [|nz [|]]]]|]; try reflexivity.
    - destruct (reshape_f (nd_of_mat p) _) as [co|]; [|reflexivity]. cbn [bind].
      destruct (last_axis co 0) as [x|]; [|reflexivity]. cbn [bind]. destruct (last_axis co 1) as [y|]; [|reflexivity]. cbn [bind].
      destruct (grid_points x y _) as [pts|]; [|reflexivity]. cbn [bind]. apply attach_map.
    - destruct (reshape_c (nd_of_mat p) _) as [co|]; [|reflexivity]. cbn [bind].
      destruct (last_axis co 0) as [x|]; [|reflexivity]. cbn [bind]. destruct (last_axis co 1) as [y|]; [|reflexivity]. cbn [bind].
      destruct (last_axis co 2) as [z|]; [|reflexivity]. cbn [bind].
      destruct (grid_points x y z) as [pts|]; [|reflexivity]. cbn [bind]. rewrite nd_map_list, reshape_c_map.
      destruct (reshape_c (nd_of_list field) _) as [m|]; [|reflexivity]. cbn [rmap bind]. rewrite transpose_102_map.
      destruct (transpose_102 m) as [t|]; [|reflexivity]. cbn [rmap bind]. rewrite ravel_f_map. destruct (ravel_f t) as [v|]; [|reflexivity]. cbn [rmap bind]. apply attach_map.
    - cbv zeta. destruct (negb _); [reflexivity|]. rewrite map_length. destruct (_ =? _); reflexivity.
  Qed.
  Lemma write_map wr w name field p : write Rops wr (wmap w) name (map (rate c) field) p = (wmap (fst (write Rops wr w name field p)), snd (write Rops wr w name field p)).
  Proof.
    unfold write. cbv zeta. change (w_dim (wmap w)) with (w_dim w). rewrite mat_content_map, vtk_content_map.
    set (d := match w_dim w with None => mcols p | Some d => d end).
    assert (E : match wr_format wr with Mat_format => rmap fr (mat_content (wr_shape wr) d field p) | Vtk_format => rmap fr (vtk_content Rops (wr_shape wr) d field p) end =
      rmap fr match wr_format wr with Mat_format => mat_content (wr_shape wr) d field p | Vtk_format => vtk_content Rops (wr_shape wr) d field p end) by (destruct (wr_format wr); reflexivity).
    rewrite E. clear E. destruct (match wr_format wr with Mat_format => _ | Vtk_format => _ end) as [x|]; cbn [rmap]; [|reflexivity].
    cbn. unfold wmap. cbn. do 2 f_equal. extensionality q. unfold put. destruct (String.eqb q _); reflexivity.
  Qed.
End Write.

(** A task with another scale of time. *)
Lemma task_retimed c scp name gs i method m wr eigvals imems mems inputs f queue writer : c <> 0%R -> homogeneous c scp ->
  create_interpolator Rops scp name gs None = Ok i -> create_integrator method = Ok m ->
  exists imems' mems', let w := World m (i, 0) tt [] (WState None no_files) 0 in
    let before := file_worker Rops scp imems eigvals mems (write Rops wr) inputs f queue writer w in
    let after := file_worker Rops scp imems' eigvals mems' (write Rops wr) (retimed c inputs) (retimed_task c f) queue writer w in
    snd after = rates c (snd before) /\ w_queue (fst after) = w_queue (fst before) /\
    forall p, w_files (w_writer (fst after)) p = option_map (retimed_output c) (w_files (w_writer (fst before)) p).
Proof.
  intros Hc Hs Hi Hm. exists (fun k => retimed_memory c (imems k)), (fun k => retimed_memory c (mems k)). cbv zeta.
  pose proof (worker_map c Hc scp Hs imems eigvals mems (write Rops wr) (wmap c) inputs f queue writer (World m (i, 0) tt [] (WState None no_files) 0) (write_map c wr)) as E.
  assert (Ew : gworld c (retimed_istate c scp) (wmap c) (World m (i, 0) tt [] (WState None no_files) 0) = World m (i, 0) tt [] (WState None no_files) 0).
  { unfold gworld, retimed_istate. cbn. f_equal.
    - unfold create_integrator in Hm. repeat (destruct (String.eqb _ _); [injection Hm as <-; reflexivity|]). discriminate.
    - pose proof (new_map c scp name gs) as N. rewrite Hi in N. cbn in N. congruence. }
  rewrite Ew in E. rewrite E. auto.
Qed.

(* ---- backward in time ---- *)
Lemma rate_back x : rate (-1) x = x.
Proof. destruct x; cbn; try reflexivity. f_equal. replace (Rabs (-1)) with 1%R by (rewrite Rabs_left; lra). field. Qed.
Lemma rates_back r : rates (-1) r = r.
Proof. destruct r as [[l|]|]; cbn; try reflexivity. do 2 f_equal. rewrite <- (map_id l) at 2. apply map_ext, rate_back. Qed.
Lemma retime_back v : retime (-1) (retime (-1) v) = v.
Proof. unfold retime. field. Qed.
Lemma memory_back mem : retimed_memory (-1) (retimed_memory (-1) mem) = mem.
Proof.
  extensionality k. extensionality i. extensionality j. unfold retimed_memory. destruct (k <? 4); [apply retime_back|reflexivity].
Qed.

Lemma indexed_map {A B} (g : A -> B) l : indexed (map g l) = map (fun x => (fst x, g (snd x))) (indexed l).
Proof.
  unfold indexed. rewrite map_length. generalize 0. induction l as [|x l IH]; intro n; cbn; [reflexivity|]. rewrite IH. reflexivity.
Qed.

Lemma batches_map ss cs ps period h : create_batches Rops ss cs ps period (-1 * h)%R = rmap (map (retimed_task (-1))) (create_batches Rops ss cs ps period h).
Proof.
  unfold create_batches. assert (E : window_length Rops period (-1 * h)%R = window_length Rops period h).
  { unfold window_length. cbn [o_abs Rops]. replace (-1 * h)%R with (- h)%R by ring. rewrite Rabs_Ropp. reflexivity. }
  rewrite E. destruct (window_length Rops period h) as [p|]; [|reflexivity]. cbn [bind].
  destruct (cycled cs _) as [cc|]; [|reflexivity]. cbn [bind]. destruct (cycled ps _) as [pc|]; [|reflexivity]. cbn [bind].
  destruct (mapr (get pc) _) as [pb|]; [|reflexivity]. cbn [bind]. rewrite <- mapr_rmap. apply mapr_ext. intro i.
  destruct (get (map _ _) i) as [s|]; [|reflexivity]. cbn [bind]. destruct (get (map _ _) i) as [co|]; [|reflexivity]. cbn [bind].
  destruct (get pb i) as [q|]; [|reflexivity]. cbn [bind]. unfold mk_file_source. destruct s; reflexivity.
Qed.

Section Back.
  Variable scp : scipy R.
  Hypothesis Hscp : homogeneous (-1) scp.
  Variable parse_float : string -> res R.
  Variable eigvals : m33 R -> res (R * R * R).

  (** The manager of the run in the other direction. *)
  Definition back (m : manager scp) : manager scp :=
    Manager (m_snapshots m) (m_coordinates m) (m_particles m) (-1 * m_timestep m)%R (m_period m) (m_processes m) (m_integrator m) (m_interpolator m) (m_writer m).

  Lemma task_map imems mems inputs m f : retimed_interp (-1) scp (m_interpolator m) = m_interpolator m -> retimed_integrator (-1) (m_integrator m) = m_integrator m ->
    manager_task Rops scp (fun i k => retimed_memory (-1) (imems i k)) (fun i k => retimed_memory (-1) (mems i k)) eigvals (retimed (-1) inputs) (back m) (fst f, retimed_task (-1) (snd f)) =
    manager_task Rops scp imems mems eigvals inputs m f.
  Proof.
    intros E1 E2. unfold manager_task, job. cbn [fst snd].
    assert (Hc : (-1 <> 0)%R) by lra.
    pose proof (worker_map (-1) Hc scp Hscp (imems (fst f)) eigvals (mems (fst f)) (write Rops (m_writer m)) (fun w => w) inputs (snd f) true true
      (with_files (manager_world scp m) no_files)) as H.
    assert (Ew : gworld (-1) (retimed_istate (-1) scp) (fun w => w) (with_files (manager_world scp m) no_files) = with_files (manager_world scp (back m)) no_files).
    { unfold gworld, with_files, manager_world, retimed_istate. cbn. rewrite E1, E2. reflexivity. }
    rewrite Ew in H. change (m_writer (back m)) with (m_writer m). rewrite H.
    - rewrite rates_back. destruct (file_worker Rops scp (imems (fst f)) eigvals (mems (fst f)) _ inputs (snd f) true true _) as [w' r]. reflexivity.
    - intros w name field p. replace (map (rate (-1)) field) with field by (rewrite <- (map_id field) at 1; apply map_ext; intro; rewrite rate_back; reflexivity).
      destruct (write Rops (m_writer m) w name field p); reflexivity.
  Qed.

  Lemma init_back texts texts' a a' vs cs ps : experiment_name a' = experiment_name a -> flow_map_period a' = flow_map_period a ->
    Manager.integrator_name a' = Manager.integrator_name a -> interpolator_name a' = interpolator_name a -> num_processes a' = num_processes a ->
    output_format a' = output_format a -> flow_grid_shape a' = flow_grid_shape a -> particles_grid_shape a' = particles_grid_shape a ->
    Manager.snapshot_timestep a' = (- Manager.snapshot_timestep a)%R -> (Manager.snapshot_timestep a < 0)%R ->
    listed texts (list_velocity_files a) vs -> listed texts (list_coordinate_files a) cs -> listed texts (list_particle_files a) ps ->
    listed texts' (list_velocity_files a') (rev vs) -> listed texts' (list_coordinate_files a') (rev cs) -> listed texts' (list_particle_files a') (rev ps) ->
    manager_init Rops scp texts' a' = rmap back (manager_init Rops scp texts a) /\
    forall m, manager_init Rops scp texts a = Ok m -> retimed_interp (-1) scp (m_interpolator m) = m_interpolator m /\ retimed_integrator (-1) (m_integrator m) = m_integrator m.
  Proof.
    intros E1 E2 E3 E4 E5 E6 E7 E8 Eh Hh L1 L2 L3 L1' L2' L3'. unfold manager_init, listed in *. rewrite L1, L2, L3, L1', L2', L3'. cbn [bind]. rewrite E1, E2, E3, E4, E5, E6, E7, E8, Eh.
    assert (N : forall i, named (fun n => create_interpolator Rops scp n (shape_of (flow_grid_shape a)) None) (interpolator_name a) = Ok i -> retimed_interp (-1) scp i = i).
    { intros i H. destruct (interpolator_name a) as [n|]; [|discriminate]. cbn in H. pose proof (new_map (-1) scp n (shape_of (flow_grid_shape a))) as E. rewrite H in E. cbn in E. congruence. }
    assert (N' : forall i, named (@create_integrator R) (Manager.integrator_name a) = Ok i -> retimed_integrator (-1) i = i).
    { intros i H. destruct (Manager.integrator_name a) as [n|]; [|discriminate]. cbn in H. unfold create_integrator in H. repeat (destruct (String.eqb _ _); [injection H as <-; reflexivity|]). discriminate. }
    destruct (named _ (interpolator_name a)) as [i|]; [|split; [reflexivity|discriminate]]. cbn [bind].
    destruct (named _ (Manager.integrator_name a)) as [ig|]; [|split; [reflexivity|discriminate]]. cbn [bind].
    destruct (match output_format a with Some f0 => _ | None => _ end) as [w|]; [|split; [reflexivity|discriminate]]. cbn [bind].
    rewrite !paths_some. cbn [bind]. split.
    - cbn [rmap]. unfold back. cbn [m_snapshots m_coordinates m_particles m_timestep m_period m_processes m_integrator m_interpolator m_writer].
      f_equal. unfold handle_direction. cbn [o_ltb o_zero o_ofZ Rops]. unfold o_zero. cbn [o_ofZ Rops].
      replace (R_ltb (- Manager.snapshot_timestep a) 0) with false by (unfold R_ltb; destruct (Rlt_dec _ _); [lra|reflexivity]).
      replace (R_ltb (Manager.snapshot_timestep a) 0) with true by (unfold R_ltb; destruct (Rlt_dec _ _); [reflexivity|lra]).
      f_equal. ring.
    - intros m [= <-]. cbn. split; [apply N|apply N']; reflexivity.
  Qed.

  Lemma ends_iff texts texts' inputs c c' a a' imems mems vs cs ps fs out fs' : parse_args parse_float c = Ok a -> parse_args parse_float c' = Ok a' ->
    experiment_name a' = experiment_name a -> flow_map_period a' = flow_map_period a ->
    Manager.integrator_name a' = Manager.integrator_name a -> interpolator_name a' = interpolator_name a -> num_processes a' = num_processes a ->
    output_format a' = output_format a -> flow_grid_shape a' = flow_grid_shape a -> particles_grid_shape a' = particles_grid_shape a ->
    Manager.snapshot_timestep a' = (- Manager.snapshot_timestep a)%R -> (Manager.snapshot_timestep a < 0)%R ->
    listed texts (list_velocity_files a) vs -> listed texts (list_coordinate_files a) cs -> listed texts (list_particle_files a) ps ->
    listed texts' (list_velocity_files a') (rev vs) -> listed texts' (list_coordinate_files a') (rev cs) -> listed texts' (list_particle_files a') (rev ps) ->
    main_ends Rops scp parse_float imems mems eigvals texts inputs c fs out fs' <->
    main_ends Rops scp parse_float (fun i k => retimed_memory (-1) (imems i k)) (fun i k => retimed_memory (-1) (mems i k)) eigvals texts' (retimed (-1) inputs) c' fs out fs'.
  Proof.
    intros Pa Pa' E1 E2 E3 E4 E5 E6 E7 E8 Eh Hh L1 L2 L3 L1' L2' L3'.
    destruct (init_back texts texts' a a' vs cs ps E1 E2 E3 E4 E5 E6 E7 E8 Eh Hh L1 L2 L3 L1' L2' L3') as [Ei Ef].
    assert (S : forall m s, manager_init Rops scp texts a = Ok m ->
      run_states (let* tasks := manager_batches Rops scp (back m) in Ok (indexed tasks))
        (manager_task Rops scp (fun i k => retimed_memory (-1) (imems i k)) (fun i k => retimed_memory (-1) (mems i k)) eigvals (retimed (-1) inputs) (back m)) (m_processes (back m)) [] false fs s <->
      run_states (let* tasks := manager_batches Rops scp m in Ok (indexed tasks)) (manager_task Rops scp imems mems eigvals inputs m) (m_processes m) [] false fs s).
    { intros m s Hm. destruct (Ef m Hm) as [F1 F2]. unfold manager_batches, back at 1 2 3 4 5.
      cbn [m_snapshots m_coordinates m_particles m_timestep m_period]. rewrite batches_map.
      destruct (create_batches Rops _ _ _ _ (m_timestep m)) as [ts|]; cbn [rmap bind run_states]; [|reflexivity].
      rewrite indexed_map, map_map. change (m_processes (back m)) with (m_processes m).
      rewrite (map_ext _ (manager_task Rops scp imems mems eigvals inputs m)); [reflexivity|]. intro f. apply task_map; assumption. }
    split; intro H.
    - inversion H as [e He E|m s r Hm Hs Hx E]; subst; clear H.
      + apply init_fails. rewrite Pa in He. rewrite Pa'. cbn [bind] in *. rewrite Ei, He. reflexivity.
      + rewrite Pa in Hm. cbn [bind] in Hm. apply (run_ends Rops scp _ _ _ _ _ _ c' fs (back m) s r); [rewrite Pa'; cbn [bind]; rewrite Ei, Hm; reflexivity|apply (S m s Hm), Hs|exact Hx].
    - inversion H as [e He E|m s r Hm Hs Hx E]; subst; clear H.
      + apply init_fails. rewrite Pa' in He. rewrite Pa. cbn [bind] in *. rewrite Ei in He. destruct (manager_init Rops scp texts a); [discriminate|exact He].
      + rewrite Pa' in Hm. cbn [bind] in Hm. rewrite Ei in Hm. destruct (manager_init Rops scp texts a) as [m0|] eqn:Hm0; [|discriminate]. cbn in Hm. injection Hm as <-.
        apply (run_ends Rops scp _ _ _ _ _ _ c fs m0 s r); [rewrite Pa; exact Hm0|apply (S m0 s eq_refl), Hs|exact Hx].
  Qed.
End Back.

Lemma reversed_program scp : homogeneous (-1) scp -> forall parse_float eigvals texts texts' inputs c c' a a' vs cs ps fs out fs',
  parse_args parse_float c = Ok a -> parse_args parse_float c' = Ok a' ->
  experiment_name a' = experiment_name a -> flow_map_period a' = flow_map_period a ->
  Manager.integrator_name a' = Manager.integrator_name a -> interpolator_name a' = interpolator_name a -> num_processes a' = num_processes a ->
  output_format a' = output_format a -> flow_grid_shape a' = flow_grid_shape a -> particles_grid_shape a' = particles_grid_shape a ->
  Manager.snapshot_timestep a' = (- Manager.snapshot_timestep a)%R -> (Manager.snapshot_timestep a < 0)%R ->
  listed texts (list_velocity_files a) vs -> listed texts (list_coordinate_files a) cs -> listed texts (list_particle_files a) ps ->
  listed texts' (list_velocity_files a') (rev vs) -> listed texts' (list_coordinate_files a') (rev cs) -> listed texts' (list_particle_files a') (rev ps) ->
  (exists imems mems, main_ends Rops scp parse_float imems mems eigvals texts inputs c fs out fs') <->
  (exists imems mems, main_ends Rops scp parse_float imems mems eigvals texts' (retimed (-1) inputs) c' fs out fs').
Proof.
  intros Hs. intros.
  assert (IFF : forall imems mems, main_ends Rops scp parse_float imems mems eigvals texts inputs c fs out fs' <->
    main_ends Rops scp parse_float (fun i k => retimed_memory (-1) (imems i k)) (fun i k => retimed_memory (-1) (mems i k)) eigvals texts' (retimed (-1) inputs) c' fs out fs')
    by (intros; eapply ends_iff; eassumption).
  split; intros (imems & mems & H'); exists (fun i k => retimed_memory (-1) (imems i k)), (fun i k => retimed_memory (-1) (mems i k)); apply IFF; [exact H'|].
  replace (fun i k => retimed_memory (-1) (retimed_memory (-1) (imems i k))) with imems by (extensionality i; extensionality k; rewrite memory_back; reflexivity).
  replace (fun i k => retimed_memory (-1) (retimed_memory (-1) (mems i k))) with mems by (extensionality i; extensionality k; rewrite memory_back; reflexivity).
  exact H'.
Qed.
