(** Lemmas for C132 and C133: the same window in two runs. *)
From Coq Require Import Reals String Lia FunctionalExtensionality.
From Verif Require Import Base Num NdArray Text Particles Integrate Interpolate Readers DataSource Solver FileRun Writers Batches FileUtils
  Hyper Manager Monitor Executor ManagerRun Jobs Decorators Program SpecProgram SpecMem SpecParts SpecGridProgram
  BatchFacts PathFacts ManagerFacts JobFacts ProgramFacts GridProgramMain GrowFacts MemMain.
Local Open Scope nat_scope.
Local Open Scope list_scope.

Lemma nth_front {A} (l : list A) i p d : 0 < p -> i + p <= length l -> nth i l d = nth 0 (firstn p (skipn i l)) d.
Proof.
  intros Hp Hi. destruct p; [lia|]. revert i Hi. induction l as [|x l IH]; intros i Hi; cbn in *; [lia|].
  destruct i; [reflexivity|]. cbn [skipn nth]. apply IH. lia.
Qed.

Section Task.
  Context {T : Type} (O : ops T).
  Lemma same_task s c q s' c' q' (h : T) p i j : 0 < p -> i + p <= length s -> j + p <= length s' ->
    window s c q p i = window s' c' q' p j -> task s' c' q' h p j = task s c q h p i.
  Proof.
    intros Hp Hi Hj [= E1 E2 E3]. unfold task. rewrite E2, E3, (nth_front s i p _ Hp Hi), (nth_front s' j p _ Hp Hj), E1. reflexivity.
  Qed.
  Lemma get_in {A} (l : list A) i x : get l i = Ok x -> In x l.
  Proof. unfold get. destruct (nth_error l i) eqn:E; [|discriminate]. intros [= <-]. exact (nth_error_In _ _ E). Qed.

  Lemma same_source {S} (update : S -> mat T -> option (mat T) -> S * res unit) inputs inputs' f :
    (forall x, In x (snapshot_files f) \/ In x (coordinate_files f) \/ x = particle_file f -> inputs' x = inputs x) ->
    file_batch O update inputs' f = file_batch O update inputs f.
  Proof.
    intro H. unfold file_batch. f_equal.
    - extensionality u. rewrite H by auto. reflexivity.
    - extensionality s. extensionality k. unfold get_data_for_step.
      destruct (get (snapshot_files f) k) as [v|] eqn:Ev; [|reflexivity]. cbn [bind].
      destruct (get (coordinate_files f) k) as [c|] eqn:Ec; [|reflexivity]. cbn [bind].
      rewrite (H v) by (left; exact (get_in _ _ _ Ev)). rewrite (H c) by (right; left; exact (get_in _ _ _ Ec)). reflexivity.
  Qed.
End Task.

Section Run.
  Context {T : Type} (O : ops T) (scp : scipy T).
  Variable parse_float : string -> res T.
  Variable eigvals : Jacobian.m33 T -> res (T * T * T).

  Lemma order_ne h l : l <> [] -> in_order O h l <> [].
  Proof. intro H. unfold in_order. destruct (o_ltb _ _ _); [apply rev_nil|]; exact H. Qed.
  Lemma order_length h l : length (in_order O h l) = length l.
  Proof. unfold in_order. destruct (o_ltb _ _ _); [apply rev_length|reflexivity]. Qed.
  Lemma order_stems h l : NoDup (map stem l) -> NoDup (map stem (in_order O h l)).
  Proof. unfold in_order. destruct (o_ltb _ _ _); [|auto]. rewrite map_rev. apply NoDup_rev. Qed.

  Lemma init_any texts a m vs cs ps fmt : manager_init O scp texts a = Ok m -> output_format a = Some fmt ->
    listed texts (list_velocity_files a) vs -> listed texts (list_coordinate_files a) cs -> listed texts (list_particle_files a) ps ->
    let r := in_order O (snapshot_timestep a) in
    exists ig ip wr, named create_integrator (integrator_name a) = Ok ig /\
      named (fun n => create_interpolator O scp n (shape_of (flow_grid_shape a)) None) (interpolator_name a) = Ok ip /\
      create_writer fmt (path_join "outputs" (experiment_name a)) (shape_of (particles_grid_shape a)) = Ok wr /\
      m = Manager (r vs) (r cs) (r ps) (snapshot_timestep a) (flow_map_period a) (num_processes a) ig ip wr.
  Proof.
    intros Hm Hf Lv Lc Lp r. unfold manager_init, listed in *. rewrite Lv, Lc, Lp in Hm. cbn [bind] in Hm.
    destruct (named _ (interpolator_name a)) as [ip|] eqn:Ei; [|discriminate]. cbn [bind] in Hm.
    destruct (named _ (integrator_name a)) as [ig|] eqn:Eg; [|discriminate]. cbn [bind] in Hm. rewrite Hf in Hm.
    destruct (create_writer _ _ _) as [wr|] eqn:Ew; [|discriminate]. cbn [bind] in Hm. rewrite !paths_some in Hm. cbn [bind] in Hm.
    injection Hm as <-. exists ig, ip, wr. auto.
  Qed.

  Lemma same_file imems mems imems' mems' inputs inputs' texts texts' c c' a a' fmt vs cs ps vs' cs' ps' (p i j : nat) fs fs' f1 f2 :
    parse_args parse_float c = Ok a -> parse_args parse_float c' = Ok a' ->
    experiment_name a' = experiment_name a -> snapshot_timestep a' = snapshot_timestep a -> flow_map_period a' = flow_map_period a ->
    integrator_name a' = integrator_name a -> interpolator_name a' = interpolator_name a -> output_format a' = output_format a ->
    flow_grid_shape a' = flow_grid_shape a -> particles_grid_shape a' = particles_grid_shape a -> output_format a = Some fmt ->
    listed texts (list_velocity_files a) vs -> listed texts (list_coordinate_files a) cs -> listed texts (list_particle_files a) ps ->
    listed texts' (list_velocity_files a') vs' -> listed texts' (list_coordinate_files a') cs' -> listed texts' (list_particle_files a') ps' ->
    NoDup (map stem vs) -> NoDup (map stem vs') -> cs <> [] -> ps <> [] -> cs' <> [] -> ps' <> [] ->
    window_length O (flow_map_period a) (snapshot_timestep a) = Ok (Z.of_nat p) -> 0 < p -> i + p <= length vs -> j + p <= length vs' ->
    let r := in_order O (snapshot_timestep a) in
    let w := window (r vs) (r cs) (r ps) p i in
    window (r vs') (r cs') (r ps') p j = w -> (forall x, In x (window_files w) -> inputs' x = inputs x) ->
    imems' j = imems i -> mems' j = mems i ->
    settled_files fs -> settled_files fs' ->
    main_ends O scp parse_float imems mems eigvals texts inputs c fs (false, Ok tt) f1 ->
    main_ends O scp parse_float imems' mems' eigvals texts' inputs' c' fs' (false, Ok tt) f2 ->
    let file := result_file (experiment_name a) fmt (particles_grid_shape a) (nth i (r vs) ""%string) in
    exists x, f1 file = Some (Whole x) /\ f2 file = Some (Whole x).
  Proof.
    intros Ha Ha' E1 Eh Ep E2 E3 E4 E5 E6 Hf Lv Lc Lp Lv' Lc' Lp' Nv Nv' Hc Hq Hc' Hq' Hw Hp Hi Hj r w Ew Hin Em1 Em2 Hset Hset' H1 H2 file.
    destruct (clean _ _ _ _ _ _ _ _ _ _ _ H1) as (a1 & m & ts & s & rs & Ha1 & Hm & Hb & Hs & He & ->).
    destruct (clean _ _ _ _ _ _ _ _ _ _ _ H2) as (a2 & m' & ts' & s' & rs' & Ha2 & Hm' & Hb' & Hs' & He' & ->).
    rewrite Ha in Ha1. injection Ha1 as <-. rewrite Ha' in Ha2. injection Ha2 as <-.
    assert (Hf' : output_format a' = Some fmt) by congruence.
    destruct (init_any _ _ _ _ _ _ _ Hm Hf Lv Lc Lp) as (ig & ip & wr & I1 & I2 & I3 & ->).
    destruct (init_any _ _ _ _ _ _ _ Hm' Hf' Lv' Lc' Lp') as (ig' & ip' & wr' & I1' & I2' & I3' & ->).
    rewrite E1, E2, E3, E5, E6 in *. rewrite I1 in I1'. injection I1' as <-. rewrite I2 in I2'. injection I2' as <-. rewrite I3 in I3'. injection I3' as <-.
    rewrite Eh, Ep in *. fold r in Hm, Hm', Hb, Hb', Hs, Hs'.
    unfold manager_batches in Hb, Hb'. cbn [m_snapshots m_coordinates m_particles m_period m_timestep] in Hb, Hb'.
    assert (Lr : forall l, length (r l) = length l) by (intro; apply order_length).
    rewrite (create_ok O _ _ _ _ _ p Hw Hp) in Hb by (rewrite ?Lr; try apply order_ne; auto; lia). injection Hb as <-.
    rewrite (create_ok O _ _ _ _ _ p Hw Hp) in Hb' by (rewrite ?Lr; try apply order_ne; auto; lia). injection Hb' as <-.
    set (m := Manager (r vs) (r cs) (r ps) _ _ (num_processes a) ig ip wr) in *. set (m' := Manager (r vs') (r cs') (r ps') _ _ (num_processes a') ig ip wr) in *.
    set (h := snapshot_timestep a) in *.
    pose proof (differ scp m _ (stems_differ scp m (r vs) (r cs) (r ps) h p (order_stems h vs Nv) ltac:(rewrite Lr; lia))) as D1.
    pose proof (differ scp m' _ (stems_differ scp m' (r vs') (r cs') (r ps') h p (order_stems h vs' Nv') ltac:(rewrite Lr; lia))) as D2.
    destruct (run_writes _ _ _ _ (one O scp imems mems eigvals inputs m) _ (indexed_num _) (m_processes m)
        (fun f r _ => none_result O scp imems mems eigvals inputs m f r) [] false fs s rs D1 Hset Hs He) as [W1 _].
    destruct (run_writes _ _ _ _ (one O scp imems' mems' eigvals inputs' m') _ (indexed_num _) (m_processes m')
        (fun f r _ => none_result O scp imems' mems' eigvals inputs' m' f r) [] false fs' s' rs' D2 Hset' Hs' He') as [W2 _].
    set (t := task (r vs) (r cs) (r ps) h p i).
    assert (J1 : In (i, t) (indexed (map (task (r vs) (r cs) (r ps) h p) (seq 0 (length (r vs) - p + 1))))).
    { apply indexed_in. cbn [fst snd]. apply nth_tasks. rewrite Lr. lia. }
    assert (J2 : In (j, t) (indexed (map (task (r vs') (r cs') (r ps') h p) (seq 0 (length (r vs') - p + 1))))).
    { apply indexed_in. cbn [fst snd]. rewrite nth_tasks by (rewrite Lr; lia). f_equal. apply same_task; rewrite ?Lr; auto. }
    destruct (W1 _ J1) as (x & Ex & Fx). destruct (W2 _ J2) as (x' & Ex' & Fx'). cbn [fst snd] in *.
    assert (Epath : output_file scp m t = file).
    { unfold output_file, file, t. cbn [task file_id m m_writer]. apply writer_path. exact I3. }
    assert (Epath' : output_file scp m' t = file) by exact Epath.
    rewrite Epath in Ex, Fx. rewrite Epath' in Ex', Fx'. exists x. split; [exact Fx|]. rewrite Fx'. f_equal. f_equal.
    enough (Some x' = Some x) by congruence. rewrite <- Ex, <- Ex', Em1, Em2. unfold file_task. rewrite (same_source O _ inputs inputs' t); [reflexivity|].
    intros y Hy. apply Hin. unfold window_files, w, window. cbn [fst snd]. rewrite !in_app_iff. cbn [In t task snapshot_files coordinate_files particle_file] in *. intuition.
  Qed.
End Run.

Lemma same_window {T} (O : ops T) scp parse_float eigvals imems mems imems' mems' inputs inputs' texts texts' c c' a a' fmt vs cs ps vs' cs' ps' (p i j : nat) fs fs' f1 f2 :
  parse_args parse_float c = Ok a -> parse_args parse_float c' = Ok a' ->
  experiment_name a' = experiment_name a -> snapshot_timestep a' = snapshot_timestep a -> flow_map_period a' = flow_map_period a ->
  integrator_name a' = integrator_name a -> interpolator_name a' = interpolator_name a -> output_format a' = output_format a ->
  flow_grid_shape a' = flow_grid_shape a -> particles_grid_shape a' = particles_grid_shape a -> output_format a = Some fmt ->
  listed texts (list_velocity_files a) vs -> listed texts (list_coordinate_files a) cs -> listed texts (list_particle_files a) ps ->
  listed texts' (list_velocity_files a') vs' -> listed texts' (list_coordinate_files a') cs' -> listed texts' (list_particle_files a') ps' ->
  NoDup (map stem vs) -> NoDup (map stem vs') -> cs <> [] -> ps <> [] -> cs' <> [] -> ps' <> [] ->
  window_length O (flow_map_period a) (snapshot_timestep a) = Ok (Z.of_nat p) -> 0 < p -> i + p <= length vs -> j + p <= length vs' ->
  let r := in_order O (snapshot_timestep a) in
  let w := window (r vs) (r cs) (r ps) p i in
  window (r vs') (r cs') (r ps') p j = w -> (forall x, In x (window_files w) -> inputs' x = inputs x) ->
  whole_arrays inputs' -> (forall m, manager_init O scp texts' a' = Ok m -> not_scattered_in_space inputs' a' m) ->
  settled_files fs -> settled_files fs' ->
  main_ends O scp parse_float imems mems eigvals texts inputs c fs (false, Ok tt) f1 ->
  main_ends O scp parse_float imems' mems' eigvals texts' inputs' c' fs' (false, Ok tt) f2 ->
  let file := result_file (experiment_name a) fmt (particles_grid_shape a) (nth i (r vs) ""%string) in
  exists x, f1 file = Some (Whole x) /\ f2 file = Some (Whole x).
Proof.
  intros Ha Ha' E1 Eh Ep E2 E3 E4 E5 E6 Hf Lv Lc Lp Lv' Lc' Lp' Nv Nv' Hc Hq Hc' Hq' Hw Hp Hi Hj r w Ew Hin Hwhole Hns Hset Hset' H1 H2.
  refine (same_file O scp parse_float eigvals imems mems (fun _ => imems i) (fun _ => mems i) inputs inputs' texts texts' c c' a a' fmt vs cs ps vs' cs' ps' p i j fs fs' f1 f2
    Ha Ha' E1 Eh Ep E2 E3 E4 E5 E6 Hf Lv Lc Lp Lv' Lc' Lp' Nv Nv' Hc Hq Hc' Hq' Hw Hp Hi Hj Ew Hin eq_refl eq_refl Hset Hset' H1 _).
  refine (program_mem _ _ _ _ _ _ _ _ _ _ _ _ _ _ _ _ H2); [exact Hwhole|]. intros a0 m Ha0. rewrite Ha' in Ha0. injection Ha0 as <-. apply Hns.
Qed.

(* ---- parts of a series ---- *)
Lemma NoDup_both {A} (l l' : list A) : NoDup (l ++ l') -> NoDup l /\ NoDup l'.
Proof.
  induction l as [|x l IH]; cbn; intro H; [split; [constructor|exact H]|]. inversion H as [|? ? Hx Hl]; subst. destruct (IH Hl) as [H1 H2].
  split; [constructor; [intro K; apply Hx, in_or_app; left; exact K|exact H1]|exact H2].
Qed.
Lemma part_rev b n a l l' : part_of b n a l l' -> part_of a n b (rev l) (rev l').
Proof.
  intros [[-> H]|(f & k & -> & H1 & H2 & H3)]; [left; rewrite rev_length; auto|]. right. exists (rev k), (rev f).
  rewrite !rev_app_distr, !rev_length, app_assoc. auto.
Qed.
Lemma part_nth b n a l l' k d : part_of b n a l l' -> k < n -> nth ((b + k) mod length l) l d = nth (k mod length l') l' d.
Proof.
  intros [[-> H]|(f & g & -> & H1 & H2 & H3)] Hk; [rewrite H, !Nat.mod_1_r; reflexivity|].
  rewrite !app_length, !Nat.mod_small by lia. rewrite app_nth2 by lia. rewrite app_nth1 by lia. f_equal. lia.
Qed.
Lemma part_ne b n a l l' : part_of b n a l l' -> 0 < n -> l <> [] /\ l' <> [].
Proof.
  intros [[-> H]|(f & g & -> & H1 & H2 & H3)] Hn; [destruct l; cbn in H; [lia|split; discriminate]|].
  destruct l'; cbn in H2; [lia|]. split; [|discriminate]. intro E. apply app_eq_nil in E as [_ E]. discriminate.
Qed.
Lemma part_window F P B c c' q q' p j : part_of (length F) (length P) (length B) c c' -> part_of (length F) (length P) (length B) q q' -> 0 < p -> j + p <= length P ->
  window P c' q' p j = window (F ++ P ++ B) c q p (length F + j).
Proof.
  intros Hc Hq Hp Hj. unfold window. rewrite skipn_front, (firstn_skipn_app P B) by exact Hj.
  rewrite (part_nth _ _ _ _ _ j ""%string Hq) by lia. do 2 f_equal. apply map_ext_in. intros k Hk. apply in_seq in Hk.
  rewrite <- Nat.add_assoc. symmetry. apply (part_nth _ _ _ _ _ (j + k) ""%string Hc). lia.
Qed.

Lemma part_files {T} (O : ops T) scp parse_float eigvals imems mems imems' mems' inputs texts texts' c c' a a' fmt front vs back cs ps cs' ps' (p : nat) fs fs' f1 f2 :
  parse_args parse_float c = Ok a -> parse_args parse_float c' = Ok a' ->
  experiment_name a' = experiment_name a -> snapshot_timestep a' = snapshot_timestep a -> flow_map_period a' = flow_map_period a ->
  integrator_name a' = integrator_name a -> interpolator_name a' = interpolator_name a -> output_format a' = output_format a ->
  flow_grid_shape a' = flow_grid_shape a -> particles_grid_shape a' = particles_grid_shape a -> output_format a = Some fmt ->
  listed texts (list_velocity_files a) (front ++ vs ++ back) -> listed texts (list_coordinate_files a) cs -> listed texts (list_particle_files a) ps ->
  listed texts' (list_velocity_files a') vs -> listed texts' (list_coordinate_files a') cs' -> listed texts' (list_particle_files a') ps' ->
  part_of (length front) (length vs) (length back) cs cs' -> part_of (length front) (length vs) (length back) ps ps' ->
  NoDup (map stem (front ++ vs ++ back)) ->
  window_length O (flow_map_period a) (snapshot_timestep a) = Ok (Z.of_nat p) -> 0 < p ->
  whole_arrays inputs -> (forall m, manager_init O scp texts' a' = Ok m -> not_scattered_in_space inputs a' m) ->
  settled_files fs -> settled_files fs' ->
  main_ends O scp parse_float imems mems eigvals texts inputs c fs (false, Ok tt) f1 ->
  main_ends O scp parse_float imems' mems' eigvals texts' inputs c' fs' (false, Ok tt) f2 ->
  forall j v, j + p <= length vs -> nth_error (in_order O (snapshot_timestep a) vs) j = Some v ->
    let file := result_file (experiment_name a) fmt (particles_grid_shape a) v in
    exists x, f1 file = Some (Whole x) /\ f2 file = Some (Whole x).
Proof.
  intros Ha Ha' E1 Eh Ep E2 E3 E4 E5 E6 Hf Lv Lc Lp Lv' Lc' Lp' Pc Pq Nv Hw Hp Hwhole Hns Hset Hset' H1 H2 j v Hj Hv.
  destruct (part_ne _ _ _ _ _ Pc ltac:(lia)) as [Nc Nc']. destruct (part_ne _ _ _ _ _ Pq ltac:(lia)) as [Nq Nq'].
  assert (Nv' : NoDup (map stem vs)).
  { rewrite !map_app in Nv. apply NoDup_both in Nv as [_ Nv]. apply NoDup_both in Nv as [Nv _]. exact Nv. }
  set (h := snapshot_timestep a) in *. set (r := in_order O h) in *.
  set (skipped := if o_ltb O h (o_zero O) then back else front).
  assert (Ev : nth (length skipped + j) (r (front ++ vs ++ back)) ""%string = v /\
    window (r vs) (r cs') (r ps') p j = window (r (front ++ vs ++ back)) (r cs) (r ps) p (length skipped + j)).
  { rewrite <- (nth_error_nth _ _ ""%string Hv). unfold r, in_order, skipped in *. destruct (o_ltb O h (o_zero O)).
    - rewrite !rev_app_distr, <- app_assoc, <- (rev_length back). split.
      + rewrite app_nth2, app_nth1 by (rewrite ?rev_length; lia). f_equal. lia.
      + apply part_window; rewrite ?rev_length; auto using part_rev.
    - split.
      + rewrite app_nth2, app_nth1 by lia. f_equal. lia.
      + apply part_window; auto. }
  destruct Ev as [Ev Ew]. rewrite <- Ev.
  refine (same_window O scp parse_float eigvals imems mems imems' mems' inputs inputs texts texts' c c' a a' fmt _ cs ps vs cs' ps' p (length skipped + j) j fs fs' f1 f2
    Ha Ha' E1 Eh Ep E2 E3 E4 E5 E6 Hf Lv Lc Lp Lv' Lc' Lp' Nv Nv' Nc Nq Nc' Nq' Hw Hp _ Hj Ew (fun _ _ => eq_refl) Hwhole Hns Hset Hset' H1 H2).
  rewrite !app_length. unfold skipped. destruct (o_ltb _ _ _); lia.
Qed.
