(** Lemmas for C122: what adding snapshots to a series does to the tasks and files of a run. *)
From Coq Require Import Reals String Lia.
From Verif Require Import Base Num NdArray Text Particles Integrate Interpolate Readers DataSource Solver FileRun Writers Batches FileUtils
  Hyper Manager Monitor Executor ManagerRun Jobs Decorators Program SpecProgram SpecGrow SpecGridProgram
  BatchFacts PathFacts ManagerFacts JobFacts ProgramFacts GridProgramMain.
Local Open Scope nat_scope.
Local Open Scope list_scope.

Lemma nth_grown (n : nat) (l l' : list string) d a : l <> [] -> grown n l l' -> a < n ->
  nth (a mod length l') l' d = nth (a mod length l) l d.
Proof.
  intros Hl [->|[Hn (more & ->)]] Ha; [reflexivity|]. rewrite app_length, !Nat.mod_small by lia. apply app_nth1. lia.
Qed.
Lemma grown_ne n l l' : l <> [] -> grown n l l' -> l' <> [].
Proof. intros Hl [->|[_ (more & ->)]]; [exact Hl|]. destruct l; [congruence|discriminate]. Qed.

Lemma firstn_skipn_app {A} (s more : list A) p i : i + p <= length s ->
  firstn p (skipn i (s ++ more)) = firstn p (skipn i s).
Proof.
  intro H. rewrite skipn_app, firstn_app, skipn_length. replace (p - (length s - i)) with 0 by lia.
  cbn. apply app_nil_r.
Qed.
Lemma skipn_front {A} (front s : list A) i : skipn (length front + i) (front ++ s) = skipn i s.
Proof.
  rewrite skipn_app, skipn_all2 by lia. cbn. f_equal. lia.
Qed.

Section Tasks.
  Context {T : Type} (O : ops T).

  Lemma task_appended s more c c' q q' (h : T) p i : 0 < p -> i + p <= length s -> c <> [] -> q <> [] ->
    grown (length s) c c' -> grown (length s) q q' -> task (s ++ more) c' q' h p i = task s c q h p i.
  Proof.
    intros Hp Hi Hc Hq Gc Gq. unfold task.
    assert (E : map (fun j => nth ((i + j) mod length c') c' ""%string) (seq 0 p) = map (fun j => nth ((i + j) mod length c) c ""%string) (seq 0 p)).
    { apply map_ext_in. intros j Hj. apply in_seq in Hj. apply (nth_grown (length s)); [exact Hc|exact Gc|lia]. }
    rewrite E, firstn_skipn_app, (nth_grown (length s) q q' _ i Hq Gq) by lia. rewrite app_nth1 by lia. reflexivity.
  Qed.

  Lemma appended s more c c' q q' period h (p : nat) ts : o_ltb O h (o_zero O) = false ->
    window_length O period h = Ok (Z.of_nat p) -> 0 < p <= length s -> c <> [] -> q <> [] ->
    grown (length s) c c' -> grown (length s) q q' ->
    file_tasks O s c q period h = Ok ts ->
    exists extra, file_tasks O (s ++ more) c' q' period h = Ok (ts ++ extra) /\ length extra = length more.
  Proof.
    intros Hh Hw [Hp Hn] Hc Hq Gc Gq. unfold file_tasks, handle_direction. rewrite Hh.
    rewrite (create_ok O s c q period h p Hw Hp Hn Hc Hq).
    rewrite (create_ok O (s ++ more) c' q' period h p Hw Hp); [|rewrite app_length; lia|exact (grown_ne _ _ _ Hc Gc)|exact (grown_ne _ _ _ Hq Gq)].
    intros [= <-]. exists (map (task (s ++ more) c' q' h p) (seq (length s - p + 1) (length more))).
    split; [|rewrite map_length, seq_length; reflexivity]. f_equal.
    replace (length (s ++ more) - p + 1) with ((length s - p + 1) + length more) by (rewrite app_length; lia).
    rewrite seq_app, map_app. f_equal. apply map_ext_in. intros i Hi. apply in_seq in Hi. apply task_appended; auto. lia.
  Qed.

  (* ---- backward ---- *)
  Lemma nth_grown_back (n k : nat) (l l' : list string) d a : l <> [] -> grown_back n k l l' -> a < n ->
    nth ((k + a) mod length (rev l')) (rev l') d = nth (a mod length (rev l)) (rev l) d.
  Proof.
    intros Hl [[-> Hk]|[Hn (more & Hm & ->)]] Ha.
    - rewrite rev_length. assert (length l <> 0) by (destruct l; [congruence|discriminate]).
      rewrite <- Nat.add_mod_idemp_l, Hk by assumption. reflexivity.
    - rewrite rev_app_distr, app_length, !rev_length, !Nat.mod_small by lia. rewrite app_nth2 by (rewrite rev_length; lia).
      rewrite rev_length. f_equal. lia.
  Qed.
  Lemma grown_back_ne n k l l' : l <> [] -> grown_back n k l l' -> rev l' <> [].
  Proof. intros Hl [[-> _]|[_ (more & _ & ->)]]; apply rev_nil; [exact Hl|]. destruct l; [congruence|discriminate]. Qed.

  Lemma task_back s more c c' q q' (h : T) p i : 0 < p -> i + p <= length s -> c <> [] -> q <> [] ->
    grown_back (length s) (length more) c c' -> grown_back (length s) (length more) q q' ->
    task (rev (s ++ more)) (rev c') (rev q') h p (length more + i) = task (rev s) (rev c) (rev q) h p i.
  Proof.
    intros Hp Hi Hc Hq Gc Gq. unfold task.
    assert (E : map (fun j => nth ((length more + i + j) mod length (rev c')) (rev c') ""%string) (seq 0 p) =
                map (fun j => nth ((i + j) mod length (rev c)) (rev c) ""%string) (seq 0 p)).
    { apply map_ext_in. intros j Hj. apply in_seq in Hj. rewrite <- Nat.add_assoc. apply (nth_grown_back (length s)); [exact Hc|exact Gc|lia]. }
    rewrite E, (nth_grown_back (length s) (length more) q q' _ i Hq Gq) by lia.
    rewrite rev_app_distr. rewrite <- !(rev_length more), skipn_front.
    rewrite (app_nth2 (rev more)) by lia. replace (length (rev more) + i - length (rev more)) with i by lia. reflexivity.
  Qed.

  Lemma appended_back s more c c' q q' period h (p : nat) ts : o_ltb O h (o_zero O) = true ->
    window_length O period h = Ok (Z.of_nat p) -> 0 < p <= length s -> c <> [] -> q <> [] ->
    grown_back (length s) (length more) c c' -> grown_back (length s) (length more) q q' ->
    file_tasks O s c q period h = Ok ts ->
    exists extra, file_tasks O (s ++ more) c' q' period h = Ok (extra ++ ts) /\ length extra = length more.
  Proof.
    intros Hh Hw [Hp Hn] Hc Hq Gc Gq. unfold file_tasks, handle_direction. rewrite Hh.
    rewrite (create_ok O (rev s) (rev c) (rev q) period h p Hw Hp); [|rewrite rev_length; exact Hn|apply rev_nil; exact Hc|apply rev_nil; exact Hq].
    rewrite (create_ok O (rev (s ++ more)) (rev c') (rev q') period h p Hw Hp);
      [|rewrite rev_length, app_length; lia|exact (grown_back_ne _ _ _ _ Hc Gc)|exact (grown_back_ne _ _ _ _ Hq Gq)].
    intros [= <-]. exists (map (task (rev (s ++ more)) (rev c') (rev q') h p) (seq 0 (length more))).
    split; [|rewrite map_length, seq_length; reflexivity]. f_equal.
    replace (length (rev (s ++ more)) - p + 1) with (length more + (length (rev s) - p + 1)) by (rewrite !rev_length, app_length; lia).
    rewrite seq_app, map_app. f_equal. cbn [Nat.add]. rewrite map_seq_shift. apply map_ext_in. intros i Hi. apply in_seq in Hi.
    rewrite rev_length in Hi. apply task_back; auto. lia.
  Qed.

  (** Without these conditions. *)
  Lemma back_mismatch s more c c' q period h (p : nat) : o_ltb O h (o_zero O) = true ->
    window_length O period h = Ok (Z.of_nat p) -> 0 < p <= length s -> c <> [] -> c' <> [] -> q <> [] -> NoDup q ->
    length more mod length q <> 0 ->
    exists f g ts ts', file_tasks O s c q period h = Ok ts /\ file_tasks O (s ++ more) c' q period h = Ok ts' /\
      nth_error ts 0 = Some f /\ nth_error ts' (length more) = Some g /\
      snapshot_files g = snapshot_files f /\ file_id g = file_id f /\ particle_file g <> particle_file f.
  Proof.
    intros Hh Hw [Hp Hn] Hc Hc' Hq Nq Hk. unfold file_tasks, handle_direction. rewrite Hh.
    rewrite (create_ok O (rev s) (rev c) (rev q) period h p Hw Hp); [|rewrite rev_length; exact Hn|apply rev_nil; exact Hc|apply rev_nil; exact Hq].
    rewrite (create_ok O (rev (s ++ more)) (rev c') (rev q) period h p Hw Hp);
      [|rewrite rev_length, app_length; lia|apply rev_nil; exact Hc'|apply rev_nil; exact Hq].
    eexists _, _, _, _. split; [reflexivity|]. split; [reflexivity|].
    split; [apply nth_tasks; lia|]. split; [apply nth_tasks; rewrite rev_length, app_length; lia|].
    cbn [task snapshot_files file_id particle_file].
    rewrite rev_app_distr. split; [|split].
    - f_equal. rewrite <- (rev_length more), <- (Nat.add_0_r (length (rev more))). rewrite skipn_front. reflexivity.
    - rewrite <- (rev_length more). rewrite app_nth2 by lia. rewrite Nat.sub_diag. reflexivity.
    - rewrite rev_length. assert (Hl : length q <> 0) by (destruct q; [congruence|discriminate]).
      rewrite (Nat.mod_small 0) by lia. intro E. apply NoDup_rev in Nq.
      apply (proj1 (NoDup_nth (rev q) ""%string) Nq) in E; rewrite ?rev_length; [lia|apply Nat.mod_upper_bound; exact Hl|lia].
  Qed.
End Tasks.

(* ---- the program ---- *)
Section Files.
  Context {T : Type} (O : ops T) (scp : scipy T).
  Variable parse_float : string -> res T.
  Variables imems mems : nat -> nat -> memory (T := T).
  Variable eigvals : Jacobian.m33 T -> res (T * T * T).
  Variable inputs : filesystem T.

  Lemma init_is texts a m vs cs ps fmt : manager_init O scp texts a = Ok m -> output_format a = Some fmt ->
    listed texts (list_velocity_files a) vs -> listed texts (list_coordinate_files a) cs -> listed texts (list_particle_files a) ps ->
    o_ltb O (snapshot_timestep a) (o_zero O) = false ->
    exists ig ip wr, named create_integrator (integrator_name a) = Ok ig /\
      named (fun n => create_interpolator O scp n (shape_of (flow_grid_shape a)) None) (interpolator_name a) = Ok ip /\
      create_writer fmt (path_join "outputs" (experiment_name a)) (shape_of (particles_grid_shape a)) = Ok wr /\
      m = Manager vs cs ps (snapshot_timestep a) (flow_map_period a) (num_processes a) ig ip wr.
  Proof.
    intros Hm Hf Lv Lc Lp Hh. unfold manager_init, listed in *. rewrite Lv, Lc, Lp in Hm. cbn [bind] in Hm.
    destruct (named _ (interpolator_name a)) as [ip|] eqn:Ei; [|discriminate]. cbn [bind] in Hm.
    destruct (named _ (integrator_name a)) as [ig|] eqn:Eg; [|discriminate]. cbn [bind] in Hm. rewrite Hf in Hm.
    destruct (create_writer _ _ _) as [wr|] eqn:Ew; [|discriminate]. cbn [bind] in Hm. rewrite !paths_some in Hm. cbn [bind] in Hm.
    unfold handle_direction in Hm. rewrite Hh in Hm. injection Hm as <-. exists ig, ip, wr. auto.
  Qed.

  Lemma writer_path a fmt wr s : create_writer fmt (path_join "outputs" (experiment_name (T := T) a)) (shape_of (particles_grid_shape a)) = Ok wr ->
    output_path wr (append "ftle_" (stem s)) = result_file (experiment_name a) fmt (particles_grid_shape a) s.
  Proof.
    unfold create_writer. intro H. unfold result_file. destruct (String.eqb_spec fmt "mat") as [->|H1].
    - injection H as <-. unfold output_path, extension, ending. cbn [wr_format wr_path wr_shape String.eqb Ascii.eqb Bool.eqb]. symmetry. apply join_ending.
    - destruct (String.eqb_spec fmt "vtk") as [->|H2]; [|discriminate]. injection H as <-.
      unfold output_path, extension, ending. cbn [wr_format wr_path wr_shape String.eqb Ascii.eqb Bool.eqb]. destruct (particles_grid_shape a); reflexivity.
  Qed.

  Lemma stems_differ (m : manager scp) s c q (h : T) p : NoDup (map stem s) -> 0 < p <= length s ->
    names_differ scp m (map (task s c q h p) (seq 0 (length s - p + 1))).
  Proof.
    intros Nv Hp i j f g Hi Hj Hij E.
    assert (B : forall i f, nth_error (map (task s c q h p) (seq 0 (length s - p + 1))) i = Some f -> i < length s - p + 1 /\ f = task s c q h p i).
    { intros k e He. assert (H : k < length s - p + 1).
      { assert (H : nth_error (map (task s c q h p) (seq 0 (length s - p + 1))) k <> None) by congruence.
        apply nth_error_Some in H. rewrite map_length, seq_length in H. exact H. }
      rewrite nth_tasks in He by exact H. injection He as <-. auto. }
    apply B in Hi as [Bi ->]. apply B in Hj as [Bj ->]. unfold output_file in E. apply task_path_inj in E. cbn [task file_id] in E. apply Hij.
    apply (proj1 (NoDup_nth (map stem s) (stem ""%string)) Nv); rewrite ?map_length; [lia|lia|]. rewrite !map_nth. exact E.
  Qed.

  Lemma appended_files texts texts' c a fmt vs more cs cs' ps ps' (p : nat) fs fs' f1 f2 :
    parse_args parse_float c = Ok a -> o_ltb O (snapshot_timestep a) (o_zero O) = false -> output_format a = Some fmt ->
    window_length O (flow_map_period a) (snapshot_timestep a) = Ok (Z.of_nat p) -> 0 < p <= length vs -> cs <> [] -> ps <> [] ->
    listed texts (list_velocity_files a) vs -> listed texts (list_coordinate_files a) cs -> listed texts (list_particle_files a) ps ->
    listed texts' (list_velocity_files a) (vs ++ more) -> listed texts' (list_coordinate_files a) cs' -> listed texts' (list_particle_files a) ps' ->
    grown (length vs) cs cs' -> grown (length vs) ps ps' -> NoDup (map stem (vs ++ more)) ->
    settled_files fs -> settled_files fs' ->
    main_ends O scp parse_float imems mems eigvals texts inputs c fs (false, Ok tt) f1 ->
    main_ends O scp parse_float imems mems eigvals texts' inputs c fs' (false, Ok tt) f2 ->
    forall i v, i + p <= length vs -> nth_error vs i = Some v ->
      let file := result_file (experiment_name a) fmt (particles_grid_shape a) v in
      exists x, f1 file = Some (Whole x) /\ f2 file = Some (Whole x).
  Proof.
    intros Ha Hh Hf Hw [Hp Hn] Hc Hq Lv Lc Lp Lv' Lc' Lp' Gc Gq Nv Hset Hset' H1 H2 i v Hi Hv file.
    destruct (clean _ _ _ _ _ _ _ _ _ _ _ H1) as (a1 & m & ts & s & rs & Ha1 & Hm & Hb & Hs & He & ->).
    destruct (clean _ _ _ _ _ _ _ _ _ _ _ H2) as (a2 & m' & ts' & s' & rs' & Ha2 & Hm' & Hb' & Hs' & He' & ->).
    rewrite Ha in Ha1, Ha2. injection Ha1 as <-. injection Ha2 as <-.
    destruct (init_is _ _ _ _ _ _ _ Hm Hf Lv Lc Lp Hh) as (ig & ip & wr & E1 & E2 & E3 & ->).
    destruct (init_is _ _ _ _ _ _ _ Hm' Hf Lv' Lc' Lp' Hh) as (ig' & ip' & wr' & E1' & E2' & E3' & ->).
    rewrite E1 in E1'. injection E1' as <-. rewrite E2 in E2'. injection E2' as <-. rewrite E3 in E3'. injection E3' as <-.
    unfold manager_batches in Hb, Hb'. cbn [m_snapshots m_coordinates m_particles m_period m_timestep] in Hb, Hb'.
    rewrite (create_ok O _ _ _ _ _ p Hw Hp Hn Hc Hq) in Hb. injection Hb as <-.
    rewrite (create_ok O _ _ _ _ _ p Hw Hp) in Hb'; [|rewrite app_length; lia|exact (grown_ne _ _ _ Hc Gc)|exact (grown_ne _ _ _ Hq Gq)].
    injection Hb' as <-.
    set (m := Manager vs cs ps _ _ _ ig ip wr) in *. set (m' := Manager (vs ++ more) cs' ps' _ _ _ ig ip wr) in *.
    set (h := snapshot_timestep a) in *.
    assert (Nv1 : NoDup (map stem vs)).
    { rewrite map_app in Nv. clear - Nv. induction (map stem vs) as [|x l IH]; [constructor|]. cbn in Nv. inversion Nv as [|? ? Hx Hl]; subst.
      constructor; [intro K; apply Hx, in_or_app; left; exact K|exact (IH Hl)]. }
    pose proof (differ scp m _ (stems_differ m vs cs ps h p Nv1 (conj Hp Hn))) as D1.
    pose proof (differ scp m' _ (stems_differ m' (vs ++ more) cs' ps' h p Nv ltac:(rewrite app_length; lia))) as D2.
    destruct (run_writes _ _ _ _ (one O scp imems mems eigvals inputs m) _ (indexed_num _) (m_processes m)
        (fun f r _ => none_result O scp imems mems eigvals inputs m f r) [] false fs s rs D1 Hset Hs He) as [W1 _].
    destruct (run_writes _ _ _ _ (one O scp imems mems eigvals inputs m') _ (indexed_num _) (m_processes m')
        (fun f r _ => none_result O scp imems mems eigvals inputs m' f r) [] false fs' s' rs' D2 Hset' Hs' He') as [W2 _].
    set (t := task vs cs ps h p i).
    assert (I1 : In (i, t) (indexed (map (task vs cs ps h p) (seq 0 (length vs - p + 1))))).
    { apply indexed_in. cbn [fst snd]. apply nth_tasks. lia. }
    assert (I2 : In (i, t) (indexed (map (task (vs ++ more) cs' ps' h p) (seq 0 (length (vs ++ more) - p + 1))))).
    { apply indexed_in. cbn [fst snd]. rewrite nth_tasks by (rewrite app_length; lia). f_equal. apply task_appended; auto. }
    destruct (W1 _ I1) as (x & Ex & Fx). destruct (W2 _ I2) as (x' & Ex' & Fx'). cbn [fst snd] in *.
    assert (Ep : output_file scp m t = file).
    { unfold output_file, file, t. cbn [task file_id m m_writer]. rewrite (nth_error_nth _ _ _ Hv). apply writer_path. exact E3. }
    assert (Ep' : output_file scp m' t = file).
    { unfold output_file, file, t. cbn [task file_id m' m_writer]. rewrite (nth_error_nth _ _ _ Hv). apply writer_path. exact E3. }
    rewrite Ep in Ex, Fx. rewrite Ep' in Ex', Fx'. exists x. split; [exact Fx|]. rewrite Fx'. f_equal. f_equal.
    enough (Some x' = Some x) by congruence. rewrite <- Ex, <- Ex'. reflexivity.
  Qed.
End Files.
