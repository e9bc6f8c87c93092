(** Lemmas about the number of tasks and output files of the command line program. *)
From Coq Require Import Lia.
From Verif Require Import Base Num NdArray Text Particles Jacobian Ftle Integrate Interpolate Readers DataSource Solver FileRun Writers Batches FileUtils
  Hyper Manager Monitor Executor ManagerRun Jobs Decorators Program SpecExecutor SpecProgram SpecGridProgram
  PathFacts BatchFacts ManagerFacts ExecutorFacts ExecutorMain ExecutorProps ExecutorRuns JobFacts ProgramFacts FileRunCases.

Section Count.
  Context {T : Type} (O : ops T) (scp : scipy T).
  Variable parse_float : string -> res T.
  Variables imems mems : nat -> nat -> memory (T := T).
  Variable eigvals : m33 T -> res (T * T * T).
  Variable texts : string -> option string.
  Variable inputs : filesystem T.
  Notation ends := (main_ends O scp parse_float imems mems eigvals texts inputs).
  Notation dir a l := (handle_direction O (Manager.snapshot_timestep a) l).

  Lemma dir_length {A} (h : T) (l : list A) : length (handle_direction O h l) = length l.
  Proof. unfold handle_direction. destruct (o_ltb O h (o_zero O)); [apply rev_length|reflexivity]. Qed.
  Lemma dir_nil {A} (h : T) (l : list A) : l <> [] -> handle_direction O h l <> [].
  Proof. intros H E. apply H. apply (f_equal (@length _)) in E. rewrite dir_length in E. destruct l; [reflexivity|discriminate]. Qed.
  Lemma dir_nodup {A} (h : T) (l : list A) : NoDup l -> NoDup (handle_direction O h l).
  Proof. unfold handle_direction. destruct (o_ltb O h (o_zero O)); [apply NoDup_rev|auto]. Qed.
  Lemma dir_map {A B} (f : A -> B) (h : T) (l : list A) : map f (handle_direction O h l) = handle_direction O h (map f l).
  Proof. unfold handle_direction. destruct (o_ltb O h (o_zero O)); [apply map_rev|reflexivity]. Qed.

  Lemma init_lists a m vs cs ps : manager_init O scp texts a = Ok m ->
    listed texts (list_velocity_files a) vs -> listed texts (list_coordinate_files a) cs -> listed texts (list_particle_files a) ps ->
    m_snapshots m = dir a vs /\ m_coordinates m = dir a cs /\ m_particles m = dir a ps /\
    m_timestep m = Manager.snapshot_timestep a /\ m_period m = flow_map_period a.
  Proof.
    unfold manager_init, listed. intros H L1 L2 L3. rewrite L1, L2, L3 in H. cbn [bind] in H.
    do 3 (apply bind_ok in H as (? & _ & H)). rewrite !paths_some in H. cbn [bind] in H. injection H as <-. auto.
  Qed.

  Lemma program_tasks a m vs cs ps p : manager_init O scp texts a = Ok m ->
    listed texts (list_velocity_files a) vs -> listed texts (list_coordinate_files a) cs -> listed texts (list_particle_files a) ps ->
    window_length O (flow_map_period a) (Manager.snapshot_timestep a) = Ok (Z.of_nat p) -> 0 < p <= length vs -> cs <> [] -> ps <> [] ->
    manager_batches O scp m = Ok (map (task (dir a vs) (dir a cs) (dir a ps) (Manager.snapshot_timestep a) p) (seq 0 (length vs - p + 1))).
  Proof.
    intros Hm L1 L2 L3 Hw [Hp Hn] Hc Hq. destruct (init_lists a m vs cs ps Hm L1 L2 L3) as (E1 & E2 & E3 & E4 & E5).
    unfold manager_batches. rewrite E1, E2, E3, E4, E5. rewrite (create_ok O (dir a vs) (dir a cs) (dir a ps) _ _ p Hw Hp); [|rewrite dir_length; exact Hn|apply dir_nil, Hc|apply dir_nil, Hq].
    rewrite dir_length. reflexivity.
  Qed.

  Lemma task_names a m vs cs ps p : NoDup (map stem vs) -> 0 < p ->
    forall i j, i + p <= length vs -> j + p <= length vs ->
    output_file scp m (task (dir a vs) (dir a cs) (dir a ps) (Manager.snapshot_timestep a) p i) =
    output_file scp m (task (dir a vs) (dir a cs) (dir a ps) (Manager.snapshot_timestep a) p j) -> i = j.
  Proof.
    intros Nv Hp i j Hi Hj E. unfold output_file in E. apply task_path_inj in E. cbn [task file_id] in E.
    assert (Nv' : NoDup (map stem (dir a vs))) by (rewrite dir_map; apply dir_nodup; exact Nv).
    apply (proj1 (NoDup_nth_error (map stem (dir a vs))) Nv'); [rewrite map_length, dir_length; lia|].
    rewrite !nth_error_map, (nth_error_nth' _ ""%string) by (rewrite dir_length; lia). rewrite (nth_error_nth' (dir a vs) ""%string) by (rewrite dir_length; lia).
    cbn [option_map]. f_equal. exact E.
  Qed.

  Lemma count c a vs cs ps p fs fs' : parse_args parse_float c = Ok a ->
    listed texts (list_velocity_files a) vs -> listed texts (list_coordinate_files a) cs -> listed texts (list_particle_files a) ps ->
    window_length O (flow_map_period a) (Manager.snapshot_timestep a) = Ok (Z.of_nat p) -> 0 < p <= length vs -> cs <> [] -> ps <> [] ->
    NoDup (map stem vs) -> settled_files fs -> ends c fs (false, Ok tt) fs' ->
    exists names, length names = length vs - p + 1 /\ NoDup names /\ (forall q, In q names -> exists x, fs' q = Some (Whole x)) /\
      forall q, ~ In q names -> fs' q = fs q.
  Proof.
    intros Ha L1 L2 L3 Hw Hp Hc Hq Nv Hset H. destruct (complete O scp parse_float imems mems eigvals texts inputs c fs fs' Hset H) as (a' & m & ts & Ha' & Hm & Hb & R).
    rewrite Ha in Ha'. injection Ha' as <-. rewrite (program_tasks a m vs cs ps p Hm L1 L2 L3 Hw Hp Hc Hq) in Hb. injection Hb as <-.
    set (tk := task (dir a vs) (dir a cs) (dir a ps) (Manager.snapshot_timestep a) p) in *. set (N := length vs - p + 1) in *.
    assert (Hnth : forall i f, nth_error (map tk (seq 0 N)) i = Some f -> i < N /\ f = tk i).
    { intros i f Hi. assert (Hlt : i < N). { assert (X : nth_error (map tk (seq 0 N)) i <> None) by congruence. apply nth_error_Some in X. rewrite map_length, seq_length in X. exact X. }
      split; [exact Hlt|]. unfold tk in Hi. rewrite nth_tasks in Hi by exact Hlt. injection Hi as <-. reflexivity. }
    destruct R as [R1 R2].
    { intros i j f g Hi Hj Hij E. apply Hnth in Hi as [Bi ->]. apply Hnth in Hj as [Bj ->]. apply Hij. apply (task_names a m vs cs ps p Nv ltac:(lia)); [lia|lia|exact E]. }
    exists (map (output_file scp m) (map tk (seq 0 N))). split; [rewrite !map_length, seq_length; reflexivity|]. split; [|split].
    - apply NoDup_nth_error. intros i j Hi E. rewrite !map_length, seq_length in Hi. rewrite !nth_error_map in E.
      rewrite (nth_error_nth' (seq 0 N) 0) in E by (rewrite seq_length; exact Hi). rewrite seq_nth in E by exact Hi. cbn [option_map plus] in E.
      destruct (nth_error (seq 0 N) j) as [k|] eqn:Ek; [|discriminate]. injection E as E.
      assert (Hj : j < N). { assert (X : nth_error (seq 0 N) j <> None) by congruence. apply nth_error_Some in X. rewrite seq_length in X. exact X. }
      rewrite (nth_error_nth' (seq 0 N) 0) in Ek by (rewrite seq_length; exact Hj). rewrite seq_nth in Ek by exact Hj. cbn in Ek. injection Ek as <-.
      apply (task_names a m vs cs ps p Nv ltac:(lia)); [lia|lia|exact E].
    - intros q Hin. apply in_map_iff in Hin as (f & <- & Hf). destruct (In_nth_error _ _ Hf) as (i & Hi). destruct (R1 i f Hi) as (x & Hx & _). eauto.
    - intros q Hin. apply R2. intros f Hf ->. apply Hin, in_map, Hf.
  Qed.

  (** C83 *)
  Lemma no_write m ts n q stop fs s : settled_files fs -> (forall i f, nth_error ts i = Some f -> exists e, t_outcome (manager_task O scp imems mems eigvals inputs m (i, f)) = Err e) ->
    steps (map (manager_task O scp imems mems eigvals inputs m) (indexed ts)) n (start q stop fs) s -> forall p, st_world s p = fs p.
  Proof.
    intros Hset Herr Hs p.
    destruct (state_entry _ _ _ _ (one O scp imems mems eigvals inputs m) (indexed ts) (indexed_num ts) n q stop fs s p Hset Hs)
      as [[E _]|[(i & [k f] & c & Hi & _ & Ho & _)|(k & E & Hk & _ & H1 & _)]]; [exact E| |].
    - exfalso. apply nth_indexed in Hi as [-> Hi]. destruct (Herr i f Hi) as (e & He). congruence.
    - exfalso. destruct k as [|i k]; [congruence|]. destruct (H1 i (or_introl eq_refl)) as ([j f] & Hf & _ & Ho & _).
      apply nth_indexed in Hf as [-> Hf]. destruct (Herr i f Hf) as (e & He). congruence.
  Qed.

  Lemma static_program c a vs c0 ps p fs b r fs' : parse_args parse_float c = Ok a -> interpolator_name a = Some "grid"%string ->
    listed texts (list_velocity_files a) vs -> listed texts (list_coordinate_files a) [c0] -> listed texts (list_particle_files a) ps ->
    window_length O (flow_map_period a) (Manager.snapshot_timestep a) = Ok (Z.of_nat p) -> 2 <= p <= length vs -> ps <> [] ->
    settled_files fs -> ends c fs (b, r) fs' -> (b, r) <> (false, Ok tt) /\ forall q, fs' q = fs q.
  Proof.
    intros Ha Hi L1 L2 L3 Hw Hp Hq Hset H. inversion H as [e He E1|m s r' Hm Hs Hx E1]; subst.
    - split; [|reflexivity]. intro E. unfold guarded in E. destruct (is_runtime_error e); discriminate.
    - rewrite Ha in Hm. cbn [bind] in Hm. unfold run_states in Hs.
      rewrite (program_tasks a m vs [c0] ps p Hm L1 L2 L3 Hw ltac:(lia) ltac:(discriminate) Hq) in Hs. cbn [bind] in Hs.
      set (ts := map _ (seq 0 _)) in Hs.
      assert (Herr : forall i f, nth_error ts i = Some f -> exists e, t_outcome (manager_task O scp imems mems eigvals inputs m (i, f)) = Err e).
      { intros i f Hf. assert (Hlt : i < length vs - p + 1). { assert (X : nth_error ts i <> None) by congruence. apply nth_error_Some in X. unfold ts in X. rewrite map_length, seq_length in X. exact X. }
        unfold ts in Hf. rewrite nth_tasks in Hf by exact Hlt. injection Hf as <-.
        pose proof (mk_task (dir a vs) (dir a [c0]) (dir a ps) (Manager.snapshot_timestep a) p i ltac:(lia) ltac:(rewrite dir_length; lia)) as Hmk.
        destruct (grid_static_run O scp (imems i) inputs _ _ _ _ _ _ eigvals (mems i) (write O (m_writer m)) true true
          (with_files (manager_world scp m) no_files) Hmk) as (e & He & _).
        - rewrite firstn_length, skipn_length, dir_length. lia.
        - exists c0. split; [destruct p; [lia|discriminate]|]. intros x Hx'. apply in_map_iff in Hx' as (k & <- & _).
          assert (D : dir a [c0] = [c0]) by (unfold handle_direction; destruct (o_ltb O _ _); reflexivity). rewrite D. cbn [length]. rewrite Nat.mod_1_r. reflexivity.
        - destruct (init_inv O scp texts a m Hm) as (nm & _ & _ & En & _ & _ & Hc & _). rewrite Hi in En. injection En as <-. cbn.
          revert Hc. unfold create_interpolator. cbn. destruct (shape_of (flow_grid_shape a)) as [sh|]; cbn; [|discriminate].
          intro E. repeat (match type of E with context [match ?x with _ => _ end] => destruct x; try discriminate end); injection E as <-; eexists; reflexivity.
        - exists e. exact He. }
      split; [|intro q; exact (no_write m ts _ _ _ fs s Hset Herr Hs q)].
      intro E. destruct r' as [rs|e].
      2:{ unfold guarded in E. cbn in E. destruct (is_runtime_error e); discriminate. }
      destruct (Herr 0 (task (dir a vs) (dir a [c0]) (dir a ps) (Manager.snapshot_timestep a) p 0)) as (e & He).
      { unfold ts. apply nth_tasks. lia. }
      destruct (all_completed _ (indexed ts) (m_processes m) [] false fs s rs Hs Hx 0 (0, task (dir a vs) (dir a [c0]) (dir a ps) (Manager.snapshot_timestep a) p 0)) as (_ & rr & Hr).
      { rewrite indexed_nth. unfold ts. rewrite nth_tasks by lia. reflexivity. }
      congruence.
  Qed.

  (** The program can always end. *)
  Lemma some_end c fs : exists b r fs', ends c fs (b, r) fs'.
  Proof.
    destruct (let* a := parse_args parse_float c in manager_init O scp texts a) as [m|e] eqn:Hm.
    - destruct (manager_batches O scp m) as [ts|e] eqn:Hb.
      + destruct (undisturbed (map (manager_task O scp imems mems eigvals inputs m) (indexed ts)) (m_processes m) [] false fs (start [] false fs) (steps_refl _ _ _)) as (s & Hs & Hf & _).
        destruct (no_deadlock _ _ _ _ _ s Hs Hf) as [r Hr].
        destruct (guarded (let* _ := r in Ok tt)) as [b r'] eqn:E. exists b, r', (st_world s). rewrite <- E.
        apply (run_ends O scp parse_float imems mems eigvals texts inputs c fs m s r Hm); [|exact Hr]. unfold run_states. rewrite Hb. exact Hs.
      + destruct (guarded (let* _ := Err (A := list (option (option (list (xval T))))) e in Ok tt)) as [b r'] eqn:E.
        eexists b, r', _. rewrite <- E. eapply (run_ends O scp parse_float imems mems eigvals texts inputs c fs m _ (Err e) Hm); [|].
        * unfold run_states. rewrite Hb. cbn [bind]. reflexivity.
        * reflexivity.
    - destruct (guarded (Err e)) as [b r'] eqn:E. exists b, r', fs. rewrite <- E. apply init_fails. exact Hm.
  Qed.
End Count.
