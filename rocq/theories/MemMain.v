(** C118: whole runs do not depend on the contents of freshly allocated memory, and C46: all the tasks of AnalyticalSolver compute the
    same field. *)
From Coq Require Import Lia.
From Verif Require Import Base Num NdArray NdFacts Particles Jacobian Integrate SpecIntegrate IntegrateFacts IntegrateGeom Interpolate
  SpecInterp SpecSeeds Readers DataSource Solver Writers Batches FileRun AnalyticalRun FileUtils Hyper Manager Monitor Executor ManagerRun Jobs
  Decorators Program SpecProgram SpecMem MemRun MemInterp.

Lemma chunks_wf {A} k n (l : list A) : length l = k * n -> Forall (fun r => length r = n) (chunks k n l).
Proof.
  revert l. induction k as [|k IH]; cbn; intros l H; constructor.
  - rewrite firstn_length. lia.
  - apply IH. rewrite skipn_length. lia.
Qed.

Lemma concat_size {A} (c : nat) (ls : list (nd A)) : (forall x, In x ls -> length (data x) = size (shape x)) ->
  (forall x, In x ls -> match shape x with [] => false | _ :: t => if list_eq_dec Nat.eq_dec t [c] then true else false end = true) ->
  length (concat (map data ls)) = fold_right (fun b n => hd 0 (shape b) + n) 0 ls * c.
Proof.
  induction ls as [|y ls IH]; intros Hw F; [reflexivity|]. cbn [map concat fold_right]. rewrite app_length, IH.
  - pose proof (Hw y (or_introl eq_refl)) as L. pose proof (F y (or_introl eq_refl)) as S. cbn beta in S.
    destruct (shape y) as [|k t]; [discriminate|]. destruct (list_eq_dec Nat.eq_dec t [c]) as [->|]; [|discriminate].
    rewrite L. cbn. lia.
  - intros z Hz. apply Hw. right. exact Hz.
  - intros z Hz. apply F. right. exact Hz.
Qed.

Lemma Forall2_In_r {A B} {R : A -> B -> Prop} {l l'} (H : Forall2 R l l') y : In y l' -> exists x, In x l /\ R x y.
Proof.
  induction H as [|a b l l' Hab _ IH]; [contradiction|]. intros [<-|Hy]; [exists a; cbn; auto|].
  destruct (IH Hy) as (x & Hx & Hr). exists x. cbn. auto.
Qed.

Section Main.
  Context {T : Type} (O : ops T) (scp : scipy T).

  (** What the seed reader returns. *)
  Lemma seeds_wf (inputs : filesystem T) name p : whole_arrays inputs ->
    (let* data := inputs name in read_seed_particles_coordinates O data) = Ok p -> wf_mat (positions p).
  Proof.
    intros W. destruct (inputs name) as [file|e] eqn:E; [|discriminate]. cbn [bind]. unfold read_seed_particles_coordinates.
    destruct (file "left"%string) as [l|] eqn:El; [|discriminate]. destruct (file "right"%string) as [r|] eqn:Er; [|discriminate].
    destruct (file "top"%string) as [t|] eqn:Et; [|discriminate]. destruct (file "bottom"%string) as [b|] eqn:Eb; [|discriminate].
    assert (K : forall (ls : list (nd T)) a m, (forall x, In x ls -> length (data x) = size (shape x)) ->
      concat0 ls = Ok a -> mat_of_nd a = Some m -> wf_mat m).
    { intros ls a m Hw. unfold concat0. destruct ls as [|x ls0]; [discriminate|]. set (ls := x :: ls0) in *.
      destruct (shape x) as [|n0 tail] eqn:Ex; [discriminate|]. destruct (forallb _ ls) eqn:F; [|discriminate].
      intros [= <-]. unfold mat_of_nd. cbn [shape data]. destruct tail as [|c [|]]; try discriminate. intros [= <-]. unfold wf_mat. cbn [mcols mrows].
      apply chunks_wf. apply (concat_size c ls Hw). apply forallb_forall, F. }
    assert (Wf : forall key a, file key = Some a -> length (data a) = size (shape a)) by (intros key a H; eapply W; eassumption).
    assert (G : forall (ls : list (nd T)), (forall x, In x ls -> length (data x) = size (shape x)) ->
      (let* pos := concat0 ls in match mat_of_nd pos with Some m => mk_particles O m | None => Err (External 0) end) = Ok p ->
      wf_mat (positions p)).
    { intros ls Hw H. destruct (concat0 ls) as [a|] eqn:Ea; [|discriminate]. cbn [bind] in H.
      destruct (mat_of_nd a) as [m|] eqn:Em; [|discriminate]. pose proof (K ls a m Hw Ea Em) as Wm.
      unfold mk_particles in H. destruct (_ || _); [|discriminate].
      destruct (compute_delta_top_bottom O m _); [|discriminate]. cbn [bind] in H.
      destruct (compute_delta_right_left O m _); [|discriminate]. cbn [bind] in H.
      match type of H with bind ?x _ = _ => destruct x; [|discriminate] end. cbn [bind] in H.
      match type of H with bind ?x _ = _ => destruct x; [|discriminate] end. cbn [bind] in H.
      injection H as <-. exact Wm. }
    intros H. destruct (file "front"%string) as [f|] eqn:Ef; [destruct (file "back"%string) as [k|] eqn:Ek|].
    - apply (G [l; r; t; b; f; k]); [|exact H].
      intros x [<-|[<-|[<-|[<-|[<-|[<-|[]]]]]]]; eapply Wf; eassumption.
    - apply (G [l; r; t; b]); [|exact H]. intros x [<-|[<-|[<-|[<-|[]]]]]; eapply Wf; eassumption.
    - apply (G [l; r; t; b]); [|exact H]. intros x [<-|[<-|[<-|[<-|[]]]]]; eapply Wf; eassumption.
  Qed.

  Lemma seeds_cols (inputs : filesystem T) name p d : seeds_have d inputs name ->
    (let* data := inputs name in read_seed_particles_coordinates O data) = Ok p -> mcols (positions p) = d.
  Proof.
    intros W. destruct (inputs name) as [file|e] eqn:E; [|discriminate]. cbn [bind]. unfold read_seed_particles_coordinates.
    destruct (file "left"%string) as [l|] eqn:El; [|discriminate]. destruct (file "right"%string) as [r|] eqn:Er; [|discriminate].
    destruct (file "top"%string) as [t|] eqn:Et; [|discriminate]. destruct (file "bottom"%string) as [b|] eqn:Eb; [|discriminate].
    destruct (W file l E El) as [n Hl].
    assert (G : forall (ls : list (nd T)), (let* pos := concat0 (l :: ls) in match mat_of_nd pos with Some m => mk_particles O m | None => Err (External 0) end) = Ok p ->
      mcols (positions p) = d).
    { intros ls H. unfold concat0 in H. rewrite Hl in H. destruct (forallb _ _); [|discriminate]. cbn [bind mat_of_nd shape data] in H.
      match type of H with mk_particles O ?m = _ => change d with (mcols m); set (mm := m) in * end.
      unfold mk_particles in H. destruct (_ || _); [|discriminate].
      destruct (compute_delta_top_bottom O mm _); [|discriminate]. cbn [bind] in H.
      destruct (compute_delta_right_left O mm _); [|discriminate]. cbn [bind] in H.
      match type of H with bind ?x _ = _ => destruct x; [|discriminate] end. cbn [bind] in H.
      match type of H with bind ?x _ = _ => destruct x; [|discriminate] end. cbn [bind] in H.
      injection H as <-. reflexivity. }
    intros H. destruct (file "front"%string) as [f|]; [destruct (file "back"%string) as [k|]|]; eapply G, H.
  Qed.

  Lemma twins_new (V : mat T -> Prop) name i : create_integrator name = Ok i -> twins V i i.
  Proof.
    intros C. pose proof (create_bufs_ok name i C) as B. unfold create_integrator in C.
    destruct (String.eqb (lower name) "ab2"); [injection C as <-; repeat split|].
    destruct (String.eqb (lower name) "euler"); [injection C as <-; repeat split|].
    destruct (String.eqb (lower name) "rk4"); [injection C as <-; repeat split|discriminate].
  Qed.

  Section Task.
    Variables imems imems' mems mems' : nat -> memory (T := T).
    Variable eigvals : m33 T -> res (T * T * T).
    Context {W : Type}.
    Variable write : W -> string -> list (xval T) -> mat T -> W * res unit.

    Lemma task_mem (inputs : filesystem T) f q wr (w : world T (istate scp) unit W) d :
      (forall p, (let* data := inputs (particle_file f) in read_seed_particles_coordinates O data) = Ok p ->
         wf_mat (positions p) /\ mcols (positions p) = d) ->
      twins wf_mat (w_integrator w) (w_integrator w) -> twin scp d (fst (w_interp w)) (fst (w_interp w)) ->
      let a := file_worker O scp imems eigvals mems write inputs f q wr w in
      let b := file_worker O scp imems' eigvals mems' write inputs f q wr w in
      snd a = snd b /\ w_queue (fst a) = w_queue (fst b) /\ w_writer (fst a) = w_writer (fst b).
    Proof.
      intros Hq Ht Hi. unfold file_worker.
      destruct (run_mem (P := unit) O (i_interpolate O scp imems) (i_interpolate O scp imems') eigvals mems mems' write
        (fun s t => twin scp d (fst s) (fst t)) (fun m => wf_mat m /\ mcols m = d) wf_mat) with
        (src1 := file_task O scp inputs f) (src2 := file_task O scp inputs f) (queue := q) (writer := wr) (w1 := w) (w2 := w)
        as [H1 H2].
      - intros s t m Hs [Hw Hc]. unfold i_interpolate.
        destruct (twin_query O scp d (fst s) (fst t) (imems (snd s)) (imems' (snd t)) m Hs Hw Hc) as [A B].
        destruct (interpolate O scp (imems (snd s)) (fst s) m), (interpolate O scp (imems' (snd t)) (fst t) m). exact (conj A B).
      - intros b v k Hv Hk. exact (copyto_wf b v k Hv Hk).
      - intros a m. apply smul_wf.
      - intros a b m. apply mat_map2_wf.
      - intros a b m. apply mat_map2_wf.
      - intros a b m [Ha Hc] Hb Hm. split; [eapply mat_map2_wf; [exact Ha|exact Hb|exact Hm]|].
        apply mat_map2_shape, same_shape_spec in Hm. destruct Hm as [_ ->]. exact Hc.
      - reflexivity.
      - reflexivity.
      - reflexivity.
      - reflexivity.
      - intros j s t Hs. cbn [file_task file_batch src_update]. unfold file_task, file_batch. cbn [src_update].
        destruct (get_data_for_step inputs f j) as [[v c]|e]; [|split; [reflexivity|discriminate]].
        unfold i_update. destruct (twin_update O scp d (fst s) (fst t) v c Hs) as [A B].
        destruct (update O scp (fst s) v c), (update O scp (fst t) v c). exact (conj A B).
      - intros _. split; reflexivity.
      - exact Ht.
      - exact Hi.
      - reflexivity.
      - exact Hq.
      - destruct (H1 eq_refl) as [K1 K2]. split; [exact (H2 (or_introl eq_refl))|]. split; assumption.
    Qed.

    (** AnalyticalSolver: tasks with as many steps of the same length. *)
    Lemma analytical_mem format h ts ts' q wr fn ps name wr0 (w : world T (istate scp) (particles T) W) :
      analytical_start O scp fn ps name wr0 = Ok w -> length ts = length ts' ->
      let a := analytical_worker O scp imems eigvals mems write (analytical_batch format h ts) q wr w in
      let b := analytical_worker O scp imems' eigvals mems' write (analytical_batch format h ts') q wr w in
      (wr = false -> snd a = snd b) /\
      (ts = ts' -> snd a = snd b /\ w_queue (fst a) = w_queue (fst b) /\ w_writer (fst a) = w_writer (fst b)).
    Proof.
      intros S L. unfold analytical_start in S. cbn in S.
      destruct (create_integrator name) as [g|] eqn:G; [|discriminate]. cbn in S. injection S as <-.
      unfold analytical_worker.
      set (w := World g _ _ _ _ _).
      destruct (run_mem (P := particles T) O (i_interpolate O scp imems) (i_interpolate O scp imems') eigvals mems mems' write
        (fun s t => fst s = fst t /\ exists a, fst s = IAnalytical a) (fun _ => True) (fun _ => True)) with
        (src1 := @analytical_batch T (istate scp) format h ts) (src2 := @analytical_batch T (istate scp) format h ts')
        (queue := q) (writer := wr) (w1 := w) (w2 := w)
        as [H1 H2]; try (intros; exact I).
      - intros s t m [Hs [a Ha]] _. unfold i_interpolate. rewrite <- Hs, Ha. cbn. split; [reflexivity|]. intros m' _.
        split; [exact I|]. split; [reflexivity|]. exists a. reflexivity.
      - cbn. destruct ts, ts'; try discriminate; [reflexivity|exact I].
      - reflexivity.
      - exact L.
      - reflexivity.
      - intros j s t Hs. cbn. auto.
      - intros _. split; reflexivity.
      - eapply twins_new, G.
      - cbn. split; [reflexivity|]. eexists. reflexivity.
      - reflexivity.
      - split; [intros Hw; apply H2; right; exact Hw|].
        intros <-. destruct (H1 eq_refl) as [K1 K2]. split; [apply H2; left; reflexivity|]. split; assumption.
    Qed.
  End Task.

  (** The particle file of a task is one of those listed. *)
  Lemma listed_particles (s c q : list string) period h ts f : create_batches O s c q period h = Ok ts -> In f ts -> In (particle_file f) q.
  Proof.
    unfold create_batches. destruct (window_length O period h) as [p|]; [|discriminate]. cbn [bind].
    destruct (cycled c _) as [cc|]; [|discriminate]. cbn [bind].
    destruct (cycled q _) as [pc|] eqn:C; [|discriminate]. cbn [bind].
    destruct (mapr (get pc) _) as [pb|] eqn:M; [|discriminate]. cbn [bind].
    intros H Hf. apply mapr_Forall2 in H, M.
    assert (Pc : forall x, In x pc -> In x q).
    { intros x Hx. unfold cycled in C. destruct (Z.of_nat (length s) <? 0)%Z; [discriminate|]. injection C as <-.
      destruct q as [|d q]; [contradiction|]. apply in_map_iff in Hx. destruct Hx as (i & <- & _). apply nth_In.
      apply Nat.mod_upper_bound. cbn. lia. }
    assert (Gi : forall {A} (l : list A) i x, get l i = Ok x -> In x l).
    { intros A l i x. unfold get. destruct (nth_error l i) as [y|] eqn:E; [|discriminate]. intros [= <-]. eapply nth_error_In, E. }
    assert (Pb : forall x, In x pb -> In x q).
    { intros x Hx. apply Pc. clear - M Hx Gi. induction M as [|i y l l' Hy _ IH]; [contradiction|].
      destruct Hx as [<-|Hx]; [eapply Gi, Hy|auto]. }
    apply (Forall2_In_r H) in Hf. destruct Hf as (i & _ & Hg). cbn beta in Hg.
    destruct (get (map _ _) i) as [sb|]; [|discriminate]. cbn [bind] in Hg.
    destruct (get (map _ _) i) as [cb|]; [|discriminate]. cbn [bind] in Hg.
    destruct (get pb i) as [qb|] eqn:Eq; [|discriminate]. cbn [bind] in Hg.
    unfold mk_file_source in Hg. destruct sb; [discriminate|]. injection Hg as <-. cbn. apply Pb. eapply Gi, Eq.
  Qed.

  Section Program.
    Variable parse_float : string -> res T.
    Variables imems imems' mems mems' : nat -> nat -> memory (T := T).
    Variable eigvals : m33 T -> res (T * T * T).
    Variable texts : string -> option string.
    Variable inputs : filesystem T.

    Lemma tasks_mem a m ts : whole_arrays inputs -> manager_init O scp texts a = Ok m -> not_scattered_in_space inputs a m ->
      manager_batches O scp m = Ok ts -> forall f, In f (indexed ts) ->
      manager_task O scp imems mems eigvals inputs m f = manager_task O scp imems' mems' eigvals inputs m f.
    Proof.
      intros W I N B [i f] Hf.
      assert (Hf' : In f ts) by (unfold indexed in Hf; eapply in_combine_r, Hf).
      apply (listed_particles _ _ _ _ _ _ _ B) in Hf'.
      unfold manager_task, job. cbn [fst snd].
      set (w := with_files (manager_world scp m) no_files).
      assert (K : exists d, (forall p, (let* data := inputs (particle_file f) in read_seed_particles_coordinates O data) = Ok p ->
         wf_mat (positions p) /\ mcols (positions p) = d) /\
        (d = 2 \/ (d = 3 /\ exists nx ny nz, shape_of (flow_grid_shape a) = Some [nx; ny; nz]) \/ interpolator_name a = Some "grid"%string)).
      { destruct N as [G|[P2|[(nx & ny & nz & S3) P3]]].
        - destruct (let* data := inputs (particle_file f) in read_seed_particles_coordinates O data) as [p|e] eqn:E.
          + exists (mcols (positions p)). split; [|auto]. intros p' [= <-]. split; [eapply seeds_wf; eassumption|reflexivity].
          + exists 0. split; [discriminate|auto].
        - exists 2. split; [|auto]. intros p Hp. split; [eapply seeds_wf; eassumption|]. eapply seeds_cols; [apply P2; eassumption|exact Hp].
        - exists 3. split.
          + intros p Hp. split; [eapply seeds_wf; eassumption|]. eapply seeds_cols; [apply P3; eassumption|exact Hp].
          + right. left. split; [reflexivity|]. rewrite S3. cbn. eauto. }
      destruct K as (d & Hd & Hk).
      unfold manager_init in I.
      destruct (get_files_list _) as [l1|]; [|discriminate]. cbn [bind] in I.
      destruct (get_files_list _) as [l2|]; [|discriminate]. cbn [bind] in I.
      destruct (get_files_list _) as [l3|]; [|discriminate]. cbn [bind] in I.
      unfold named in I. destruct (interpolator_name a) as [nm|] eqn:En; [|discriminate].
      destruct (create_interpolator O scp nm (shape_of (flow_grid_shape a)) None) as [ip|] eqn:Ci; [|discriminate]. cbn [bind] in I.
      destruct (integrator_name a) as [gn|]; [|discriminate]. destruct (create_integrator gn) as [g|] eqn:Cg; [|discriminate]. cbn [bind] in I.
      match type of I with bind ?x _ = _ => destruct x as [wt|]; [|discriminate] end. cbn [bind] in I.
      destruct (paths l1); [|discriminate]. cbn [bind] in I. destruct (paths l2); [|discriminate]. cbn [bind] in I.
      destruct (paths l3); [|discriminate]. cbn [bind] in I. injection I as Im.
      assert (Hi : m_interpolator m = ip) by (rewrite <- Im; reflexivity).
      assert (Hg : m_integrator m = g) by (rewrite <- Im; reflexivity).
      clear Im.
      destruct (task_mem (imems i) (imems' i) (mems i) (mems' i) eigvals (write O (m_writer m)) inputs f true true w d Hd) as (E1 & E2 & E3).
      - cbn. rewrite Hg. eapply twins_new, Cg.
      - cbn. rewrite Hi. eapply twin_new; [exact Ci| |].
        + destruct Hk as [Hk|[Hk|Hk]]; [auto|auto|]. injection Hk as ->. right. right. cbn. unfold same_letter. auto 10.
        + intros fn ->. unfold create_interpolator in Ci. destruct (negb _); [discriminate|].
          destruct (String.eqb (lower nm) "analytical"); [discriminate|].
          destruct (shape_of _); [destruct (String.eqb (lower nm) "grid"); [discriminate|]; destruct (gridinterp_new _ _); discriminate|].
          destruct (String.eqb (lower nm) "cubic"); [discriminate|]. destruct (String.eqb (lower nm) "linear"); [discriminate|].
          destruct (String.eqb (lower nm) "nearest"); discriminate.
      - cbv zeta. rewrite E1, E2, E3. reflexivity.
    Qed.

    Lemma program_mem c fs out fs' : whole_arrays inputs ->
      (forall a m, parse_args parse_float c = Ok a -> manager_init O scp texts a = Ok m -> not_scattered_in_space inputs a m) ->
      main_ends O scp parse_float imems mems eigvals texts inputs c fs out fs' ->
      main_ends O scp parse_float imems' mems' eigvals texts inputs c fs out fs'.
    Proof.
      intros W N H. destruct H as [e He|m s r Hm Hs Hr]; [apply init_fails, He|].
      refine (run_ends O scp parse_float imems' mems' eigvals texts inputs c fs m s r Hm _ Hr).
      destruct (parse_args parse_float c) as [a|] eqn:Ea; [|discriminate]. cbn [bind] in Hm.
      unfold run_states in *. destruct (manager_batches O scp m) as [ts|] eqn:B; [|exact Hs]. cbn [bind] in *.
      rewrite <- (map_ext_in _ _ _ (tasks_mem a m ts W Hm (N a m eq_refl Hm) B)). exact Hs.
    Qed.
  End Program.
End Main.
