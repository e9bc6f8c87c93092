(** What a solver has run before does not influence its next result (C56). *)
From Coq Require Import Lia.
From Verif Require Import Base Num NdArray NdFacts Particles Jacobian Ftle Integrate GridInterp Interpolate Readers DataSource Solver FileRun
  SpecIntegrate SpecInterp SpecSeeds SpecMem ParticleFacts IntegrateFacts IntegrateGeom SpecSolver HighPerfFacts HighPerfHist ScipyFacts
  JacobianFacts IntegrateMisc SolverRerun FileRunFacts MemRun MemInterp MemMain.

(* ---- what a run preserves ---- *)
Section Keep.
  Context {T : Type} (O : ops T) {S P W : Type}.
  Variable interpolate : S -> mat T -> S * res (mat T).
  Variable eigvals : m33 T -> res (T * T * T).
  Variable mems : nat -> memory (T := T).
  Variable write : W -> string -> list (xval T) -> mat T -> W * res unit.
  Variable J : S -> Prop.
  Variable d : nat.
  Hypothesis J_interp : forall s q, J s -> mcols q = d -> J (fst (interpolate s q)).

  Lemma keep_sample s b q s' r : J s -> mcols q = d -> sample interpolate s b q = (s', r) -> J s'.
  Proof.
    intros Hs Hq H. unfold sample in H. pose proof (J_interp s q Hs Hq) as H1. destruct (interpolate s q).
    injection H as <- _. exact H1.
  Qed.
  Lemma stage_cols (a p b m : mat T) : (let* t0 := copyto a p in madd O t0 b) = Ok m -> mcols m = mcols a.
  Proof.
    destruct (copyto a p) as [t0|] eqn:Ec; [|discriminate]. cbn [bind]. intros H.
    apply mat_map2_shape, same_shape_spec in H. apply copyto_result_shape, same_shape_spec in Ec.
    destruct H as [_ ->], Ec as [_ ->]. reflexivity.
  Qed.
  Lemma keep_integrate mem i s h pos i' s' r : bufs_ok i -> J s -> mcols pos = d ->
    integrate_pos O interpolate mem i s h pos = (i', s', r) -> J s'.
  Proof.
    intros Hb Hs Hd H. destruct i as [b|p b|b]; cbn [integrate_pos] in H.
    - unfold euler_integrate in H. destruct (sample _ _ _ _) as [s1 [?|?]] eqn:E1; injection H as _ <- _;
        exact (keep_sample _ _ _ _ _ Hs Hd E1).
    - unfold ab2_integrate in H. destruct (sample _ _ _ _) as [s1 [?|?]] eqn:E1; pose proof (keep_sample _ _ _ _ _ Hs Hd E1) as H1.
      + destruct (match p with None => _ | Some _ => _ end); [|injection H as _ <- _; exact H1].
        destruct (copyto _ _); injection H as _ <- _; exact H1.
      + injection H as _ <- _; exact H1.
    - unfold rk4_integrate in H. fold (rk4_bufs mem b pos) in H.
      pose proof (rk4_bufs_shape mem b pos Hb) as Hsh.
      destruct (rk4_bufs mem b pos) as [[[[k1 k2] k3] k4] tm]. destruct Hsh as (_ & _ & _ & _ & Ht).
      apply same_shape_spec in Ht. destruct Ht as [_ Ht].
      destruct (sample interpolate s k1 pos) as [s1 [x1|e]] eqn:E1; pose proof (keep_sample _ _ _ _ _ Hs Hd E1) as H1;
        [|injection H as _ <- _; exact H1].
      destruct (bind (copyto tm pos) _) as [t1|e] eqn:X1; [|injection H as _ <- _; exact H1]. apply stage_cols in X1.
      destruct (sample interpolate s1 k2 t1) as [s2 [x2|e]] eqn:E2;
        pose proof (keep_sample _ _ t1 _ _ H1 ltac:(congruence) E2) as H2; [|injection H as _ <- _; exact H2].
      destruct (bind (copyto t1 pos) _) as [t2|e] eqn:X2; [|injection H as _ <- _; exact H2]. apply stage_cols in X2.
      destruct (sample interpolate s2 k3 t2) as [s3 [x3|e]] eqn:E3;
        pose proof (keep_sample _ _ t2 _ _ H2 ltac:(congruence) E3) as H3; [|injection H as _ <- _; exact H3].
      destruct (bind (copyto t2 pos) _) as [t3|e] eqn:X3; [|injection H as _ <- _; exact H3]. apply stage_cols in X3.
      destruct (sample interpolate s3 k4 t3) as [s4 [x4|e]] eqn:E4;
        pose proof (keep_sample _ _ t3 _ _ H3 ltac:(congruence) E4) as H4; injection H as _ <- _; exact H4.
  Qed.

  Variable sv : solver T S P.
  Hypothesis J_update : forall s j, J s -> J (fst (src_update (s_source sv) s j)).

  Definition kept (w w' : world T S P W) : Prop :=
    reachable O interpolate (w_integrator w') /\ one_step (w_integrator w) (w_integrator w') /\ J (w_interp w').

  Lemma keep_steps id n : forall i (w : world T S P W) p w' p' r,
    reachable O interpolate (w_integrator w) -> one_step (w_integrator w) (w_integrator w) -> J (w_interp w) ->
    mcols (positions p) = d ->
    run_steps O interpolate mems sv id n i w p = (w', p', r) -> kept w w'.
  Proof.
    unfold kept. induction n as [|n IH]; intros i w p w' p' r R K HJ Hd H; cbn [run_steps] in H; [injection H as <- <- <-; auto|].
    pose proof (J_update (w_interp w) i HJ) as HJ1.
    destruct (src_update (s_source sv) (w_interp w) i) as [s1 [[]|e]]; [|injection H as <- <- <-; cbn; auto].
    cbn [fst] in HJ1. unfold integrate in H.
    destruct (integrate_pos O interpolate (mems (w_clock w)) (w_integrator w) s1 (src_timestep (s_source sv)) (positions p))
      as [[i1 s2] r1] eqn:E1.
    pose proof (keep_integrate _ _ _ _ _ _ _ _ (reachable_bufs_ok _ _ _ R) HJ1 Hd E1) as HJ2.
    pose proof (integrate_kind O interpolate _ _ _ _ _ _ _ _ K E1) as K1.
    pose proof (reach_step _ _ _ _ _ _ _ _ _ _ R E1) as R1.
    destruct r1 as [pos'|e]; [|injection H as <- <- <-; cbn; auto].
    pose proof (integrate_shape O interpolate _ _ _ _ _ _ _ _ E1) as Hsh. apply same_shape_spec in Hsh.
    apply IH in H; cbn in *; [|exact R1|apply (one_step_l _ _ K1)|exact HJ2|destruct Hsh as [_ ->]; exact Hd].
    destruct H as (A1 & A2 & A3). split; [exact A1|]. split; [|auto].
    revert K1 A2. clear. destruct (w_integrator w), i1, (w_integrator w'); cbn; tauto.
  Qed.

  Lemma keep_run (w : world T S P W) :
    reachable O interpolate (w_integrator w) -> one_step (w_integrator w) (w_integrator w) -> J (w_interp w) ->
    (forall p, src_particles (s_source sv) (w_source w) = Ok p -> mcols (positions p) = d) ->
    kept w (fst (run O interpolate eigvals mems write sv w)).
  Proof.
    intros R K HJ Hd. unfold run. destruct (src_particles (s_source sv) (w_source w)) as [p|e]; [|split; auto].
    destruct (src_id (s_source sv)) as [id|e]; [|split; auto].
    destruct (run_steps O interpolate mems sv id (src_steps (s_source sv)) 0 w p) as [[w1 p1] r] eqn:Es.
    pose proof (keep_steps _ _ _ _ _ _ _ _ R K HJ (Hd p eq_refl) Es) as A.
    destruct r as [[]|e]; [|exact A].
    destruct (compute_ftle _ _ _ _ _); [|exact A].
    destruct (s_writer sv); [|exact A]. destruct (write _ _ _ _). exact A.
  Qed.
End Keep.

(* ---- two runs of the same task that start from different pasts ---- *)
Section Compare.
  Context {T : Type} (O : ops T) {S P W : Type}.
  Variable int : S -> mat T -> S * res (mat T).
  Variable eigvals : m33 T -> res (T * T * T).
  Variable mems : nat -> memory (T := T).
  Variable write : W -> string -> list (xval T) -> mat T -> W * res unit.
  Variable E : S -> S -> Prop.
  Variables Q V : mat T -> Prop.
  Hypothesis HE : forall s t q, E s t -> Q q -> snd (int s q) = snd (int t q) /\
    forall m, snd (int s q) = Ok m -> V m /\ E (fst (int s q)) (fst (int t q)).
  Hypothesis Vcopy : forall b v k : mat T, V v -> copyto b v = Ok k -> V k.
  Hypothesis Vscale : forall a m, V m -> V (smul O a m).
  Hypothesis Vadd : forall a b m, V a -> V b -> madd O a b = Ok m -> V m.
  Hypothesis Vsub : forall a b m, V a -> V b -> msub O a b = Ok m -> V m.
  Hypothesis Qadd : forall a b m, Q a -> V b -> madd O a b = Ok m -> Q m.
  Variable src : source T S P.
  Hypothesis Hu : forall j s t, E s t -> snd (src_update src s j) = snd (src_update src t j) /\
    (snd (src_update src s j) = Ok tt -> E (fst (src_update src s j)) (fst (src_update src t j))).
  Variable J : S -> Prop.
  Hypothesis H0 : forall s t, J s -> J t -> snd (src_update src s 0) = snd (src_update src t 0) /\
    (snd (src_update src s 0) = Ok tt -> E (fst (src_update src s 0)) (fst (src_update src t 0))).
  Variable queue : bool.
  Notation sv := (Solver src queue false).

  Lemma later_steps id n : forall i (w1 w2 : world T S P W) p, twins V (w_integrator w1) (w_integrator w2) ->
    E (w_interp w1) (w_interp w2) -> Q (positions p) -> exists w1' w2' p' r,
    run_steps O int mems sv id n i w1 p = (w1', p', r) /\ run_steps O int mems sv id n i w2 p = (w2', p', r).
  Proof.
    induction n as [|n IH]; intros i w1 w2 p Ht He Hq; [cbn; eauto 8|].
    destruct w1 as [g1 s1 x1 q1 y1 c1], w2 as [g2 s2 x2 q2 y2 c2]. cbn in Ht, He.
    cbn [run_steps s_source w_interp w_integrator w_source w_queue w_writer w_clock s_queue].
    destruct (Hu i s1 s2 He) as [U1 U2].
    destruct (src_update src s1 i) as [s1' r1], (src_update src s2 i) as [s2' r2]. cbn in U1, U2. subst r2.
    destruct r1 as [[]|e]; [|eauto 8]. specialize (U2 eq_refl). unfold integrate.
    pose proof (step_mem O int int E Q V HE Vcopy Vscale Vadd Vsub Qadd g1 g2 (mems c1) (mems c2) s1' s2' (src_timestep src) (positions p) Ht U2 Hq) as A.
    destruct (integrate_pos O int (mems c1) _ _ _ _) as [[i1 t1] r], (integrate_pos O int (mems c2) _ _ _ _) as [[i2 t2] r'].
    destruct A as [A1 A2]. cbn in A1, A2. subst r'.
    destruct r as [pos'|e]; [|eauto 8]. destruct (A2 pos' eq_refl) as (K1 & K2 & K3). apply IH; assumption.
  Qed.

  Lemma same_result (w1 w2 : world T S P W) : twins V (w_integrator w1) (w_integrator w2) ->
    J (w_interp w1) -> J (w_interp w2) -> w_source w1 = w_source w2 ->
    (forall p, src_particles src (w_source w1) = Ok p -> Q (positions p)) ->
    snd (run O int eigvals mems write sv w1) = snd (run O int eigvals mems write sv w2).
  Proof.
    intros Ht J1 J2 Hx HQ. unfold run. cbn [s_source s_queue s_writer]. rewrite <- Hx.
    destruct (src_particles src (w_source w1)) as [p|e]; [|reflexivity]. specialize (HQ p eq_refl).
    destruct (src_id src) as [id|e]; [|reflexivity].
    destruct (src_steps src) as [|n].
    { cbn. destruct (compute_ftle _ _ _ _ _); reflexivity. }
    enough (G : exists w1' w2' p' r, run_steps O int mems sv id (Datatypes.S n) 0 w1 p = (w1', p', r) /\
              run_steps O int mems sv id (Datatypes.S n) 0 w2 p = (w2', p', r)).
    { destruct G as (w1' & w2' & p' & r & -> & ->). destruct r as [[]|e]; [|reflexivity].
      destruct (compute_ftle _ _ _ _ _); reflexivity. }
    destruct w1 as [g1 s1 x1 q1 y1 c1], w2 as [g2 s2 x2 q2 y2 c2]. cbn in Ht, J1, J2.
    cbn [run_steps s_source w_interp w_integrator w_source w_queue w_writer w_clock s_queue].
    destruct (H0 s1 s2 J1 J2) as [U1 U2].
    destruct (src_update src s1 0) as [s1' r1], (src_update src s2 0) as [s2' r2]. cbn in U1, U2. subst r2.
    destruct r1 as [[]|e]; [|eauto 8]. specialize (U2 eq_refl). unfold integrate.
    pose proof (step_mem O int int E Q V HE Vcopy Vscale Vadd Vsub Qadd g1 g2 (mems c1) (mems c2) s1' s2' (src_timestep src) (positions p) Ht U2 HQ) as A.
    destruct (integrate_pos O int (mems c1) _ _ _ _) as [[i1 t1] r], (integrate_pos O int (mems c2) _ _ _ _) as [[i2 t2] r'].
    destruct A as [A1 A2]. cbn in A1, A2. subst r'.
    destruct r as [pos'|e]; [|eauto 8]. destruct (A2 pos' eq_refl) as (K1 & K2 & K3).
    apply later_steps; assumption.
  Qed.
End Compare.

(* ---- interpolators of the file workflow ---- *)
Section Files.
  Context {T : Type} (O : ops T) (scp : scipy T).
  Variable d : nat.

  Definition rel (i j : interp scp) : Prop :=
    match i with
    | IGrid _ | IHigh _ => twin scp d i j
    | _ => alike scp i j /\ d = 2
    end.
  (** The interpolators that [i0] can become. *)
  Definition past_of (i0 i : interp scp) : Prop :=
    match i0, i with
    | ICubic _, ICubic _ => d = 2 | ILinear _, ILinear _ => d = 2 | INearest _, INearest _ => d = 2
    | IGrid a, IGrid b => g_shape b = g_shape a /\ g_method b = g_method a /\ length (g_shape a) = d /\ ((d = 2 /\ g_z b = None) \/ d = 3)
    | IHigh a, IHigh b => h_shape b = h_shape a /\ length (h_shape a) = d /\ (d = 2 \/ d = 3) /\ outs_ok d b
    | _, _ => False
    end.

  Lemma rel_query i j mem mem' q : rel i j -> wf_mat q -> mcols q = d -> nrows q <> 3 ->
    snd (interpolate O scp mem i q) = snd (interpolate O scp mem' j q) /\
    forall m, snd (interpolate O scp mem i q) = Ok m ->
      wf_mat m /\ rel (fst (interpolate O scp mem i q)) (fst (interpolate O scp mem' j q)).
  Proof.
    intros H Hw Hd Hr.
    assert (U : alike scp i j -> d = 2 -> (snd (interpolate O scp mem i q) = snd (interpolate O scp mem' j q)) /\
      forall m, snd (interpolate O scp mem i q) = Ok m -> wf_mat m /\ alike scp (fst (interpolate O scp mem i q)) (fst (interpolate O scp mem' j q))).
    { intros Ha D2. destruct (interpolate_alike O scp mem mem' i j q Ha Hr ltac:(congruence)) as [A B]. split; [exact B|].
      intros m Hm. split.
      - assert (W : twin scp d i i) by (destruct i, j; try contradiction; cbn; auto).
        exact (proj1 (proj2 (twin_query O scp d i i mem mem q W Hw Hd) m Hm)).
      - assert (Ha' : alike scp j i) by (destruct i, j; try contradiction; cbn in *; symmetry; exact Ha).
        destruct (interpolate_alike O scp mem' mem j i q Ha' Hr ltac:(congruence)) as [A' _].
        rewrite A, A'. exact Ha. }
    destruct i as [a|a|a|a|a|a]; cbn [rel] in H.
    1,2,3,6: destruct H as [Ha D2]; destruct (U Ha D2) as [U1 U2]; split; [exact U1|]; intros m Hm; destruct (U2 m Hm) as [U3 U4];
      split; [exact U3|]; cbn; auto.
    - destruct (twin_query O scp d _ j mem mem' q H Hw Hd) as [A B]. split; [exact A|]. intros m Hm. destruct (B m Hm). split; [assumption|].
      cbn. assumption.
    - destruct (twin_query O scp d _ j mem mem' q H Hw Hd) as [A B]. split; [exact A|]. intros m Hm. destruct (B m Hm) as [B1 B2].
      split; [assumption|]. revert B2. cbn [interpolate]. destruct (highperf_interpolate O mem a q). exact (fun x => x).
  Qed.

  Lemma rel_update i j v p : rel i j ->
    snd (update O scp i v p) = snd (update O scp j v p) /\
    (snd (update O scp i v p) = Ok tt -> rel (fst (update O scp i v p)) (fst (update O scp j v p))).
  Proof.
    intros H. destruct i as [a|a|a|a|a|a]; cbn [rel] in H.
    1,2,3,6: destruct H as [Ha D2];
      destruct (update_same O scp _ j v p (alike_kind scp _ _ Ha) (fun _ => Ha)) as [A B]; split; [exact A|]; intros Hok;
      specialize (B Hok); destruct j as [b|b|b|b|b|b]; try contradiction; cbn [update] in *;
      destruct (base_update _ _ _ _ _) as [a' ra], (base_update _ _ _ _ _) as [b' rb]; cbn [fst rel] in *; auto.
    - destruct (twin_update O scp d _ j v p H) as [A B]. split; [exact A|]. intros Hok. specialize (B Hok). revert B. cbn [update].
      destruct (gridinterp_update O scp a v p). exact (fun x => x).
    - destruct (twin_update O scp d _ j v p H) as [A B]. split; [exact A|]. intros Hok. specialize (B Hok). revert B. cbn [update].
      destruct (highperf_update O a v p). exact (fun x => x).
  Qed.

  (* -- output buffers through queries -- *)
  Lemma call_len junk (c : component T) q b c' b' : call_component O junk c q (Some b) = (c', Ok b') -> length b' = length b.
  Proof.
    intros Hc. unfold call_component in Hc. destruct c as [i|i].
    - unfold call2d in Hc. destruct (let* b0 := _ in _) as [bb|]; [|discriminate]. unfold interp2d_vec_inplace in Hc.
      destruct (shape (i2_v i)) as [|? [|? [|]]]; try discriminate. destruct (negb (mcols bb =? 2)); [discriminate|].
      destruct (length b =? nrows bb) eqn:E; [|discriminate]. cbn [negb] in Hc. injection Hc as _ Hc. apply mapr_length in Hc.
      apply Nat.eqb_eq in E. unfold nrows in E. congruence.
    - unfold call3d in Hc. destruct (let* b0 := _ in _) as [bb|]; [|discriminate]. unfold interp3d_vec_inplace in Hc.
      destruct (shape (i3_v i)) as [|? [|? [|? [|]]]]; try discriminate. destruct (negb (mcols bb =? 3)); [discriminate|].
      destruct (length b =? nrows bb) eqn:E; [|discriminate]. cbn [negb] in Hc. injection Hc as _ Hc.
      destruct (c_int _); [|discriminate]. cbn [bind] in Hc. apply mapr_length in Hc.
      apply Nat.eqb_eq in E. unfold nrows in E. congruence.
  Qed.
  Definition buffer_of (n : nat) (b : option (list T)) : Prop := exists l, b = Some l /\ length l = n.
  Definition full (dim n : nat) (s : list nat) (o : highperf T) : Prop :=
    buffer_of n (h_u o) /\ buffer_of n (h_v o) /\ (dim = 3 -> buffer_of n (h_w o)) /\ h_shape o = s.
  Lemma full_outs dim n s (o : highperf T) : full dim n s o -> outs_ok dim o.
  Proof.
    intros ((u & Eu & Lu) & (v & Ev & Lv) & Hw & _). unfold outs_ok. rewrite Eu. exists v. split; [exact Ev|]. split; [congruence|].
    intros D. destruct (Hw D) as (w & Ew & Lw). exists w. split; [exact Ew|congruence].
  Qed.
  Lemma full_x mem dim n s (o : highperf T) c q : full dim n s o -> full dim n s (fst (run_x O mem o c q)).
  Proof.
    intros ((u & Eu & Lu) & Hv & Hw & Hs). unfold run_x. rewrite Eu.
    destruct (call_component O (index_junk mem 4) c q (Some u)) as [c' [b'|e]] eqn:Ec; cbn; (split; [|split; [exact Hv|split; [exact Hw|exact Hs]]]).
    - exists b'. split; [reflexivity|]. apply call_len in Ec. congruence.
    - exists u. split; assumption.
  Qed.
  Lemma full_y mem dim n s (o : highperf T) c q : full dim n s o -> full dim n s (fst (run_y O mem o c q)).
  Proof.
    intros (Hu & (u & Eu & Lu) & Hw & Hs). unfold run_y. rewrite Eu.
    destruct (call_component O (index_junk mem 5) c q (Some u)) as [c' [b'|e]] eqn:Ec; cbn; (split; [exact Hu|split; [|split; [exact Hw|exact Hs]]]).
    - exists b'. split; [reflexivity|]. apply call_len in Ec. congruence.
    - exists u. split; assumption.
  Qed.
  Lemma full_z mem n s (o : highperf T) c q : full 3 n s o -> full 3 n s (fst (run_z O mem o c q)).
  Proof.
    intros (Hu & Hv & Hw & Hs). destruct (Hw eq_refl) as (u & Eu & Lu). unfold run_z. rewrite Eu.
    destruct (call_component O (index_junk mem 6) c q (Some u)) as [c' [b'|e]] eqn:Ec; cbn; (split; [exact Hu|split; [exact Hv|split; [intros _|exact Hs]]]).
    - exists b'. split; [reflexivity|]. apply call_len in Ec. congruence.
    - exists u. split; assumption.
  Qed.
  Lemma junk_len (j : nat -> T) n : length (junk_list j n) = n.
  Proof. unfold junk_list. rewrite map_length, seq_length. reflexivity. Qed.
  Lemma full_ensure mem (o : highperf T) n dim : (dim = 2 \/ dim = 3) -> outs_ok dim o -> full dim n (h_shape o) (ensure_buffers mem o n dim).
  Proof.
    intros Hd Ho. unfold ensure_buffers. unfold outs_ok in Ho.
    assert (F : full dim n (h_shape o) (HighPerf (h_shape o) (h_velocities o) (h_points o)
        (Some (junk_list (mem 1 0) n)) (Some (junk_list (mem 2 0) n))
        (if dim =? 3 then Some (junk_list (mem 3 0) n) else h_w o) (h_x o) (h_y o) (h_z o))).
    { split; [|split; [|split]]; cbn.
      - eexists. split; [reflexivity|apply junk_len].
      - eexists. split; [reflexivity|apply junk_len].
      - intros ->. eexists. split; [reflexivity|apply junk_len].
      - reflexivity. }
    destruct (h_u o) as [b|] eqn:Eu; [|exact F]. destruct (Nat.eqb_spec (length b) n) as [L|L]; [|exact F].
    destruct Ho as (v & Ev & Lv & Hw). split; [|split; [|split]].
    - exists b. auto.
    - exists v. split; [exact Ev|congruence].
    - intros D. destruct (Hw D) as (w & Ew & Lw). exists w. split; [exact Ew|congruence].
    - reflexivity.
  Qed.
  Lemma outs_query mem (o : highperf T) q dim : (dim = 2 \/ dim = 3) -> mcols q = dim -> outs_ok dim o ->
    outs_ok dim (fst (highperf_interpolate O mem o q)) /\ h_shape (fst (highperf_interpolate O mem o q)) = h_shape o.
  Proof.
    intros Hd Hq Ho.
    enough (F : full dim (nrows q) (h_shape o) (fst (highperf_interpolate O mem o q))).
    { split; [exact (full_outs _ _ _ _ F)|apply F]. }
    unfold highperf_interpolate. rewrite Hq.
    pose proof (full_ensure mem o (nrows q) dim Hd Ho) as F0. set (o0 := ensure_buffers mem o (nrows q) dim) in *. clearbody o0.
    destruct Hd as [->| ->]; cbv iota.
    - destruct (h_x o0) as [cx|]; [|exact F0]. destruct (h_y o0) as [cy|]; [|exact F0].
      pose proof (full_x mem _ _ _ o0 cx q F0) as F1. destruct (run_x O mem o0 cx q) as [o1 [bu|e]]; [|exact F1]. cbn [fst] in F1.
      pose proof (full_y mem _ _ _ o1 cy q F1) as F2. destruct (run_y O mem o1 cy q) as [o2 [bv|e]]; exact F2.
    - destruct (h_x o0) as [cx|]; [|exact F0]. destruct (h_y o0) as [cy|]; [|exact F0]. destruct (h_z o0) as [cz|]; [|exact F0].
      pose proof (full_x mem _ _ _ o0 cx q F0) as F1. destruct (run_x O mem o0 cx q) as [o1 [bu|e]]; [|exact F1]. cbn [fst] in F1.
      pose proof (full_y mem _ _ _ o1 cy q F1) as F2. destruct (run_y O mem o1 cy q) as [o2 [bv|e]]; [|exact F2]. cbn [fst] in F2.
      pose proof (full_z mem _ _ o2 cz q F2) as F3. destruct (run_z O mem o2 cz q) as [o3 [bw|e]]; exact F3.
  Qed.

  Lemma past_query i0 i mem q : past_of i0 i -> mcols q = d -> past_of i0 (fst (interpolate O scp mem i q)).
  Proof.
    intros H Hq. destruct i0 as [a|a|a|a|a|a], i as [b|b|b|b|b|b]; try contradiction; cbn [past_of interpolate] in *; try exact H.
    destruct H as (Hs & Hl & Hd & Ho). destruct (outs_query mem b q d Hd Hq Ho) as [A B].
    destruct (highperf_interpolate O mem b q) as [b' r]. cbn [fst past_of] in *. repeat split; try assumption. congruence.
  Qed.

  (* -- updates -- *)
  Lemma high_update_keeps (b : highperf T) v p : h_shape (fst (highperf_update O b v p)) = h_shape b /\
    h_u (fst (highperf_update O b v p)) = h_u b /\ h_v (fst (highperf_update O b v p)) = h_v b /\ h_w (fst (highperf_update O b v p)) = h_w b.
  Proof.
    unfold highperf_update.
    assert (G : forall o : highperf T, h_shape (fst (highperf_init O o)) = h_shape o /\ h_u (fst (highperf_init O o)) = h_u o /\
      h_v (fst (highperf_init O o)) = h_v o /\ h_w (fst (highperf_init O o)) = h_w o).
    { intros o. unfold highperf_init. destruct (h_velocities o); [|auto]. destruct (h_points o); [|auto].
      match goal with |- context [match ?x with Ok _ => _ | Err _ => _ end] => destruct x as [a|e] eqn:H end; [|auto].
      cbn [fst].
      repeat match type of H with
      | bind ?x _ = Ok _ => destruct x; [cbn [bind] in H|discriminate]
      | match ?x with _ => _ end = Ok _ => destruct x; try discriminate
      end; injection H as <-; cbn; auto. }
    destruct p as [p|]; [match goal with |- context [highperf_init O ?o] => exact (G o) end|].
    repeat match goal with |- context [match ?x with _ => _ end] => destruct x end; repeat split; reflexivity.
  Qed.
  Lemma outs_same dim (a b : highperf T) : h_u a = h_u b -> h_v a = h_v b -> h_w a = h_w b -> outs_ok dim a -> outs_ok dim b.
  Proof. unfold outs_ok. intros -> -> ->. exact (fun x => x). Qed.

  Lemma grid_init_keeps (g : gridinterp T) : let g' := fst (gridinterp_init O scp g) in
    g_shape g' = g_shape g /\ g_method g' = g_method g /\ (length (g_shape g) = 2 -> g_z g' = g_z g).
  Proof.
    cbv zeta. unfold gridinterp_init. destruct (g_velocities g); [|auto]. destruct (g_points g) as [p|]; [|auto].
    destruct (negb _); [cbn; auto|]. destruct (negb _); [cbn; auto|].
    destruct (nrows p =? 2) eqn:E2.
    - destruct (match g_shape g with [] => _ | _ => _ end); [|cbn; auto].
      destruct (mk_rgi scp (g_method g) _ _ 0 _); [|cbn; auto]. destruct (mk_rgi scp (g_method g) _ _ 1 _); cbn; auto.
    - destruct (match g_shape g with [] => _ | _ => _ end) eqn:Ea; [|cbn; auto].
      destruct (mk_rgi scp (g_method g) _ _ 0 _); [|cbn; auto]. destruct (mk_rgi scp (g_method g) _ _ 1 _); [|cbn; auto].
      destruct (mk_rgi scp (g_method g) _ _ 2 _); cbn; [|auto]. repeat split.
      destruct (g_shape g) as [|? [|? [|? [|]]]]; try discriminate; cbn; lia.
  Qed.
  Lemma grid_update_keeps (g : gridinterp T) v p : let g' := fst (gridinterp_update O scp g v p) in
    g_shape g' = g_shape g /\ g_method g' = g_method g /\ (length (g_shape g) = 2 -> g_z g = None -> g_z g' = None).
  Proof.
    cbv zeta. unfold gridinterp_update.
    assert (G : forall o : gridinterp T, g_shape o = g_shape g -> g_method o = g_method g -> g_z o = g_z g ->
      g_shape (fst (gridinterp_init O scp o)) = g_shape g /\ g_method (fst (gridinterp_init O scp o)) = g_method g /\
      (length (g_shape g) = 2 -> g_z g = None -> g_z (fst (gridinterp_init O scp o)) = None)).
    { intros o H1 H2 H3. destruct (grid_init_keeps o) as (A & B & C). repeat split; try congruence.
      intros L Z. rewrite C by congruence. congruence. }
    destruct (g_x g) as [rx|]; [|apply G; reflexivity]. destruct p as [p|]; [apply G; reflexivity|].
    destruct (g_ndim g) as [nd_|]; [|apply G; reflexivity].
    destruct (if nd_ =? 2 then _ else _) as [field|]; [|cbn; auto]. destruct (set_values (Some rx) field 0); [|cbn; auto].
    destruct (set_values (g_y g) field 1); [|cbn; auto]. destruct (nd_ =? 2); [cbn; auto|].
    destruct (g_z g) as [rz|] eqn:Z.
    - destruct (set_values (Some rz) field 2); cbn; repeat split; congruence.
    - destruct (set_values None field 2) eqn:Es; [|cbn; auto]. exfalso. revert Es. unfold set_values.
      destruct (subarray field 2); discriminate.
  Qed.

  Lemma past_update i0 i v p : past_of i0 i -> past_of i0 (fst (update O scp i v p)).
  Proof.
    intros H. destruct i0 as [a|a|a|a|a|a], i as [b|b|b|b|b|b]; try contradiction; cbn [past_of update] in *.
    1-3: destruct (base_update _ _ _ _ _); exact H.
    - pose proof (grid_update_keeps b v p) as K. destruct (gridinterp_update O scp b v p) as [b' r]. cbn [fst past_of] in *.
      destruct K as (K1 & K2 & K3), H as (H1 & H2 & H3 & H4). repeat split; try congruence.
      destruct H4 as [[H4 H5]|H4]; [left|right; exact H4]. split; [exact H4|]. apply K3; congruence.
    - pose proof (high_update_keeps b v p) as K. destruct (highperf_update O b v p) as [b' r]. cbn [fst past_of] in *.
      destruct K as (K1 & K2 & K3 & K4), H as (H1 & H2 & H3 & H4). repeat split; try congruence.
      apply (outs_same d b b'); congruence || assumption.
  Qed.

  (** An update with points makes all pasts alike. *)
  Lemma past_first i0 i j v p : past_of i0 i -> past_of i0 j ->
    snd (update O scp i v (Some p)) = snd (update O scp j v (Some p)) /\
    (snd (update O scp i v (Some p)) = Ok tt -> rel (fst (update O scp i v (Some p))) (fst (update O scp j v (Some p)))).
  Proof.
    intros Hi Hj.
    destruct i0 as [a|a|a|a|a|a], i as [b|b|b|b|b|b]; try contradiction; destruct j as [c|c|c|c|c|c]; try contradiction; cbn [past_of] in *.
    1-3: match goal with |- snd (update O scp ?x ?vv ?pp) = snd (update O scp ?y _ _) /\ _ =>
           destruct (update_same O scp x y vv pp I ltac:(discriminate)) as [A B] end;
         split; [exact A|]; intros Hok; specialize (B Hok); revert B; cbn [update];
         destruct (base_update _ _ _ _ _) as [b' rb], (base_update _ _ _ _ _) as [c' rc]; cbn; auto.
    - destruct Hi as (S1 & M1 & L & Z1), Hj as (S2 & M2 & _ & Z2). cbn [update].
      set (mk := fun o : gridinterp T => GridI (g_method o) (g_shape o) (Some v) (Some p) (g_ndim o) (g_x o) (g_y o) (g_z o)).
      assert (U : forall o : gridinterp T, gridinterp_update O scp o v (Some p) = gridinterp_init O scp (mk o)).
      { intros o. unfold gridinterp_update, mk. destruct (g_x o) eqn:Eo; cbv iota; rewrite ?Eo; reflexivity. }
      rewrite !U. unfold gridinterp_init, mk. clear U mk. cbn [g_velocities g_points g_shape g_method].
      rewrite S1, S2, M1, M2.
      destruct (negb (size (g_shape a) =? mcols p)); [split; [reflexivity|discriminate]|].
      destruct (negb _) eqn:E23; [split; [reflexivity|discriminate]|].
      destruct (nrows p =? 2) eqn:E2.
      + destruct (match g_shape a with [] => _ | _ => _ end) eqn:Ea; [|split; [reflexivity|discriminate]].
        assert (L2 : d = 2) by (rewrite <- L; destruct (g_shape a) as [|? [|? [|? ?]]]; try discriminate; reflexivity).
        destruct (mk_rgi scp (g_method a) _ _ 0 _); [|split; [reflexivity|discriminate]].
        destruct (mk_rgi scp (g_method a) _ _ 1 _); [|split; [reflexivity|discriminate]].
        split; [reflexivity|]. intros _. cbn [fst g_z rel twin]. split; [|left; exact L2].
        destruct Z1 as [[_ ->]|Z1]; [|lia]. destruct Z2 as [[_ ->]|Z2]; [|lia]. reflexivity.
      + destruct (match g_shape a with [] => _ | _ => _ end) eqn:Ea; [|split; [reflexivity|discriminate]].
        assert (L3 : length (g_shape a) = 3) by (destruct (g_shape a) as [|? [|? [|? [|]]]]; try discriminate; reflexivity).
        destruct (mk_rgi scp (g_method a) _ _ 0 _); [|split; [reflexivity|discriminate]].
        destruct (mk_rgi scp (g_method a) _ _ 1 _); [|split; [reflexivity|discriminate]].
        destruct (mk_rgi scp (g_method a) _ _ 2 _); [|split; [reflexivity|discriminate]].
        split; [reflexivity|]. intros _. cbn [fst g_z rel twin g_shape g_x g_ndim]. split; [reflexivity|right].
        split; [congruence|]. split; [exact L3|]. intros _.
        apply Bool.negb_false_iff in E23. cbn in E23. apply Nat.eqb_eq in E23. congruence.
    - destruct Hi as (S1 & L & Hd & O1), Hj as (S2 & _ & _ & O2). cbn [update].
      pose proof (high_update_keeps b v (Some p)) as (KS & KU & KV & KW). pose proof (high_update_keeps c v (Some p)) as (LS & LU & LV & LW).
      assert (O1' : outs_ok d (fst (highperf_update O b v (Some p)))) by (apply (outs_same d b); congruence || assumption).
      assert (O2' : outs_ok d (fst (highperf_update O c v (Some p)))) by (apply (outs_same d c); congruence || assumption).
      assert (Sh : exists ns, h_shape a = ns) by eauto. clear KU KV KW LU LV LW.
      destruct (h_shape a) as [|n1 [|n2 [|n3 [|n4 ns]]]] eqn:Ea; cbn in L; try lia.
      + rewrite <- L in O1', O2'. revert O1' O2' KS LS. cbn [highperf_update]. destruct (init2_eq O n1 n2 v p) as [r Hr]. rewrite !Hr by (cbn; congruence).
        destruct r as [[[[vx vy] ax] ay]|e]; cbn [fst snd]; intros O1' O2' KS LS; (split; [reflexivity|]); [|discriminate]. intros _.
        cbn [rel twin]. unfold twin_high. rewrite KS, S1. split; [congruence|]. split; [exact O1'|]. split; [exact O2'|].
        right. exists vx, vy, ax, ay. split; (split; [reflexivity|split; [cbn; congruence|exists None, None; repeat split]]).
      + rewrite <- L in O1', O2'. revert O1' O2' KS LS. cbn [highperf_update]. destruct (init3_eq O n1 n2 n3 v p) as [r Hr]. rewrite !Hr by (cbn; congruence).
        destruct r as [[[[[[vx vy] vz] ax] ay] az]|e]; cbn [fst snd]; intros O1' O2' KS LS; (split; [reflexivity|]); [|discriminate]. intros _.
        cbn [rel twin]. unfold twin_high. rewrite KS, S1. split; [congruence|]. split; [exact O1'|]. split; [exact O2'|].
        right. exists vx, vy, vz, ax, ay, az. split; (split; [cbn; congruence|exists None, None, None; repeat split]).
  Qed.
End Files.

(* ---- tasks of the file workflow ---- *)
Section History.
  Context {T : Type} (O : ops T) (scp : scipy T).
  Variables imems mems : nat -> memory (T := T).
  Variable eigvals : m33 T -> res (T * T * T).
  Context {W : Type}.
  Variable write : W -> string -> list (xval T) -> mat T -> W * res unit.
  Variable fs : filesystem T.
  Variable d : nat.
  Hypothesis whole : whole_arrays fs.

  Notation worker g q wr := (file_worker O scp imems eigvals mems write fs g q wr).

  Lemma particles_rows (m : mat T) p : mk_particles O m = Ok p -> positions p = m /\ nrows m <> 3.
  Proof.
    unfold mk_particles. intros H. split.
    - destruct (_ || _); [|discriminate].
      repeat match type of H with bind ?x _ = _ => destruct x; [cbn [bind] in H|discriminate] end. injection H as <-. reflexivity.
    - intros E. rewrite E in H. discriminate.
  Qed.
  Lemma seeds_rows name p : (let* data := fs name in read_seed_particles_coordinates O data) = Ok p -> nrows (positions p) <> 3.
  Proof.
    destruct (fs name) as [file|]; [|discriminate]. cbn [bind]. unfold read_seed_particles_coordinates.
    assert (G : forall x, (let* pos := x in match mat_of_nd pos with Some m => mk_particles O m | None => Err (External 0) end) = Ok p ->
      nrows (positions p) <> 3).
    { intros [x|]; [|discriminate]. cbn [bind]. destruct (mat_of_nd x); [|discriminate]. intros H.
      apply particles_rows in H. destruct H as [-> H]. exact H. }
    destruct (file "left"%string); [|discriminate]. destruct (file "right"%string); [|discriminate].
    destruct (file "top"%string); [|discriminate]. destruct (file "bottom"%string); [|discriminate].
    destruct (file "front"%string); [destruct (file "back"%string)|]; apply G.
  Qed.

  Variable i0 : interp scp.
  Notation J := (fun s : istate scp => past_of scp d i0 (fst s)).

  Lemma J_query (s : istate scp) q : J s -> mcols q = d -> J (fst (i_interpolate O scp imems s q)).
  Proof.
    intros H Hq. unfold i_interpolate. pose proof (past_query O scp d i0 (fst s) (imems (snd s)) q H Hq) as K.
    destruct (interpolate O scp (imems (snd s)) (fst s) q). exact K.
  Qed.
  Lemma J_task f (s : istate scp) j : J s -> J (fst (src_update (file_task O scp fs f) s j)).
  Proof.
    intros H. unfold file_task, file_batch. cbn [src_update]. destruct (get_data_for_step fs f j) as [[v c]|e]; [|exact H].
    unfold i_update. pose proof (past_update O scp d i0 (fst s) v c H) as K. destruct (update O scp (fst s) v c). exact K.
  Qed.

  Lemma history_kept (h : list (file_source T * bool * bool)) : forall w : world T (istate scp) unit W,
    Forall (fun g => seeds_have d fs (particle_file (fst (fst g)))) h ->
    reachable O (i_interpolate O scp imems) (w_integrator w) -> one_step (w_integrator w) (w_integrator w) -> J (w_interp w) ->
    let w' := fold_left (fun w g => fst (worker (fst (fst g)) (snd (fst g)) (snd g) w)) h w in
    reachable O (i_interpolate O scp imems) (w_integrator w') /\ one_step (w_integrator w) (w_integrator w') /\ J (w_interp w').
  Proof.
    cbv zeta. induction h as [|[[g q] wr] h IH]; intros w Hh R K HJ; [auto|]. apply Forall_cons_iff in Hh. destruct Hh as [Hg Hh]. cbn [fst] in Hg.
    cbn [fold_left fst snd].
    destruct (keep_run O (i_interpolate O scp imems) eigvals mems write J d J_query (Solver (file_task O scp fs g) q wr) (J_task g) w R K HJ)
      as (A1 & A2 & A3).
    { intros p Hp. exact (seeds_cols O fs (particle_file g) p d Hg Hp). }
    fold (worker g q wr w) in A1, A2, A3.
    destruct (IH (fst (worker g q wr w)) Hh A1 (proj2 (one_step_l _ _ A2)) A3) as (B1 & B2 & B3).
    split; [exact B1|]. split; [|exact B3].
    revert A2 B2. clear. destruct (w_integrator w), (w_integrator (fst _)), (w_integrator (fold_left _ _ _)); cbn; tauto.
  Qed.

  Lemma file_same_result f q (w1 w2 : world T (istate scp) unit W) : seeds_have d fs (particle_file f) ->
    reachable O (i_interpolate O scp imems) (w_integrator w1) -> reachable O (i_interpolate O scp imems) (w_integrator w2) ->
    one_step (w_integrator w1) (w_integrator w2) -> J (w_interp w1) -> J (w_interp w2) ->
    snd (worker f q false w1) = snd (worker f q false w2).
  Proof.
    intros Hf R1 R2 K J1 J2. unfold file_worker.
    apply (same_result O (i_interpolate O scp imems) eigvals mems write (fun s t => rel scp d (fst s) (fst t))
             (fun m => wf_mat m /\ mcols m = d /\ nrows m <> 3) wf_mat) with (J := J).
    - intros s t m Hs (Hw & Hc & Hr). unfold i_interpolate.
      destruct (rel_query O scp d (fst s) (fst t) (imems (snd s)) (imems (snd t)) m Hs Hw Hc Hr) as [A B].
      destruct (interpolate O scp (imems (snd s)) (fst s) m), (interpolate O scp (imems (snd t)) (fst t) m). exact (conj A B).
    - intros b v k Hv Hk. exact (copyto_wf b v k Hv Hk).
    - intros a m. apply smul_wf.
    - intros a b m. apply mat_map2_wf.
    - intros a b m. apply mat_map2_wf.
    - intros a b m (Ha & Hc & Hr) Hb Hm. split; [eapply mat_map2_wf; [exact Ha|exact Hb|exact Hm]|].
      apply mat_map2_shape, same_shape_spec in Hm. destruct Hm as [Hm ->]. split; [exact Hc|congruence].
    - intros j s t Hs. unfold file_task, file_batch. cbn [src_update].
      destruct (get_data_for_step fs f j) as [[v c]|e]; [|split; [reflexivity|discriminate]].
      unfold i_update. destruct (rel_update O scp d (fst s) (fst t) v c Hs) as [A B].
      destruct (update O scp (fst s) v c), (update O scp (fst t) v c). exact (conj A B).
    - intros s t Hs Ht. unfold file_task, file_batch. cbn [src_update].
      destruct (get_data_for_step fs f 0) as [[v c]|e] eqn:G; [|split; [reflexivity|discriminate]].
      assert (Hc : exists p, c = Some p).
      { unfold get_data_for_step in G. cbn [Nat.eqb orb] in G.
        destruct (get (snapshot_files f) 0) as [x|]; [|discriminate]. destruct (get (coordinate_files f) 0) as [y|]; [|discriminate].
        cbn [bind] in G. destruct (fs x) as [m|]; [|discriminate]. cbn [bind] in G.
        destruct (read_velocity m); [|discriminate]. cbn [bind] in G.
        destruct (fs y) as [m'|]; [|discriminate]. cbn [bind] in G. destruct (read_coordinate m'); [|discriminate].
        cbn [bind] in G. injection G as _ <-. eauto. }
      destruct Hc as [p ->]. unfold i_update. destruct (past_first O scp d i0 (fst s) (fst t) v p Hs Ht) as [A B].
      destruct (update O scp (fst s) v (Some p)), (update O scp (fst t) v (Some p)). exact (conj A B).
    - split; [apply one_step_same, K|]. split; [apply (reachable_bufs_ok _ _ _ R1)|]. split; [apply (reachable_bufs_ok _ _ _ R2)|].
      revert K. destruct (w_integrator w1), (w_integrator w2); cbn; tauto.
    - exact J1.
    - exact J2.
    - destruct (w_source w1), (w_source w2). reflexivity.
    - intros p Hp. split; [exact (seeds_wf O fs (particle_file f) p whole Hp)|].
      split; [exact (seeds_cols O fs (particle_file f) p d Hf Hp)|exact (seeds_rows (particle_file f) p Hp)].
  Qed.
End History.

Lemma past_new {T} (O : ops T) (scp : scipy T) name gs fn i0 d : create_interpolator O scp name gs fn = Ok i0 -> data_driven name ->
  match gs with None => d = 2 | Some l => length l = d /\ (d = 2 \/ d = 3) end -> past_of scp d i0 i0.
Proof.
  intros H Hn Hd. destruct (create_spec O scp name gs fn) as (_ & Sg & Sc & Sl & Sn & _).
  destruct Hn as [V|[V|[V|V]]]; [rewrite (Sc V) in H|rewrite (Sl V) in H|rewrite (Sn V) in H|rewrite (Sg V) in H];
    destruct gs as [l|]; try discriminate; injection H as <-; cbn; try exact Hd.
  1-3: destruct Hd as [L D]; repeat split; auto; destruct D; auto.
  destruct Hd as [L D]. repeat split; auto.
Qed.

Lemma any_history {T} (O : ops T) (scp : scipy T) name gs fn iname (i0 : interp scp) g0 d imems eigvals mems {W}
  (write : W -> string -> list (xval T) -> mat T -> W * res unit) fs f q (history : list (file_source T * bool * bool))
  (w : world T (istate scp) unit W) :
  create_interpolator O scp name gs fn = Ok i0 -> data_driven name ->
  match gs with None => d = 2 | Some l => length l = d /\ (d = 2 \/ d = 3) end ->
  create_integrator iname = Ok g0 -> ~ case_variant iname "ab2" ->
  whole_arrays fs -> seeds_have d fs (particle_file f) ->
  Forall (fun g => seeds_have d fs (particle_file (fst (fst g)))) history ->
  fst (w_interp w) = i0 -> w_integrator w = g0 ->
  let after := fold_left (fun w g => fst (file_worker O scp imems eigvals mems write fs (fst (fst g)) (snd (fst g)) (snd g) w)) history w in
  snd (file_worker O scp imems eigvals mems write fs f q false after) = snd (file_worker O scp imems eigvals mems write fs f q false w).
Proof.
  intros Ci Dn Hd Cg Na Wh Hf Hh Ei Eg. cbv zeta.
  assert (R : reachable O (i_interpolate O scp imems) (w_integrator w)) by (rewrite Eg; exact (reach_fresh _ _ _ _ Cg)).
  assert (K : one_step (w_integrator w) (w_integrator w)).
  { rewrite Eg. unfold create_integrator in Cg. destruct (String.eqb_spec (lower iname) "ab2") as [E|_].
    { apply (lower_spec _ _ no_upper_ab2) in E. contradiction. }
    destruct (String.eqb (lower iname) "euler"); [injection Cg as <-; exact I|].
    destruct (String.eqb (lower iname) "rk4"); [injection Cg as <-; exact I|discriminate]. }
  assert (J0 : past_of scp d i0 (fst (w_interp w))) by (rewrite Ei; exact (past_new O scp name gs fn i0 d Ci Dn Hd)).
  destruct (history_kept O scp imems mems eigvals write fs d i0 history w Hh R K J0) as (R' & K' & J').
  symmetry. exact (file_same_result O scp imems mems eigvals write fs d Wh i0 f q w _ Hf R R' K' J0 J').
Qed.
