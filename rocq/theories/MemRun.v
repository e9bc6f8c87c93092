(** Runs that differ only in the contents of freshly allocated memory. *)
From Coq Require Import Lia.
From Verif Require Import Base Num Particles Jacobian Ftle Integrate DataSource Solver SpecIntegrate IntegrateFacts.

Section Mem.
  Context {T : Type} (O : ops T) {S1 S2 P W : Type}.
  Variable int1 : S1 -> mat T -> S1 * res (mat T).
  Variable int2 : S2 -> mat T -> S2 * res (mat T).
  Variable eigvals : m33 T -> res (T * T * T).
  Variables mems1 mems2 : nat -> memory (T := T).
  Variable write : W -> string -> list (xval T) -> mat T -> W * res unit.
  (** Related states of the interpolators, the queries considered, and their answers. *)
  Variable E : S1 -> S2 -> Prop.
  Variables Q V : mat T -> Prop.
  Hypothesis HE : forall s t q, E s t -> Q q -> snd (int1 s q) = snd (int2 t q) /\
    forall m, snd (int1 s q) = Ok m -> V m /\ E (fst (int1 s q)) (fst (int2 t q)).
  Hypothesis Vcopy : forall b v k : mat T, V v -> copyto b v = Ok k -> V k.
  Hypothesis Vscale : forall a m, V m -> V (smul O a m).
  Hypothesis Vadd : forall a b m, V a -> V b -> madd O a b = Ok m -> V m.
  Hypothesis Vsub : forall a b m, V a -> V b -> msub O a b = Ok m -> V m.
  Hypothesis Qadd : forall a b m, Q a -> V b -> madd O a b = Ok m -> Q m.

  Definition past (i : integrator T) : Prop := match i with AB2 (Some v) _ => V v | _ => True end.
  Definition twins (i j : integrator T) : Prop := same_memory i j /\ bufs_ok i /\ bufs_ok j /\ past i.

  Lemma sample_mem s t b c q : E s t -> Q q -> same_shape b c = true -> exists s' t' r,
    sample int1 s b q = (s', r) /\ sample int2 t c q = (t', r) /\
    (forall v, r = Ok v -> V v /\ E s' t' /\ same_shape v b = true).
  Proof.
    intros H Hq Hs. destruct (HE s t q H Hq) as [H1 H2]. unfold sample.
    destruct (int1 s q) as [s' r], (int2 t q) as [t' r']. cbn in *. subst r'.
    exists s', t', (let* v := r in copyto b v). split; [reflexivity|]. split.
    - f_equal. destruct r as [m|e]; [|reflexivity]. cbn. symmetry. apply copyto_shape, Hs.
    - destruct r as [m|e]; [|discriminate]. cbn. intros v Hv. destruct (H2 m eq_refl) as [K1 K2].
      split; [eapply Vcopy; eassumption|]. split; [exact K2|]. eapply copyto_result_shape, Hv.
  Qed.

  Definition agree (a : integrator T * S1 * res (mat T)) (b : integrator T * S2 * res (mat T)) : Prop :=
    snd a = snd b /\ forall m, snd a = Ok m -> Q m /\ E (snd (fst a)) (snd (fst b)) /\ twins (fst (fst a)) (fst (fst b)).
  Lemma agree_err ia ib s t e : agree (ia, s, Err e) (ib, t, Err e).
  Proof. split; [reflexivity|discriminate]. Qed.

  Lemma step_euler b b' mem mem' s t h pos : E s t -> Q pos ->
    agree (euler_integrate O int1 mem b s h pos) (euler_integrate O int2 mem' b' t h pos).
  Proof.
    intros H Hq. unfold euler_integrate.
    destruct (sample_mem s t (get_buffer mem 0 b pos) (get_buffer mem' 0 b' pos) pos H Hq) as (s1 & t1 & r & -> & -> & H1).
    { eapply same_shape_trans; [apply get_buffer_shape|]. rewrite same_shape_sym. apply get_buffer_shape. }
    destruct r as [v|e]; [|apply agree_err]. destruct (H1 v eq_refl) as (Hv & Hs & _).
    split; [reflexivity|]. cbn. intros m Hm. split; [eapply Qadd; [exact Hq|apply Vscale; exact Hv|exact Hm]|].
    split; [exact Hs|]. repeat split.
  Qed.

  Lemma step_ab2 p b b' mem mem' s t h pos : E s t -> Q pos -> match p with Some v => V v | None => True end ->
    agree (ab2_integrate O int1 mem p b s h pos) (ab2_integrate O int2 mem' p b' t h pos).
  Proof.
    intros H Hq Hp. unfold ab2_integrate.
    destruct (sample_mem s t (get_buffer mem 0 b pos) (get_buffer mem' 0 b' pos) pos H Hq) as (s1 & t1 & r & -> & -> & H1).
    { eapply same_shape_trans; [apply get_buffer_shape|]. rewrite same_shape_sym. apply get_buffer_shape. }
    destruct r as [v|e]; [|apply agree_err]. destruct (H1 v eq_refl) as (Hv & Hs & _).
    destruct p as [vp|].
    - destruct (ab2_step O pos h v vp) as [pos'|e] eqn:X; [|apply agree_err].
      destruct (copyto vp v) as [pv|e] eqn:C; [|apply agree_err]. split; [reflexivity|]. cbn. intros m [= <-].
      split.
      + unfold ab2_step in X. destruct (msub O _ _) as [d|] eqn:D; [|discriminate]. cbn [bind] in X.
        eapply Qadd; [exact Hq| |exact X]. apply Vscale. eapply Vsub; [| |exact D]; apply Vscale; assumption.
      + split; [exact Hs|]. repeat split. cbn. eapply Vcopy; [exact Hv|exact C].
    - destruct (euler_step O pos h v) as [pos'|e] eqn:X; [|apply agree_err].
      rewrite (copyto_same (empty_like (mem 1) v) v), (copyto_same (empty_like (mem' 1) v) v) by apply empty_like_shape.
      split; [reflexivity|]. cbn. intros m [= <-].
      split; [eapply Qadd; [exact Hq|apply Vscale; exact Hv|exact X]|].
      split; [exact Hs|]. repeat split. cbn. exact Hv.
  Qed.

  Lemma step_rk4 b b' mem mem' s t h pos : E s t -> Q pos -> bufs_ok (RK4 b) -> bufs_ok (RK4 b') ->
    agree (rk4_integrate O int1 mem b s h pos) (rk4_integrate O int2 mem' b' t h pos).
  Proof.
    intros H Hq Hb Hb'. unfold rk4_integrate.
    fold (rk4_bufs mem b pos). fold (rk4_bufs mem' b' pos).
    pose proof (rk4_bufs_shape mem b pos Hb) as Hs. pose proof (rk4_bufs_shape mem' b' pos Hb') as Hs'.
    destruct (rk4_bufs mem b pos) as [[[[bk1 bk2] bk3] bk4] btmp]. destruct Hs as (H1 & H2 & H3 & H4 & H5).
    destruct (rk4_bufs mem' b' pos) as [[[[ck1 ck2] ck3] ck4] ctmp]. destruct Hs' as (G1 & G2 & G3 & G4 & G5).
    rewrite same_shape_sym in G1, G2, G3, G4.
    assert (Tq : forall x k m, V k -> madd O pos (smul O x k) = Ok m -> Q m /\ same_shape m pos = true).
    { intros x k m Hk Hm. split; [eapply Qadd; [exact Hq|apply Vscale; exact Hk|exact Hm]|]. eapply mat_map2_shape, Hm. }
    destruct (sample_mem s t bk1 ck1 pos H Hq) as (s1 & t1 & r & -> & -> & A); [eapply same_shape_trans; eassumption|].
    destruct r as [k1|e]; [|apply agree_err]. destruct (A k1 eq_refl) as (Hk1 & E1 & L1). clear A.
    rewrite (copyto_same btmp pos H5), (copyto_same ctmp pos G5). cbn [bind].
    destruct (madd O pos (smul O (o_mul O (o_half O) h) k1)) as [x1|e] eqn:X1; [|apply agree_err].
    apply Tq in X1; [|exact Hk1]. destruct X1 as [Q1 Y1].
    destruct (sample_mem s1 t1 bk2 ck2 x1 E1 Q1) as (s2 & t2 & r & -> & -> & A); [eapply same_shape_trans; eassumption|].
    destruct r as [k2|e]; [|apply agree_err]. destruct (A k2 eq_refl) as (Hk2 & E2 & L2). clear A.
    rewrite (copyto_same x1 pos Y1). cbn [bind].
    destruct (madd O pos (smul O (o_mul O (o_half O) h) k2)) as [x2|e] eqn:X2; [|apply agree_err].
    apply Tq in X2; [|exact Hk2]. destruct X2 as [Q2 Y2].
    destruct (sample_mem s2 t2 bk3 ck3 x2 E2 Q2) as (s3 & t3 & r & -> & -> & A); [eapply same_shape_trans; eassumption|].
    destruct r as [k3|e]; [|apply agree_err]. destruct (A k3 eq_refl) as (Hk3 & E3 & L3). clear A.
    rewrite (copyto_same x2 pos Y2). cbn [bind].
    destruct (madd O pos (smul O h k3)) as [x3|e] eqn:X3; [|apply agree_err].
    apply Tq in X3; [|exact Hk3]. destruct X3 as [Q3 Y3].
    destruct (sample_mem s3 t3 bk4 ck4 x3 E3 Q3) as (s4 & t4 & r & -> & -> & A); [eapply same_shape_trans; eassumption|].
    destruct r as [k4|e]; [|apply agree_err]. destruct (A k4 eq_refl) as (Hk4 & E4 & L4). clear A.
    split; [reflexivity|]. cbn [fst snd]. intros m Hm. split; [|split; [exact E4|]].
    - unfold rk4_step in Hm.
      destruct (madd O k1 _) as [a1|] eqn:M1; [|discriminate]. cbn [bind] in Hm.
      destruct (madd O a1 _) as [a2|] eqn:M2; [|discriminate]. cbn [bind] in Hm.
      destruct (madd O a2 _) as [a3|] eqn:M3; [|discriminate]. cbn [bind] in Hm.
      eapply Qadd; [exact Hq| |exact Hm]. apply Vscale.
      eapply Vadd; [|exact Hk4|exact M3]. eapply Vadd; [|apply Vscale; exact Hk3|exact M2].
      eapply Vadd; [|apply Vscale; exact Hk2|exact M1]. exact Hk1.
    - assert (K : bufs_ok (RK4 (Some (k1, k2, k3, k4, x3)))).
      { eapply bufs_shape_ok with (pos := pos). repeat split; try assumption; eapply same_shape_trans; eassumption. }
      repeat split; apply K.
  Qed.

  Lemma step_mem i j mem mem' s t h pos : twins i j -> E s t -> Q pos ->
    agree (integrate_pos O int1 mem i s h pos) (integrate_pos O int2 mem' j t h pos).
  Proof.
    intros (Hm & Hi & Hj & Hp) H Hq. destruct i as [b|p b|b], j as [b'|p' b'|b']; cbn in Hm; try contradiction; cbn [integrate_pos].
    - apply step_euler; assumption.
    - subst p'. apply step_ab2; assumption.
    - apply step_rk4; assumption.
  Qed.

  Variable src1 : source T S1 P.
  Variable src2 : source T S2 P.
  Hypothesis Hid : match src_id src1, src_id src2 with Ok _, Ok _ => True | Err a, Err b => a = b | _, _ => False end.
  Hypothesis Hh : src_timestep src1 = src_timestep src2.
  Hypothesis Hn : src_steps src1 = src_steps src2.
  Hypothesis Hp : forall x, src_particles src1 x = src_particles src2 x.
  Hypothesis Hu : forall j s t, E s t -> snd (src_update src1 s j) = snd (src_update src2 t j) /\
    (snd (src_update src1 s j) = Ok tt -> E (fst (src_update src1 s j)) (fst (src_update src2 t j))).
  Variable queue writer : bool.
  Notation sv1 := (Solver src1 queue writer).
  Notation sv2 := (Solver src2 queue writer).

  (** What a task leaves behind, if the tasks have the same id. *)
  Definition same_left (same_id : Prop) (w1 : world T S1 P W) (w2 : world T S2 P W) : Prop :=
    same_id -> w_queue w1 = w_queue w2 /\ w_writer w1 = w_writer w2.

  Lemma steps_mem id id' n : forall i w1 w2 p, same_left (id = id') w1 w2 -> twins (w_integrator w1) (w_integrator w2) ->
    E (w_interp w1) (w_interp w2) -> Q (positions p) -> exists w1' w2' p' r,
    run_steps O int1 mems1 sv1 id n i w1 p = (w1', p', r) /\
    run_steps O int2 mems2 sv2 id' n i w2 p = (w2', p', r) /\ same_left (id = id') w1' w2'.
  Proof.
    induction n as [|n IH]; intros i w1 w2 p H Ht He Hq; [cbn; eauto 8|].
    destruct w1 as [g1 s1 x1 q1 y1 c1], w2 as [g2 s2 x2 q2 y2 c2].
    cbn in Ht, He. unfold same_left in H. cbn in H.
    cbn [run_steps s_source w_interp w_integrator w_source w_queue w_writer w_clock s_queue].
    destruct (Hu i s1 s2 He) as [U1 U2].
    destruct (src_update src1 s1 i) as [s1' r1], (src_update src2 s2 i) as [s2' r2]. cbn in U1, U2. subst r2.
    destruct r1 as [[]|e]; [|do 4 eexists; split; [reflexivity|split; [reflexivity|]]; exact H].
    specialize (U2 eq_refl). unfold integrate. rewrite <- Hh.
    pose proof (step_mem g1 g2 (mems1 c1) (mems2 c2) s1' s2' (src_timestep src1) (positions p) Ht U2 Hq) as A.
    destruct (integrate_pos O int1 _ _ _ _ _) as [[i1 t1] r], (integrate_pos O int2 _ _ _ _ _) as [[i2 t2] r'].
    destruct A as [A1 A2]. cbn in A1, A2. subst r'.
    destruct r as [pos'|e].
    - destruct (A2 pos' eq_refl) as (K1 & K2 & K3). apply IH; [|exact K3|exact K2|exact K1].
      intros <-. cbn. destruct (H eq_refl) as [<- <-]. split; reflexivity.
    - do 4 eexists; split; [reflexivity|split; [reflexivity|]]. exact H.
  Qed.

  Lemma run_mem w1 w2 : same_left (src_id src1 = src_id src2) w1 w2 -> twins (w_integrator w1) (w_integrator w2) ->
    E (w_interp w1) (w_interp w2) -> w_source w1 = w_source w2 ->
    (forall p, src_particles src1 (w_source w1) = Ok p -> Q (positions p)) ->
    same_left (src_id src1 = src_id src2) (fst (run O int1 eigvals mems1 write sv1 w1)) (fst (run O int2 eigvals mems2 write sv2 w2)) /\
    (src_id src1 = src_id src2 \/ writer = false ->
     snd (run O int1 eigvals mems1 write sv1 w1) = snd (run O int2 eigvals mems2 write sv2 w2)).
  Proof.
    intros H Ht He Hx HQ. unfold run. cbn [s_source s_queue s_writer]. rewrite <- Hx, <- Hp, <- Hn, <- Hh.
    destruct (src_particles src1 (w_source w1)) as [p|e]; [|split; [exact H|reflexivity]]. specialize (HQ p eq_refl).
    destruct (src_id src1) as [id|e], (src_id src2) as [id'|e']; try contradiction; [|subst e'; split; [exact H|reflexivity]].
    assert (H' : same_left (id = id') w1 w2) by (intros ->; apply H; reflexivity).
    destruct (steps_mem id id' (src_steps src1) 0 w1 w2 p H' Ht He HQ) as (w1' & w2' & p' & r & -> & -> & L).
    assert (L' : @Ok string id = Ok id' -> w_queue w1' = w_queue w2' /\ w_writer w1' = w_writer w2').
    { intros [= E']. apply L, E'. }
    unfold keep. cbn [w_integrator w_interp w_source w_queue w_writer w_clock s_source].
    destruct r as [[]|e]; [|split; [exact L'|reflexivity]].
    assert (L'' : @Ok string id = Ok id' -> (if queue then w_queue w1' ++ [Done id] else w_queue w1') =
      (if queue then w_queue w2' ++ [Done id'] else w_queue w2') /\ w_writer w1' = w_writer w2').
    { intros X. destruct (L' X) as [<- <-]. injection X as <-. split; reflexivity. }
    destruct (compute_ftle O eigvals (src_steps src1) (src_timestep src1) p') as [field|e]; [|split; [exact L''|reflexivity]].
    destruct writer; [|split; [exact L''|reflexivity]].
    split.
    - intros X. destruct (L'' X) as [A <-]. injection X as <-.
      destruct (write (w_writer w1') (append "ftle_" id) field (initial_centroid p')) as [wr r]. split; [exact A|reflexivity].
    - intros [X|X]; [|discriminate]. destruct (L' X) as [_ <-]. injection X as <-.
      destruct (write (w_writer w1') (append "ftle_" id) field (initial_centroid p')) as [wr r]. reflexivity.
  Qed.
End Mem.
