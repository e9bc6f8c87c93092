(** Proofs about integrate.py that hold for every arithmetic. *)
From Coq Require Import Lia.
From Verif Require Import Base Num Particles Integrate SpecIntegrate.

(* ---- arrays ---- *)
Lemma same_shape_refl {A} (m : mat A) : same_shape m m = true.
Proof. unfold same_shape. rewrite !Nat.eqb_refl. reflexivity. Qed.

Lemma same_shape_spec {A B} (a : mat A) (b : mat B) :
  same_shape a b = true <-> nrows a = nrows b /\ mcols a = mcols b.
Proof. unfold same_shape. rewrite andb_true_iff, !Nat.eqb_eq. reflexivity. Qed.

Lemma same_shape_sym {A B} (a : mat A) (b : mat B) : same_shape a b = same_shape b a.
Proof. unfold same_shape. rewrite (Nat.eqb_sym (nrows a)), (Nat.eqb_sym (mcols a)). reflexivity. Qed.

Lemma empty_like_shape {A} j (m : mat A) : same_shape (empty_like j m) m = true.
Proof.
  apply same_shape_spec. unfold empty_like, junk_mat, nrows. cbn [mrows mcols].
  rewrite map_length, seq_length. split; reflexivity.
Qed.

(** copyto looks at its destination's shape only. *)
Lemma copyto_shape {A} (d d' s : mat A) : same_shape d d' = true -> copyto d s = copyto d' s.
Proof.
  intro H. apply same_shape_spec in H. destruct H as [H1 H2].
  unfold copyto, same_shape. rewrite H1, H2. reflexivity.
Qed.

Lemma copyto_result_shape {A} (d s v : mat A) : copyto d s = Ok v -> same_shape v d = true.
Proof.
  unfold copyto. destruct (same_shape d s) eqn:E.
  - intro H; injection H as <-. apply same_shape_spec in E. apply same_shape_spec. cbn. unfold nrows in *. cbn. lia.
  - destruct ((mcols s =? mcols d) || (mcols s =? 1)); [|discriminate].
    destruct (nrows s =? nrows d) eqn:E2.
    + intro H; injection H as <-. apply Nat.eqb_eq in E2. apply same_shape_spec. cbn. unfold nrows in *.
      cbn. rewrite map_length. lia.
    + destruct (mrows s) as [|r [|? ?]]; try discriminate.
      intro H; injection H as <-. apply same_shape_spec. cbn. unfold nrows. cbn. rewrite repeat_length. lia.
Qed.

Lemma copyto_same {A} (d s : mat A) : same_shape d s = true -> copyto d s = Ok s.
Proof.
  intro H. unfold copyto. rewrite H. apply same_shape_spec in H. destruct H as [_ H]. rewrite H.
  destruct s; reflexivity.
Qed.

Lemma mat_map2_shape {A B C} (f : A -> B -> C) a b m : mat_map2 f a b = Ok m -> same_shape m a = true.
Proof.
  unfold mat_map2. destruct (same_shape a b) eqn:E; [|discriminate]. intro H; injection H as <-.
  apply same_shape_spec in E. apply same_shape_spec. unfold nrows in *. cbn. split; [|reflexivity].
  destruct E as [E _]. revert E. generalize (mrows b). generalize (mrows a).
  induction l as [|x l IH]; intros [|y l0] E; cbn in *; try reflexivity; try discriminate.
  f_equal. apply IH. lia.
Qed.

Lemma mat_map2_mismatch {A B C} (f : A -> B -> C) a b :
  same_shape a b = false -> mat_map2 f a b = Err ValueError.
Proof. intro H. unfold mat_map2. rewrite H. reflexivity. Qed.

Section Facts.
  Context {T : Type} (O : ops T) {S : Type}.
  Variable interpolate : S -> mat T -> S * res (mat T).

  Notation sample := (sample interpolate).
  Notation integrate_pos := (integrate_pos O interpolate).

  (* ---- reachable integrators ---- *)
  (** Buffers of an RK4 integrator are allocated together. *)
  Definition bufs_ok (i : integrator T) : Prop :=
    match i with
    | RK4 (Some (k1, k2, k3, k4, t)) =>
        same_shape k2 k1 = true /\ same_shape k3 k1 = true /\ same_shape k4 k1 = true /\ same_shape t k1 = true
    | _ => True
    end.

  Lemma same_shape_trans {A B C} (a : mat A) (b : mat B) (c : mat C) :
    same_shape a b = true -> same_shape b c = true -> same_shape a c = true.
  Proof. rewrite !same_shape_spec. intros [] []. split; congruence. Qed.

  Lemma sample_shape s buf pos s' v : sample s buf pos = (s', Ok v) -> same_shape v buf = true.
  Proof.
    unfold Integrate.sample. destruct (interpolate s pos) as [s1 r]. intro H. injection H as _ H.
    destruct r as [m|e]; [|discriminate]. cbn in H. eapply copyto_result_shape, H.
  Qed.

  Definition rk4_bufs (mem : memory) (b : option (mat T * mat T * mat T * mat T * mat T)) (pos : mat T) :=
    let fresh := (empty_like (mem 0) pos, empty_like (mem 1) pos, empty_like (mem 2) pos,
                  empty_like (mem 3) pos, empty_like (mem 4) pos) in
    match b with
    | Some (k1, k2, k3, k4, t) => if same_shape k1 pos then (k1, k2, k3, k4, t) else fresh
    | None => fresh
    end.

  Definition bufs_shape (bufs : mat T * mat T * mat T * mat T * mat T) (pos : mat T) : Prop :=
    match bufs with
    | (k1, k2, k3, k4, t) => same_shape k1 pos = true /\ same_shape k2 pos = true /\
        same_shape k3 pos = true /\ same_shape k4 pos = true /\ same_shape t pos = true
    end.

  Lemma rk4_bufs_shape mem b pos : bufs_ok (RK4 b) -> bufs_shape (rk4_bufs mem b pos) pos.
  Proof.
    unfold rk4_bufs. destruct b as [[[[[k1 k2] k3] k4] t]|]; cbn [bufs_ok].
    - intros (H2 & H3 & H4 & H5). destruct (same_shape k1 pos) eqn:E.
      + repeat split; try assumption; eapply same_shape_trans; eassumption.
      + repeat split; apply empty_like_shape.
    - intros _. repeat split; apply empty_like_shape.
  Qed.

  Lemma bufs_shape_ok k1 k2 k3 k4 t pos : bufs_shape (k1, k2, k3, k4, t) pos ->
    bufs_ok (RK4 (Some (k1, k2, k3, k4, t))).
  Proof.
    cbn. intros (H1 & H2 & H3 & H4 & H5). rewrite same_shape_sym in H1.
    repeat split; eapply same_shape_trans; eassumption.
  Qed.

  (** One RK4 stage: the temporary positions, then the sampled slope. *)
  Lemma rk4_step_ok mem b s h pos i' s' r :
    bufs_ok (RK4 b) -> rk4_integrate O interpolate mem b s h pos = (i', s', r) -> bufs_ok i'.
  Proof.
    intros Hb H. pose proof (rk4_bufs_shape mem b pos Hb) as Hs.
    unfold rk4_integrate in H. fold (rk4_bufs mem b pos) in H.
    destruct (rk4_bufs mem b pos) as [[[[bk1 bk2] bk3] bk4] btmp]. destruct Hs as (H1 & H2 & H3 & H4 & H5).
    destruct (sample s bk1 pos) as [s1 [k1|e]] eqn:E1.
    2:{ injection H as <- _ _. eapply bufs_shape_ok with (pos := pos). repeat split; assumption. }
    pose proof (same_shape_trans _ _ _ (sample_shape _ _ _ _ _ E1) H1) as K1.
    destruct (let* t0 := copyto btmp pos in madd O t0 (smul O (o_mul O (o_half O) h) k1)) as [t1|e] eqn:T1.
    2:{ injection H as <- _ _. eapply bufs_shape_ok with (pos := pos). repeat split; assumption. }
    assert (Tt : forall b0 x k t, same_shape b0 pos = true ->
      (let* t0 := copyto b0 pos in madd O t0 (smul O x k)) = Ok t -> same_shape t pos = true).
    { intros b0 x k t Hb0 Ht. rewrite (copyto_same _ _ Hb0) in Ht. cbn [bind] in Ht.
      eapply mat_map2_shape, Ht. }
    pose proof (Tt _ _ _ _ H5 T1) as HT1.
    destruct (sample s1 bk2 t1) as [s2 [k2|e]] eqn:E2.
    2:{ injection H as <- _ _. eapply bufs_shape_ok with (pos := pos). repeat split; assumption. }
    pose proof (same_shape_trans _ _ _ (sample_shape _ _ _ _ _ E2) H2) as K2.
    destruct (let* t0 := copyto t1 pos in madd O t0 (smul O (o_mul O (o_half O) h) k2)) as [t2|e] eqn:T2.
    2:{ injection H as <- _ _. eapply bufs_shape_ok with (pos := pos). repeat split; assumption. }
    pose proof (Tt _ _ _ _ HT1 T2) as HT2.
    destruct (sample s2 bk3 t2) as [s3 [k3|e]] eqn:E3.
    2:{ injection H as <- _ _. eapply bufs_shape_ok with (pos := pos). repeat split; assumption. }
    pose proof (same_shape_trans _ _ _ (sample_shape _ _ _ _ _ E3) H3) as K3.
    destruct (let* t0 := copyto t2 pos in madd O t0 (smul O h k3)) as [t3|e] eqn:T3.
    2:{ injection H as <- _ _. eapply bufs_shape_ok with (pos := pos). repeat split; assumption. }
    pose proof (Tt _ _ _ _ HT2 T3) as HT3.
    destruct (sample s3 bk4 t3) as [s4 [k4|e]] eqn:E4.
    2:{ injection H as <- _ _. eapply bufs_shape_ok with (pos := pos). repeat split; assumption. }
    pose proof (same_shape_trans _ _ _ (sample_shape _ _ _ _ _ E4) H4) as K4.
    injection H as <- _ _. eapply bufs_shape_ok with (pos := pos). repeat split; assumption.
  Qed.

  Lemma integrate_bufs_ok mem i s h pos i' s' r :
    bufs_ok i -> integrate_pos mem i s h pos = (i', s', r) -> bufs_ok i'.
  Proof.
    intros Hi H. destruct i as [b|p b|b]; cbn [Integrate.integrate_pos] in H.
    - unfold euler_integrate in H. destruct (sample _ _ _) as [s1 [v|e]]; injection H as <- _ _; exact I.
    - unfold ab2_integrate in H. destruct (sample _ _ _) as [s1 [v|e]]; [|injection H as <- _ _; exact I].
      destruct (match p with None => _ | Some _ => _ end); [|injection H as <- _ _; exact I].
      destruct (copyto _ _); injection H as <- _ _; exact I.
    - eapply rk4_step_ok; eassumption.
  Qed.

  Lemma create_bufs_ok name (i : integrator T) : create_integrator name = Ok i -> bufs_ok i.
  Proof.
    unfold create_integrator.
    destruct (String.eqb (lower name) "ab2"); [intro H; injection H as <-; exact I|].
    destruct (String.eqb (lower name) "euler"); [intro H; injection H as <-; exact I|].
    destruct (String.eqb (lower name) "rk4"); [intro H; injection H as <-; exact I|discriminate].
  Qed.

  Lemma reachable_bufs_ok i : reachable O interpolate i -> bufs_ok i.
  Proof.
    induction 1 as [name i H|i mem s h pos i' s' r _ IH H]; [eapply create_bufs_ok, H|].
    eapply integrate_bufs_ok; eassumption.
  Qed.

  (* ---- C19: buffers do not leak ---- *)
  Lemma sample_buf s b b' pos : same_shape b b' = true -> sample s b pos = sample s b' pos.
  Proof.
    intro H. unfold Integrate.sample. destruct (interpolate s pos) as [s1 r]. f_equal.
    destruct r as [m|e]; [|reflexivity]. cbn. apply copyto_shape, H.
  Qed.

  Lemma get_buffer_shape mem k b (pos : mat T) : same_shape (get_buffer mem k b pos) pos = true.
  Proof.
    unfold get_buffer. destruct b as [v|]; [destruct (same_shape v pos) eqn:E|]; try apply empty_like_shape.
    exact E.
  Qed.

  Lemma euler_noleak mem mem' b b' s h pos i1 s1 r1 i2 s2 r2 :
    integrate_pos mem (Euler b) s h pos = (i1, s1, r1) ->
    integrate_pos mem' (Euler b') s h pos = (i2, s2, r2) -> s1 = s2 /\ r1 = r2.
  Proof.
    cbn [Integrate.integrate_pos]. unfold euler_integrate.
    rewrite (sample_buf s (get_buffer mem 0 b pos) (get_buffer mem' 0 b' pos)).
    2:{ eapply same_shape_trans; [apply get_buffer_shape|]. rewrite same_shape_sym. apply get_buffer_shape. }
    destruct (sample _ _ _) as [s3 [v|e]]; intros H1 H2; injection H1 as _ <- <-; injection H2 as _ <- <-; auto.
  Qed.

  Lemma ab2_noleak mem mem' p b b' s h pos i1 s1 r1 i2 s2 r2 :
    integrate_pos mem (AB2 p b) s h pos = (i1, s1, r1) ->
    integrate_pos mem' (AB2 p b') s h pos = (i2, s2, r2) -> s1 = s2 /\ r1 = r2.
  Proof.
    cbn [Integrate.integrate_pos]. unfold ab2_integrate.
    rewrite (sample_buf s (get_buffer mem 0 b pos) (get_buffer mem' 0 b' pos)).
    2:{ eapply same_shape_trans; [apply get_buffer_shape|]. rewrite same_shape_sym. apply get_buffer_shape. }
    destruct (sample _ _ _) as [s3 [v|e]].
    2:{ intros H1 H2; injection H1 as _ <- <-; injection H2 as _ <- <-; auto. }
    destruct (match p with None => _ | Some _ => _ end) as [pos'|e].
    2:{ intros H1 H2; injection H1 as _ <- <-; injection H2 as _ <- <-; auto. }
    destruct p as [vp|].
    - destruct (copyto vp v); intros H1 H2; injection H1 as _ <- <-; injection H2 as _ <- <-; auto.
    - rewrite (copyto_same (empty_like (mem 1) v) v), (copyto_same (empty_like (mem' 1) v) v)
        by apply empty_like_shape.
      intros H1 H2; injection H1 as _ <- <-; injection H2 as _ <- <-; auto.
  Qed.

  Lemma rk4_noleak mem mem' b b' s h pos i1 s1 r1 i2 s2 r2 :
    bufs_ok (RK4 b) -> bufs_ok (RK4 b') ->
    integrate_pos mem (RK4 b) s h pos = (i1, s1, r1) ->
    integrate_pos mem' (RK4 b') s h pos = (i2, s2, r2) -> s1 = s2 /\ r1 = r2.
  Proof.
    intros Hb Hb'. cbn [Integrate.integrate_pos]. unfold rk4_integrate.
    fold (rk4_bufs mem b pos). fold (rk4_bufs mem' b' pos).
    pose proof (rk4_bufs_shape mem b pos Hb) as Hs. pose proof (rk4_bufs_shape mem' b' pos Hb') as Hs'.
    destruct (rk4_bufs mem b pos) as [[[[bk1 bk2] bk3] bk4] btmp]. destruct Hs as (H1 & H2 & H3 & H4 & H5).
    destruct (rk4_bufs mem' b' pos) as [[[[ck1 ck2] ck3] ck4] ctmp]. destruct Hs' as (G1 & G2 & G3 & G4 & G5).
    rewrite same_shape_sym in G1, G2, G3, G4.
    rewrite (sample_buf s bk1 ck1) by (eapply same_shape_trans; eassumption).
    assert (Fin : forall (ia ib : integrator T) (sx : S) (rx : res (mat T)),
      (ia, sx, rx) = (i1, s1, r1) -> (ib, sx, rx) = (i2, s2, r2) -> s1 = s2 /\ r1 = r2).
    { intros ia ib sx rx E1 E2. injection E1 as _ <- <-. injection E2 as _ <- <-. auto. }
    destruct (sample s ck1 pos) as [sa [k1|e]]; [|apply Fin].
    rewrite (copyto_same btmp pos H5), (copyto_same ctmp pos G5). cbn [bind].
    destruct (madd O pos (smul O (o_mul O (o_half O) h) k1)) as [t1|e] eqn:T1; [|apply Fin].
    pose proof (mat_map2_shape _ _ _ _ T1) as HT1.
    rewrite (sample_buf sa bk2 ck2) by (eapply same_shape_trans; eassumption).
    destruct (sample sa ck2 t1) as [sb [k2|e]]; [|apply Fin].
    destruct (let* t0 := copyto t1 pos in madd O t0 (smul O (o_mul O (o_half O) h) k2)) as [t2|e]; [|apply Fin].
    rewrite (sample_buf sb bk3 ck3) by (eapply same_shape_trans; eassumption).
    destruct (sample sb ck3 t2) as [sc [k3|e]]; [|apply Fin].
    destruct (let* t0 := copyto t2 pos in madd O t0 (smul O h k3)) as [t3|e]; [|apply Fin].
    rewrite (sample_buf sc bk4 ck4) by (eapply same_shape_trans; eassumption).
    destruct (sample sc ck4 t3) as [sd [k4|e]]; apply Fin.
  Qed.

  Lemma noleak mem mem' i j s h pos i1 s1 r1 i2 s2 r2 :
    reachable O interpolate i -> reachable O interpolate j -> same_memory i j ->
    integrate_pos mem i s h pos = (i1, s1, r1) ->
    integrate_pos mem' j s h pos = (i2, s2, r2) -> s1 = s2 /\ r1 = r2.
  Proof.
    intros Hi Hj Hm H1 H2. apply reachable_bufs_ok in Hi, Hj.
    destruct i as [b|p b|b], j as [b'|p' b'|b']; cbn in Hm; try contradiction.
    - eapply euler_noleak; eassumption.
    - subst p'. eapply ab2_noleak; eassumption.
    - exact (rk4_noleak _ _ _ _ _ _ _ _ _ _ _ _ _ Hi Hj H1 H2).
  Qed.

  (* ---- C20 ---- *)
  Lemma smul_shape {B} a (m : mat T) (x : mat B) : same_shape (smul O a m) x = same_shape m x.
  Proof. unfold smul, mat_map, same_shape, nrows. cbn. rewrite map_length. reflexivity. Qed.
  Lemma smul_shape_r {B} a (m : mat T) (x : mat B) : same_shape x (smul O a m) = same_shape x m.
  Proof. unfold smul, mat_map, same_shape, nrows. cbn. rewrite map_length. reflexivity. Qed.

  Lemma ab2_mismatch mem vp b s h pos i' s' r :
    same_shape vp pos = false -> integrate_pos mem (AB2 (Some vp) b) s h pos = (i', s', r) ->
    (exists e, r = Err e) /\ exists b', i' = AB2 (Some vp) b'.
  Proof.
    intros Hs. cbn [Integrate.integrate_pos]. unfold ab2_integrate.
    destruct (sample s (get_buffer mem 0 b pos) pos) as [s1 [v|e]] eqn:E.
    - assert (Hv : same_shape v vp = false).
      { destruct (same_shape v vp) eqn:E2; [|reflexivity].
        rewrite same_shape_sym in E2.
        assert (same_shape vp pos = true); [|congruence].
        eapply same_shape_trans; [exact E2|]. eapply same_shape_trans; [|apply (get_buffer_shape mem 0 b pos)].
        eapply sample_shape; exact E. }
      unfold ab2_step, msub. rewrite mat_map2_mismatch.
      2:{ rewrite smul_shape, smul_shape_r. exact Hv. }
      cbn [bind]. intro H. injection H as <- _ <-. split; eexists; reflexivity.
    - intro H. injection H as <- _ <-. split; eexists; reflexivity.
  Qed.

  (** What AB2 remembers has the shape of the positions of its last successful call. *)
  Lemma ab2_memory mem p b s h pos i' s' pos' :
    integrate_pos mem (AB2 p b) s h pos = (i', s', Ok pos') ->
    exists v b', i' = AB2 (Some v) b' /\ same_shape v pos = true /\ same_shape pos' pos = true.
  Proof.
    cbn [Integrate.integrate_pos]. unfold ab2_integrate.
    destruct (sample s (get_buffer mem 0 b pos) pos) as [s1 [v|e]] eqn:E; [|discriminate].
    assert (Hv : same_shape v pos = true).
    { eapply same_shape_trans; [eapply sample_shape; exact E|apply get_buffer_shape]. }
    destruct (match p with None => _ | Some _ => _ end) as [q|e] eqn:Eq; [|discriminate].
    assert (Hq : same_shape q pos = true).
    { destruct p as [vp|].
      - unfold ab2_step in Eq. destruct (msub O _ _); [|discriminate]. eapply mat_map2_shape; exact Eq.
      - eapply mat_map2_shape; exact Eq. }
    assert (Hd : same_shape (match p with None => empty_like (mem 1) v | Some vp => vp end) v = true).
    { destruct p as [vp|]; [|apply empty_like_shape].
      unfold ab2_step, msub in Eq. destruct (mat_map2 _ _ _) eqn:Em in Eq; [|discriminate].
      unfold mat_map2 in Em. destruct (same_shape (smul O (o_three_halves O) v) (smul O (o_half O) vp)) eqn:Es;
        [|discriminate]. rewrite smul_shape, smul_shape_r in Es. rewrite same_shape_sym. exact Es. }
    rewrite (copyto_same _ _ Hd). intro H. injection H as <- _ <-. eauto.
  Qed.

  (** Shape of the positions is preserved by every successful step. *)
  Lemma integrate_shape mem i s h pos i' s' pos' :
    integrate_pos mem i s h pos = (i', s', Ok pos') -> same_shape pos' pos = true.
  Proof.
    destruct i as [b|p b|b].
    - cbn [Integrate.integrate_pos]. unfold euler_integrate.
      destruct (sample _ _ _) as [s1 [v|e]]; [|discriminate]. intro H. injection H as _ _ H.
      eapply mat_map2_shape, H.
    - intro H. destruct (ab2_memory _ _ _ _ _ _ _ _ _ H) as (v & b' & _ & _ & Hp). exact Hp.
    - cbn [Integrate.integrate_pos]. unfold rk4_integrate. fold (rk4_bufs mem b pos).
      destruct (rk4_bufs mem b pos) as [[[[bk1 bk2] bk3] bk4] btmp].
      destruct (sample _ bk1 _) as [s1 [k1|e]]; [|discriminate].
      destruct (bind _ _) as [t1|e]; [|discriminate].
      destruct (sample _ bk2 _) as [s2 [k2|e]]; [|discriminate].
      destruct (bind _ _) as [t2|e]; [|discriminate].
      destruct (sample _ bk3 _) as [s3 [k3|e]]; [|discriminate].
      destruct (bind _ _) as [t3|e]; [|discriminate].
      destruct (sample _ bk4 _) as [s4 [k4|e]]; [|discriminate].
      intro H. injection H as _ _ H. unfold rk4_step in H.
      destruct (madd O k1 _); [|discriminate]. cbn [bind] in H.
      destruct (madd O _ (smul O _ k3)) in H; [|discriminate]. cbn [bind] in H.
      destruct (madd O _ k4) in H; [|discriminate]. cbn [bind] in H.
      eapply mat_map2_shape, H.
  Qed.

  Lemma integrate_seq_frozen mems k i s hist p i' s' p' r :
    integrate_seq O interpolate mems k i s hist p = (i', s', p', r) ->
    initial_delta_right_left p' = initial_delta_right_left p /\
    initial_delta_top_bottom p' = initial_delta_top_bottom p /\
    initial_delta_front_back p' = initial_delta_front_back p /\
    initial_centroid p' = initial_centroid p /\
    num_neighbors p' = num_neighbors p /\
    same_shape (positions p') (positions p) = true.
  Proof.
    revert k i s p. induction hist as [|[u h] hist IH]; intros k i s p H.
    - cbn in H. injection H as _ _ <- _. repeat split. apply same_shape_refl.
    - cbn in H. unfold integrate in H.
      destruct (integrate_pos (mems k) i (u s) h (positions p)) as [[i1 s1] [pos'|e]] eqn:E.
      + apply IH in H. cbn in H. destruct H as (H1 & H2 & H3 & H4 & H5 & H6).
        repeat split; try assumption. eapply same_shape_trans; [exact H6|]. eapply integrate_shape, E.
      + injection H as _ _ <- _. repeat split. apply same_shape_refl.
  Qed.
End Facts.
