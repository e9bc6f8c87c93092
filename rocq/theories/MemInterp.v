(** Interpolators whose answers do not depend on freshly allocated memory. *)
From Coq Require Import Lia.
From Verif Require Import Base Num NdArray Integrate GridInterp Interpolate SpecSeeds SpecInterp SpecIntegrate IntegrateMisc NdFacts HighPerfFacts HighPerfHist
  GridPlace ScipyFacts FileRunFacts.

Section Twin.
  Context {T : Type} (O : ops T) (scp : scipy T).

  Definition twin_high (a b : highperf T) : Prop :=
    match h_shape a with
    | [_; _] => sim2 a b
    | [_; _; _] => sim3 a b
    | _ => h_shape a = h_shape b /\ bare a /\ bare b
    end.
  (** Interpolators that differ at most in buffers; [d]: the columns of the queries. *)
  Definition twin (d : nat) (i j : interp scp) : Prop :=
    match i, j with
    | ICubic a, ICubic b => a = b /\ d = 2
    | ILinear a, ILinear b => a = b /\ d = 2
    | INearest a, INearest b => a = b /\ d = 2
    | IGrid a, IGrid b => a = b /\ (d = 2 \/ (d = 3 /\ length (g_shape a) = 3 /\ (g_x a <> None -> g_ndim a = Some 3)))
    | IHigh a, IHigh b => twin_high a b
    | IAnalytical a, IAnalytical b => False
    | _, _ => False
    end.

  Lemma sim2_sym (a b : highperf T) : sim2 a b -> sim2 b a.
  Proof.
    intros (H1 & H2 & H3 & [[H4 H5]|(vx & vy & ax & ay & H4 & H5)]);
      (split; [congruence|split; [assumption|split; [assumption|]]]); [left; auto|right; exists vx, vy, ax, ay; auto].
  Qed.
  Lemma sim3_sym (a b : highperf T) : sim3 a b -> sim3 b a.
  Proof.
    intros (H1 & H2 & H3 & [[H4 H5]|(vx & vy & vz & ax & ay & az & H4 & H5)]);
      (split; [congruence|split; [assumption|split; [assumption|]]]); [left; auto|right; exists vx, vy, vz, ax, ay, az; auto].
  Qed.

  (* ---- updates ---- *)
  Lemma sim2_result (a b : highperf T) v p nx ny : h_shape a = [nx; ny] -> sim2 a b ->
    snd (highperf_update O a v p) = snd (highperf_update O b v p).
  Proof.
    intros Hs (Es & _ & _ & Hc). unfold highperf_update. destruct p as [p|].
    - destruct (init2_eq O nx ny v p) as [r Hr]. rewrite !Hr by (cbn; congruence).
      destruct r as [[[[vx vy] ax] ay]|e]; reflexivity.
    - destruct Hc as [[[Bx _] [Bx' _]]|(vx & vy & ax & ay & H & H')].
      + rewrite Bx, Bx'. reflexivity.
      + destruct H as (Hz & _ & bx & by_ & _ & _ & Ex & Ey), H' as (Hz' & _ & bx' & by' & _ & _ & Ex' & Ey').
        rewrite Ex, Ey, Hz, Ex', Ey', Hz'. destruct (get (mrows v) 0); [|reflexivity]. destruct (get (mrows v) 1); reflexivity.
  Qed.
  Lemma sim3_result (a b : highperf T) v p nx ny nz : h_shape a = [nx; ny; nz] -> sim3 a b ->
    snd (highperf_update O a v p) = snd (highperf_update O b v p).
  Proof.
    intros Hs (Es & _ & _ & Hc). unfold highperf_update. destruct p as [p|].
    - destruct (init3_eq O nx ny nz v p) as [r Hr]. rewrite !Hr by (cbn; congruence).
      destruct r as [[[[[[vx vy] vz] ax] ay] az]|e]; reflexivity.
    - destruct Hc as [[[Bx _] [Bx' _]]|(vx & vy & vz & ax & ay & az & H & H')].
      + rewrite Bx, Bx'. reflexivity.
      + destruct H as (_ & bx & by_ & bz & _ & _ & _ & Ex & Ey & Ez), H' as (_ & bx' & by' & bz' & _ & _ & _ & Ex' & Ey' & Ez').
        rewrite Ex, Ey, Ez, Ex', Ey', Ez'. destruct (get (mrows v) 0); [|reflexivity]. destruct (get (mrows v) 1); [|reflexivity].
        destruct (get (mrows v) 2); reflexivity.
  Qed.

  Lemma other_init (o : highperf T) v p : h_velocities o = Some v -> h_points o = Some p ->
    (length (h_shape o) <> 2 /\ length (h_shape o) <> 3)%nat ->
    highperf_init O o = (o, let* _ := reshape_c (nd_of_mat p) (length (h_shape o) :: h_shape o) in Err ValueError).
  Proof.
    intros Hv Hp Hl. unfold highperf_init. rewrite Hv, Hp.
    destruct (reshape_c (nd_of_mat p) (length (h_shape o) :: h_shape o)) as [c|e]; [|reflexivity]. cbn [bind].
    destruct (h_shape o) as [|? [|? [|? [|]]]]; cbn in Hl; try lia; reflexivity.
  Qed.

  Lemma twin_high_update (a b : highperf T) v p : twin_high a b ->
    snd (highperf_update O a v p) = snd (highperf_update O b v p) /\
    (snd (highperf_update O a v p) = Ok tt -> twin_high (fst (highperf_update O a v p)) (fst (highperf_update O b v p))).
  Proof.
    unfold twin_high at 1. destruct (h_shape a) as [|n1 [|n2 [|n3 [|n4 l]]]] eqn:Hs; intros H.
    3:{ split; [eapply sim2_result; eassumption|]. intros _. destruct (sim2_update O a b v p n1 n2 Hs H) as [H1 H2].
        unfold twin_high. rewrite H2. exact H1. }
    3:{ split; [eapply sim3_result; eassumption|]. intros _. destruct (sim3_update O a b v p n1 n2 n3 Hs H) as [H1 H2].
        unfold twin_high. rewrite H2. exact H1. }
    all: destruct H as (Es & Ba & Bb); unfold highperf_update; destruct p as [p|];
      [rewrite !(other_init _ v p) by (cbn [h_shape h_velocities h_points]; rewrite <- ?Es, ?Hs; cbn; try reflexivity; lia);
       cbn [fst snd h_shape]; rewrite <- Es, Hs; split; [reflexivity|]; destruct (reshape_c _ _); discriminate
      |destruct Ba as (Ax & Ay & Az), Bb as (Bx & By & Bz); rewrite Ax, Bx; cbn [fst snd]; split; [reflexivity|];
       intros _; unfold twin_high; cbn [h_shape]; rewrite Hs; split; [cbn; congruence|]; split; (split; [|split]); cbn; congruence].
  Qed.

  (** A structured interpolator on a grid with three axes. *)
  Lemma grid3_update (g : gridinterp T) v p : length (g_shape g) = 3 -> (g_x g <> None -> g_ndim g = Some 3) ->
    snd (gridinterp_update O scp g v p) = Ok tt ->
    length (g_shape (fst (gridinterp_update O scp g v p))) = 3 /\
    (g_x (fst (gridinterp_update O scp g v p)) <> None -> g_ndim (fst (gridinterp_update O scp g v p)) = Some 3).
  Proof.
    intros L N. unfold gridinterp_update.
    assert (Init : forall o : gridinterp T, length (g_shape o) = 3 -> snd (gridinterp_init O scp o) = Ok tt ->
      length (g_shape (fst (gridinterp_init O scp o))) = 3 /\
      (g_x (fst (gridinterp_init O scp o)) <> None -> g_ndim (fst (gridinterp_init O scp o)) = Some 3)).
    { intros o Lo. unfold gridinterp_init. destruct (g_velocities o) as [v0|]; [|discriminate]. destruct (g_points o) as [p0|]; [|discriminate].
      destruct (negb (size (g_shape o) =? mcols p0)); [discriminate|].
      destruct (g_shape o) as [|n1 [|n2 [|n3 [|]]]]; cbn in Lo; try lia.
      destruct (nrows p0 =? 2) eqn:E2; [apply Nat.eqb_eq in E2; rewrite E2; discriminate|].
      destruct (nrows p0 =? 3) eqn:E3; [apply Nat.eqb_eq in E3; rewrite E3; cbn [orb negb]|discriminate].
      destruct (let* x := points_axis O p0 0 n1 in _) as [axes|e]; [|discriminate].
      destruct (mk_rgi scp (g_method o) axes v0 0 _) as [rx|e]; [|discriminate].
      destruct (mk_rgi scp (g_method o) axes v0 1 _) as [ry|e]; [|discriminate].
      destruct (mk_rgi scp (g_method o) axes v0 2 _) as [rz|e]; [|discriminate].
      cbn. auto. }
    destruct (g_x g) as [rx|] eqn:Ex; [|apply Init; exact L].
    destruct p as [p|]; [apply Init; exact L|].
    specialize (N ltac:(discriminate)). rewrite N. cbn [Nat.eqb].
    destruct (reshape_c _ _) as [field|e]; [|discriminate].
    destruct (set_values (Some rx) field 0) as [rx'|e]; [|discriminate].
    destruct (set_values (g_y g) field 1) as [ry'|e]; [|discriminate].
    destruct (set_values (g_z g) field 2) as [rz'|e]; [|discriminate]. cbn. intros _. split; [exact L|]. intros _. reflexivity.
  Qed.

  Lemma twin_update d i j v p : twin d i j ->
    snd (update O scp i v p) = snd (update O scp j v p) /\
    (snd (update O scp i v p) = Ok tt -> twin d (fst (update O scp i v p)) (fst (update O scp j v p))).
  Proof.
    destruct i as [a|a|a|a|a|a], j as [b|b|b|b|b|b]; cbn [twin]; try contradiction.
    1-3: intros [<- Hd]; split; [reflexivity|]; intros _; cbn [update]; destruct (base_update _ _ _ _ _); split; [reflexivity|exact Hd].
    - intros [<- Hd]. split; [reflexivity|]. cbn [update].
      destruct Hd as [Hd|(Hd & L & N)].
      + destruct (gridinterp_update O scp a v p). cbn. auto.
      + pose proof (grid3_update a v p L N) as K. destruct (gridinterp_update O scp a v p) as [a' r]. cbn [fst snd] in *.
        intros Hr. split; [reflexivity|]. right. auto.
    - intros H. destruct (twin_high_update a b v p H) as [H1 H2]. cbn [update].
      destruct (highperf_update O a v p), (highperf_update O b v p). exact (conj H1 H2).
  Qed.

  (* ---- queries ---- *)
  Lemma ensure_parts mem (o : highperf T) n dim : let o' := ensure_buffers mem o n dim in
    h_x o' = h_x o /\ h_y o' = h_y o /\ h_z o' = h_z o /\ h_shape o' = h_shape o.
  Proof. unfold ensure_buffers. destruct (h_u o) as [b|]; [destruct (length b =? n)|]; repeat split. Qed.

  Lemma call3_planar junk (c : interp3d T) pts out : idx3 (i3_buffer c) -> snd (call3d O junk c (arr2 pts) out) = Err IndexError.
  Proof.
    intros Hi. unfold call3d.
    set (buf := grid_buffer junk (i3_buffer c) (arr2 pts)).
    assert (Hb : 2 <= mcols buf /\ nrows buf = length pts).
    { unfold buf, grid_buffer. destruct (i3_buffer c) as [m|]; [destruct (nrows m =? nrows (arr2 pts)) eqn:En|].
      - apply Nat.eqb_eq in En. rewrite arr2_nrows in En. split; [|exact En]. destruct Hi as [bs ->]. cbn. lia.
      - cbn [mcols junk_mat arr2]. split; [lia|]. unfold nrows, junk_mat. cbn [mrows]. rewrite map_length, seq_length. apply arr2_nrows.
      - cbn [mcols junk_mat arr2]. split; [lia|]. unfold nrows, junk_mat. cbn [mrows]. rewrite map_length, seq_length. apply arr2_nrows. }
    destruct Hb as [Hc Hn].
    assert (S : forall (m : mat (option T)) j l, j < mcols m -> nrows m = length l ->
      exists m', set_col m j l = Ok m' /\ mcols m' = mcols m /\ nrows m' = nrows m).
    { intros m j l Hj Hl. unfold set_col. destruct (Nat.ltb_spec j (mcols m)); [|lia]. rewrite Hl, Nat.eqb_refl. cbn [negb].
      eexists. split; [reflexivity|]. split; [reflexivity|]. unfold nrows at 1. cbn [mrows]. rewrite zip_length2; [exact Hl|].
      symmetry. exact Hl. }
    unfold fill_col at 1. rewrite get_col2_0. cbn [bind].
    destruct (S buf 0 (map (to_grid O (i3_x c)) (map fst pts)) ltac:(lia) ltac:(rewrite !map_length; exact Hn)) as (m1 & -> & C1 & N1).
    cbn [bind]. unfold fill_col at 1. rewrite get_col2_1. cbn [bind].
    destruct (S m1 1 (map (to_grid O (i3_y c)) (map snd pts)) ltac:(lia) ltac:(rewrite !map_length; congruence)) as (m2 & -> & C2' & N2).
    cbn [bind]. unfold fill_col, get_col. cbn [mcols arr2 Nat.ltb Nat.leb bind]. reflexivity.
  Qed.

  Lemma twin_high_query (a b : highperf T) mem mem' q : wf_mat q -> twin_high a b ->
    snd (highperf_interpolate O mem a q) = snd (highperf_interpolate O mem' b q) /\
    (forall m, snd (highperf_interpolate O mem a q) = Ok m ->
     wf_mat m /\ twin_high (fst (highperf_interpolate O mem a q)) (fst (highperf_interpolate O mem' b q))).
  Proof.
    intros Hw. unfold twin_high at 1.
    assert (Pa := ensure_parts mem a (nrows q) (mcols q)). assert (Pb := ensure_parts mem' b (nrows q) (mcols q)).
    cbv zeta in Pa, Pb. destruct Pa as (Ax & Ay & Az & As), Pb as (Bx & By & Bz & Bs).
    assert (Bare : bare a -> bare b -> snd (highperf_interpolate O mem a q) = snd (highperf_interpolate O mem' b q) /\
      exists e, snd (highperf_interpolate O mem a q) = Err e).
    { intros (Cx & _ & _) (Dx & _ & _). unfold highperf_interpolate.
      destruct (mcols q) as [|[|[|[|]]]] eqn:Hm; try (split; [reflexivity|eexists; reflexivity]).
      - rewrite Ax, Bx, Cx, Dx. split; [reflexivity|eexists; reflexivity].
      - rewrite Ax, Bx, Cx, Dx. split; [reflexivity|eexists; reflexivity]. }
    assert (Fail : forall e, snd (highperf_interpolate O mem a q) = Err e -> snd (highperf_interpolate O mem' b q) = Err e ->
      snd (highperf_interpolate O mem a q) = snd (highperf_interpolate O mem' b q) /\
      (forall m, snd (highperf_interpolate O mem a q) = Ok m ->
       wf_mat m /\ twin_high (fst (highperf_interpolate O mem a q)) (fst (highperf_interpolate O mem' b q)))).
    { intros e -> ->. split; [reflexivity|discriminate]. }
    assert (Bares : bare a -> bare b -> snd (highperf_interpolate O mem a q) = snd (highperf_interpolate O mem' b q) /\
      (forall m, snd (highperf_interpolate O mem a q) = Ok m ->
       wf_mat m /\ twin_high (fst (highperf_interpolate O mem a q)) (fst (highperf_interpolate O mem' b q)))).
    { intros Ha Hb. destruct (Bare Ha Hb) as [K [e E]]. apply (Fail e); congruence. }
    destruct (h_shape a) as [|n1 [|n2 [|n3 [|n4 l]]]] eqn:Hs; intros H.
    1,2,5: destruct H as (_ & Ha & Hb); apply Bares; assumption.
    - destruct H as (Es & Ho & Ho' & Hc). pose proof Hc as Hc0.
      destruct Hc as [[Ha Hb]|(vx & vy & ax & ay & H & H')]; [apply Bares; assumption|].
      destruct (Nat.eq_dec (mcols q) 2) as [D|D].
      + destruct (wf_arr2 q Hw D) as [pts ->].
        assert (Sm : sim2 a b) by (split; [congruence|split; [exact Ho|split; [exact Ho'|exact Hc0]]]).
        destruct (sim2_query O a b mem mem' pts Sm) as (K1 & K2 & K3). split; [exact K1|].
        destruct (sim2_query O b _ mem' mem pts (sim2_sym _ _ K2)) as (_ & K4 & _).
        intros m Hm. split; [|unfold twin_high; rewrite K3, Hs; apply sim2_sym, K4].
        destruct (interpolate2_eq O mem a vx vy ax ay pts H) as (o1 & _ & E). rewrite E in Hm. cbn [snd] in Hm.
        destruct (eval2 O vx ax ay pts); [|discriminate]. cbn [bind] in Hm. destruct (eval2 O vy ax ay pts); [|discriminate].
        cbn [bind] in Hm. injection Hm as <-. apply arr2_wf.
      + destruct H as (Hz & _), H' as (Hz' & _).
        destruct (mcols q) as [|[|[|[|]]]] eqn:Hm; try lia.
        * apply (Fail ValueError); unfold highperf_interpolate; rewrite Hm; reflexivity.
        * apply (Fail ValueError); unfold highperf_interpolate; rewrite Hm; reflexivity.
        * apply (Fail AssertionError); unfold highperf_interpolate; rewrite Hm; cbv zeta iota; [rewrite Az, Hz|rewrite Bz, Hz'];
            match goal with |- snd match ?x with _ => _ end = _ => destruct x; [|reflexivity] end;
            match goal with |- snd match ?x with _ => _ end = _ => destruct x; reflexivity end.
        * apply (Fail ValueError); unfold highperf_interpolate; rewrite Hm; reflexivity.
    - destruct H as (Es & Ho & Ho' & Hc). pose proof Hc as Hc0.
      destruct Hc as [[Ha Hb]|(vx & vy & vz & ax & ay & az & H & H')]; [apply Bares; assumption|].
      destruct (Nat.eq_dec (mcols q) 3) as [D|D].
      + destruct (wf_arr3 q Hw D) as [pts ->].
        assert (Sm : sim3 a b) by (split; [congruence|split; [exact Ho|split; [exact Ho'|exact Hc0]]]).
        destruct (sim3_query O a b mem mem' pts Sm) as (K1 & K2 & K3). split; [exact K1|].
        destruct (sim3_query O b _ mem' mem pts (sim3_sym _ _ K2)) as (_ & K4 & _).
        intros m Hm. split; [|unfold twin_high; rewrite K3, Hs; apply sim3_sym, K4].
        destruct (interpolate3_eq O mem a vx vy vz ax ay az pts H) as (o1 & _ & E). rewrite E in Hm. cbn [snd] in Hm.
        destruct (eval3 O vx ax ay az pts); [|discriminate]. cbn [bind] in Hm. destruct (eval3 O vy ax ay az pts); [|discriminate].
        cbn [bind] in Hm. destruct (eval3 O vz ax ay az pts); [|discriminate]. cbn [bind] in Hm.
        injection Hm as <-. apply arr3_wf.
      + destruct H as (_ & bx & by_ & bz & Ix & Iy & Iz & Ex & Ey & Ez), H' as (_ & bx' & by' & bz' & Ix' & Iy' & Iz' & Ex' & Ey' & Ez').
        destruct (mcols q) as [|[|[|[|]]]] eqn:Hm; try lia.
        * apply (Fail ValueError); unfold highperf_interpolate; rewrite Hm; reflexivity.
        * apply (Fail ValueError); unfold highperf_interpolate; rewrite Hm; reflexivity.
        * destruct (wf_arr2 q Hw Hm) as [pts ->].
          assert (G : forall mm (o : highperf T) c c2, h_x (ensure_buffers mm o (nrows (arr2 pts)) 2) = Some (C3 c) ->
            h_y (ensure_buffers mm o (nrows (arr2 pts)) 2) = Some c2 -> idx3 (i3_buffer c) ->
            snd (highperf_interpolate O mm o (arr2 pts)) = Err IndexError).
          { intros mm o c c2 Hx Hy Hi. unfold highperf_interpolate. change (mcols (arr2 pts)) with 2. cbv zeta iota. rewrite Hx, Hy.
            unfold run_x, call_component.
            destruct (h_u (ensure_buffers mm o (nrows (arr2 pts)) 2)) as [bu|].
            - pose proof (call3_planar (index_junk mm 4) c pts bu Hi) as K.
              destruct (call3d O (index_junk mm 4) c (arr2 pts) bu) as [c' r]. cbn in K. rewrite K. reflexivity.
            - pose proof (call3_planar (index_junk mm 4) c pts [] Hi) as K.
              destruct (call3d O (index_junk mm 4) c (arr2 pts) []) as [c' r]. cbn in K. rewrite K. reflexivity. }
          apply (Fail IndexError).
          -- eapply G; [rewrite Ax; exact Ex|rewrite Ay; exact Ey|exact Ix].
          -- eapply G; [rewrite Bx; exact Ex'|rewrite By; exact Ey'|exact Ix'].
        * apply (Fail ValueError); unfold highperf_interpolate; rewrite Hm; reflexivity.
  Qed.

  (** Arrays that agree in the columns [ks]. *)
  Definition eqcols {A} (ks : list nat) (a b : mat A) : Prop :=
    mcols a = mcols b /\ Forall2 (fun r s => length r = mcols a /\ length s = mcols a /\
      forall k, In k ks -> nth_error r k = nth_error s k) (mrows a) (mrows b).

  Lemma eqcols_nrows {A} ks (a b : mat A) : eqcols ks a b -> nrows a = nrows b.
  Proof. intros [_ H]. unfold nrows. induction H; cbn; congruence. Qed.

  Lemma junk_eqcols {A} (j1 j2 : nat -> nat -> A) (q : mat A) : eqcols [] (empty_like j1 q) (empty_like j2 q).
  Proof.
    split; [reflexivity|]. unfold empty_like, junk_mat. cbn [mrows mcols].
    induction (seq 0 (nrows q)) as [|i l IH]; cbn [map]; constructor; [|exact IH].
    rewrite !map_length, seq_length. repeat split. intros k [].
  Qed.

  Lemma set_nth_len {A} j (v : A) r : length (set_nth j v r) = length r.
  Proof. revert j; induction r as [|x r IH]; intros [|j]; cbn; congruence. Qed.
  Lemma set_nth_eq {A} j (v : A) r s : length r = length s -> nth_error (set_nth j v r) j = nth_error (set_nth j v s) j.
  Proof. revert j s; induction r as [|x r IH]; intros j [|y s] H; try discriminate; destruct j; cbn; auto. Qed.
  Lemma set_nth_other {A} j k (v : A) r : j <> k -> nth_error (set_nth j v r) k = nth_error r k.
  Proof. revert j k; induction r as [|x r IH]; intros [|j] [|k] H; cbn; try congruence. apply IH. congruence. Qed.

  Lemma set_eqcols {A} ks (a b : mat A) j l : eqcols ks a b ->
    (exists e, set_col a j l = Err e /\ set_col b j l = Err e) \/
    exists a' b', set_col a j l = Ok a' /\ set_col b j l = Ok b' /\ eqcols (j :: ks) a' b' /\ mcols a' = mcols a.
  Proof.
    intros H. pose proof (eqcols_nrows ks a b H) as Hn. destruct H as [Hc H]. unfold set_col. rewrite <- Hc, <- Hn.
    destruct (negb (j <? mcols a)); [left; eexists; split; reflexivity|].
    destruct (negb (nrows a =? length l)) eqn:El; [left; eexists; split; reflexivity|]. right.
    eexists _, _. split; [reflexivity|]. split; [reflexivity|]. split; [|reflexivity]. split; [reflexivity|].
    cbn [mrows mcols]. clear Hn El. revert l. induction H as [|r s x y (L1 & L2 & K) H IH]; intros [|v l]; cbn; constructor; [|apply IH].
    rewrite !set_nth_len. split; [exact L1|]. split; [exact L2|]. intros k [<-|Hk].
    - apply set_nth_eq. congruence.
    - destruct (Nat.eq_dec j k) as [<-|N]; [apply set_nth_eq; congruence|]. rewrite !set_nth_other by exact N. auto.
  Qed.

  Lemma full_eqcols {A} ks (a b : mat A) : eqcols ks a b -> (forall k, k < mcols a -> In k ks) -> a = b /\ wf_mat a.
  Proof.
    intros [Hc H] Hk. destruct a as [c ra], b as [c' rb]. cbn in *. subst c'. split.
    - f_equal. induction H as [|r s x y (L1 & L2 & K) H IH]; [reflexivity|]. f_equal; [|exact IH].
      assert (G : forall k, nth_error r k = nth_error s k).
      { intros k. destruct (Nat.lt_ge_cases k c) as [L|L]; [apply K, Hk, L|].
        rewrite (proj2 (nth_error_None r k)) by lia. symmetry. apply nth_error_None. lia. }
      clear - G. revert s G. induction r as [|u r IH]; intros [|w s] G; [reflexivity|discriminate (G 0)|discriminate (G 0)|].
      pose proof (G 0) as G0. cbn in G0. injection G0 as ->. f_equal. apply IH. intros k. exact (G (S k)).
    - unfold wf_mat. cbn. induction H as [|r s x y (L1 & _ & _) H IH]; constructor; assumption.
  Qed.

  Lemma set_two j1 j2 (q : mat T) z : mcols q = 2 ->
    set_complex (empty_like j1 q) z = set_complex (empty_like j2 q) z /\
    forall m, set_complex (empty_like j1 q) z = Ok m -> wf_mat m /\ eqcols [1; 0] m m /\ mcols m = 2.
  Proof.
    intros Hq. unfold set_complex.
    destruct (set_eqcols [] _ _ 0 (map fst z) (junk_eqcols j1 j2 q)) as [(e & -> & ->)|(a & b & -> & -> & H1 & C1)];
      [split; [reflexivity|discriminate]|]. cbn [bind].
    destruct (set_eqcols _ _ _ 1 (map snd z) H1) as [(e & -> & ->)|(a' & b' & -> & -> & H2 & C2')];
      [split; [reflexivity|discriminate]|].
    assert (C : mcols a' = 2) by (rewrite C2', C1; exact Hq).
    destruct (full_eqcols _ _ _ H2) as [<- W]; [rewrite C; intros k Hk; destruct k as [|[|]]; cbn; auto; lia|].
    split; [reflexivity|]. intros m [= <-]. auto.
  Qed.

  Lemma twin_query d i j mem mem' q : twin d i j -> wf_mat q -> mcols q = d ->
    snd (interpolate O scp mem i q) = snd (interpolate O scp mem' j q) /\
    forall m, snd (interpolate O scp mem i q) = Ok m ->
      wf_mat m /\ twin d (fst (interpolate O scp mem i q)) (fst (interpolate O scp mem' j q)).
  Proof.
    intros H Hw Hd. destruct i as [a|a|a|a|a|a], j as [b|b|b|b|b|b]; cbn [twin] in H; try contradiction.
    - destruct H as [<- H]. cbn [interpolate fst snd]. unfold cubic_interpolate.
      destruct (u_interp a) as [[t c]|]; [|split; [reflexivity|discriminate]].
      destruct (ct_eval scp t c q) as [z|e]; [|split; [reflexivity|discriminate]]. cbn [bind].
      destruct (set_two (mem 0) (mem' 0) q z ltac:(congruence)) as [-> K]. split; [reflexivity|].
      intros m Hm. destruct (set_two (mem' 0) (mem' 0) q z ltac:(congruence)) as [_ K']. split; [apply K', Hm|]. cbn. auto.
    - destruct H as [<- H]. cbn [interpolate fst snd]. unfold linear_interpolate.
      destruct (u_interp a) as [[t c]|]; [|split; [reflexivity|discriminate]].
      destruct (lin_c scp t c q) as [z|e]; [|split; [reflexivity|discriminate]]. cbn [bind].
      destruct (set_two (mem 0) (mem' 0) q z ltac:(congruence)) as [-> _]. split; [reflexivity|].
      intros m Hm. destruct (set_two (mem' 0) (mem' 0) q z ltac:(congruence)) as [_ K'].
      destruct (set_complex (empty_like (mem' 0) q) z) as [o|e]; [|discriminate]. cbn [bind] in Hm.
      destruct (K' o eq_refl) as (W & _ & C). split; [|cbn; auto].
      destruct (nrows q =? 3); [|injection Hm as <-; exact W].
      destruct (u_interp_z a) as [[tz w]|]; [|discriminate]. destruct (lin_r scp tz w q); [|discriminate]. cbn [bind] in Hm.
      unfold set_col in Hm. rewrite C in Hm. discriminate.
    - destruct H as [<- H]. cbn [interpolate fst snd]. unfold nearest_interpolate.
      destruct (u_interp a) as [[t c]|]; [|split; [reflexivity|discriminate]].
      destruct (near_c scp t c q) as [z|e]; [|split; [reflexivity|discriminate]]. cbn [bind].
      destruct (set_two (mem 0) (mem' 0) q z ltac:(congruence)) as [-> _]. split; [reflexivity|].
      intros m Hm. destruct (set_two (mem' 0) (mem' 0) q z ltac:(congruence)) as [_ K'].
      destruct (set_complex (empty_like (mem' 0) q) z) as [o|e]; [|discriminate]. cbn [bind] in Hm.
      destruct (K' o eq_refl) as (W & _ & C). split; [|cbn; auto].
      destruct (nrows q =? 3); [|injection Hm as <-; exact W].
      destruct (u_interp_z a) as [[tz w]|]; [|discriminate]. destruct (near_r scp tz w q); [|discriminate]. cbn [bind] in Hm.
      unfold set_col in Hm. rewrite C in Hm. discriminate.
    - destruct H as [<- H]. cbn [interpolate fst snd].
      enough (G : gridinterp_interpolate scp (mem 0) a q = gridinterp_interpolate scp (mem' 0) a q /\
                  forall m, gridinterp_interpolate scp (mem 0) a q = Ok m -> wf_mat m).
      { destruct G as [G1 G2]. split; [exact G1|]. intros m Hm. split; [exact (G2 m Hm)|]. cbn. auto. }
      unfold gridinterp_interpolate.
      destruct (g_x a) as [rx|]; [|split; [reflexivity|discriminate]].
      destruct (g_ndim a) as [nd_|]; [|split; [reflexivity|discriminate]].
      destruct (rgi_call scp (g_method a) (Some rx) q) as [xs|e]; [|split; [reflexivity|discriminate]]. cbn [bind].
      destruct (set_eqcols [] _ _ 0 xs (junk_eqcols (mem 0) (mem' 0) q)) as [(e & -> & ->)|(m1 & n1 & -> & -> & H1 & C1)];
        [split; [reflexivity|discriminate]|]. cbn [bind].
      destruct (rgi_call scp (g_method a) (g_y a) q) as [ys|e]; [|split; [reflexivity|discriminate]]. cbn [bind].
      destruct (set_eqcols _ _ _ 1 ys H1) as [(e & -> & ->)|(m2 & n2 & -> & -> & H2 & C2')];
        [split; [reflexivity|discriminate]|]. cbn [bind].
      change (mcols (empty_like (mem 0) q)) with (mcols q) in C1.
      destruct H as [H|(H & _ & N)].
      + assert (C : mcols m2 = 2) by congruence.
        destruct (full_eqcols _ _ _ H2) as [<- W]; [rewrite C; intros k Hk; destruct k as [|[|]]; cbn; auto; lia|].
        destruct (nd_ =? 3); [|split; [reflexivity|intros m [= <-]; exact W]].
        destruct (rgi_call scp (g_method a) (g_z a) q) as [zs|e]; [|split; [reflexivity|discriminate]]. cbn [bind].
        unfold set_col. rewrite C. split; [reflexivity|discriminate].
      + specialize (N ltac:(discriminate)). injection N as ->. cbn [Nat.eqb].
        destruct (rgi_call scp (g_method a) (g_z a) q) as [zs|e]; [|split; [reflexivity|discriminate]]. cbn [bind].
        destruct (set_eqcols _ _ _ 2 zs H2) as [(e & -> & ->)|(m3 & n3 & -> & -> & H3 & C3')];
          [split; [reflexivity|discriminate]|].
        assert (C : mcols m3 = 3) by congruence.
        destruct (full_eqcols _ _ _ H3) as [<- W]; [rewrite C; intros k Hk; destruct k as [|[|[|]]]; cbn; auto; lia|].
        split; [reflexivity|]. intros m [= <-]. exact W.
    - destruct (twin_high_query a b mem mem' q Hw H) as [H1 H2]. cbn [interpolate].
      destruct (highperf_interpolate O mem a q), (highperf_interpolate O mem' b q). exact (conj H1 H2).
  Qed.

  (** Created interpolators. *)
  Lemma twin_new d name gs fn i : create_interpolator O scp name gs fn = Ok i ->
    (d = 2 \/ (d = 3 /\ exists nx ny nz, gs = Some [nx; ny; nz]) \/ case_variant name "grid") ->
    (forall f, i <> IAnalytical f) -> twin d i i.
  Proof.
    intros C Hd Na. unfold create_interpolator in C.
    destruct (negb _); [discriminate|]. destruct (String.eqb (lower name) "analytical"); [destruct fn; [|discriminate]; injection C as <-; exfalso; eapply Na; reflexivity|].
    destruct gs as [gs|].
    - destruct (String.eqb (lower name) "grid") eqn:G.
      + injection C as <-. cbn. unfold twin_high. cbn [h_shape highperf_new].
        destruct gs as [|? [|? [|? [|]]]]; try (repeat split; fail); [apply sim2_new|apply sim3_new].
      + unfold gridinterp_new in C. destruct (existsb _ _); [|discriminate]. cbn [bind] in C. injection C as <-. cbn.
        split; [reflexivity|]. destruct Hd as [Hd|[(Hd & nx & ny & nz & Hg)|Hd]]; [left; exact Hd| |].
        * right. injection Hg as ->. split; [exact Hd|]. split; [reflexivity|]. congruence.
        * exfalso. apply (lower_spec name _ no_upper_grid) in Hd. rewrite Hd in G. discriminate.
    - assert (H2 : d = 2 \/ String.eqb (lower name) "grid" = true).
      { destruct Hd as [Hd|[(_ & nx & ny & nz & Hg)|Hd]]; [auto|discriminate|]. right. apply (lower_spec name _ no_upper_grid) in Hd. rewrite Hd. reflexivity. }
      destruct (String.eqb (lower name) "cubic") eqn:E1.
      { injection C as <-. cbn. split; [reflexivity|]. destruct H2 as [H2|H2]; [exact H2|]. apply String.eqb_eq in E1, H2. congruence. }
      destruct (String.eqb (lower name) "linear") eqn:E2.
      { injection C as <-. cbn. split; [reflexivity|]. destruct H2 as [H2|H2]; [exact H2|]. apply String.eqb_eq in E2, H2. congruence. }
      destruct (String.eqb (lower name) "nearest") eqn:E3; [|discriminate].
      injection C as <-. cbn. split; [reflexivity|]. destruct H2 as [H2|H2]; [exact H2|]. apply String.eqb_eq in E3, H2. congruence.
  Qed.
End Twin.
