(** HighPerfInterpolator on uniform grids, over the reals. *)
From Coq Require Import Reals Lra Lia.
From Verif Require Import Base Num NdArray Integrate GridInterp Interpolate SpecSeeds SpecGrid SpecKernel
  NdFacts GridInterpFacts HighPerfFacts.

Lemma get_seq {A} (f : nat -> A) n k : k < n -> get (map f (seq 0 n)) k = Ok (f k).
Proof.
  intros H. unfold get. rewrite nth_error_map.
  rewrite (nth_error_nth' (seq 0 n) 0) by (rewrite seq_length; exact H). rewrite seq_nth by exact H. reflexivity.
Qed.

Lemma nth_seq {A} (f : nat -> A) n k : k < n -> nth_error (map f (seq 0 n)) k = Some (f k).
Proof. intros H. pose proof (get_seq f n k H) as E. unfold get in E. destruct (nth_error _ _); congruence. Qed.

Lemma samples2_wf {A} n (u v : nat -> A) : wf_mat (samples2 n u v).
Proof. repeat constructor; cbn; rewrite map_length; apply seq_length. Qed.
Lemma samples3_wf {A} n (u v w : nat -> A) : wf_mat (samples3 n u v w).
Proof. repeat constructor; cbn; rewrite map_length; apply seq_length. Qed.

Section Init.
  Context {T : Type} (O : ops T).

  Lemma min_ok (l : list T) : l <> [] -> exists m, np_min O l = Ok m.
  Proof. destruct l; [congruence|]. intros _. eexists. reflexivity. Qed.
  Lemma max_ok (l : list T) : l <> [] -> exists m, np_max O l = Ok m.
  Proof. destruct l; [congruence|]. intros _. eexists. reflexivity. Qed.

  Lemma linspace_length a b n : length (linspace O a b n) = n.
  Proof.
    destruct n as [|[|n]]; try reflexivity. unfold linspace. rewrite app_length, map_length, seq_length. cbn. lia.
  Qed.

  Lemma axis_ok a b n : 1 <= n -> exists ax, mk_axis O (linspace O a b n) = Ok ax.
  Proof.
    intros H. unfold mk_axis. rewrite linspace_length.
    assert (G : forall k, k < n -> exists v, get (linspace O a b n) k = Ok v).
    { intros k Hk. unfold get. destruct (nth_error _ k) eqn:E; [eauto|].
      apply nth_error_None in E. rewrite linspace_length in E. lia. }
    destruct (G 0 ltac:(lia)) as [v ->]. destruct (G (n - 1) ltac:(lia)) as [w ->]. cbn. eauto.
  Qed.

  (** Data of the coordinate array along one axis. *)
  Lemma coord_row c n rows k r :
    Forall (fun r : list T => length r = n) rows -> nth_error rows k = Some r ->
    length rows = c -> firstn n (skipn (k * n) (concat rows)) = r.
  Proof.
    intros H. revert c k. induction H as [|x rows Hx H IH]; intros c [|k] Hk Hc; cbn in *; try discriminate.
    - injection Hk as ->. rewrite <- Hx, firstn_app, firstn_all, Nat.sub_diag. cbn. apply app_nil_r.
    - rewrite skipn_app. rewrite skipn_all2 by lia.
      replace (n + k * n - length x) with (k * n) by lia. cbn [app].
      apply (IH (c - 1)); [exact Hk|lia].
  Qed.

  Lemma coordinate_axis_eq d gs rows n a r m mn mx :
    d = length gs -> length rows = length gs -> Forall (fun r : list T => length r = n) rows -> size gs = n ->
    nth_error rows a = Some r -> nth_error gs a = Some m ->
    np_min O r = Ok mn -> np_max O r = Ok mx ->
    coordinate_axis O (Nd (d :: gs) (concat rows)) gs a = Ok (linspace O mn mx m).
  Proof.
    intros -> Hl Hf Hn Hr Hm Hmin Hmax. unfold coordinate_axis, subarray. cbn [shape data].
    assert (Ha : a < length gs) by (apply nth_error_Some; congruence).
    rewrite (proj2 (Nat.ltb_lt _ _) Ha). cbn [bind data]. rewrite Hn.
    rewrite (coord_row _ _ _ _ _ Hf Hr eq_refl). unfold get. rewrite Hm. cbn [bind].
    unfold grid_axis. rewrite Hmin, Hmax. reflexivity.
  Qed.

  (** update(velocities, points) on a 2-D grid succeeds and stores the field. *)
  Lemma update2_holds (o : highperf T) nx ny u w px py x0 x1 y0 y1 :
    h_shape o = [nx; ny] -> outs_ok 2 o -> 1 <= nx -> 1 <= ny ->
    np_min O px = Ok x0 -> np_max O px = Ok x1 -> np_min O py = Ok y0 -> np_max O py = Ok y1 ->
    length u = nx * ny -> length w = nx * ny -> length px = nx * ny -> length py = nx * ny ->
    exists o' vx vy ax ay,
      highperf_update O o (Mat (nx * ny) [u; w]) (Some (Mat (nx * ny) [px; py])) = (o', Ok tt) /\
      h_shape o' = [nx; ny] /\ holds2 o' vx vy ax ay /\
      mk_axis O (linspace O x0 x1 nx) = Ok ax /\ mk_axis O (linspace O y0 y1 ny) = Ok ay /\
      wf_nd vx /\ wf_nd vy /\ shape vx = [nx; ny] /\ shape vy = [nx; ny] /\
      forall i j, i < nx -> j < ny ->
        nd_get vx [i; j] = get u (sample2 nx i j) /\ nd_get vy [i; j] = get w (sample2 nx i j).
  Proof.
    intros Hs Ho Hnx Hny Mx0 Mx1 My0 My1 Lu Lw Lpx Lpy. unfold highperf_update, highperf_init. cbn [h_velocities h_points h_shape].
    rewrite Hs. cbn [length].
    set (V := Mat (nx * ny) [u; w]). set (P := Mat (nx * ny) [px; py]).
    assert (WV : wf_mat V) by (repeat constructor; assumption).
    assert (WP : wf_mat P) by (repeat constructor; assumption).
    destruct (reshape_c_ok (nd_of_mat P) [2; nx; ny] (nd_of_mat_wf _ WP)) as [E1 _]; [cbn; lia|].
    rewrite E1. clear E1. cbn [bind].
    destruct (reshape_f_ok (nd_of_mat V) [2; nx; ny] (nd_of_mat_wf _ WV)) as [vel [E2 [Sv [Wv Gv]]]]; [cbn; lia|].
    rewrite E2. clear E2. cbn [bind].
    unfold nd_of_mat at 1 2. cbn [data P mrows].
    rewrite (coordinate_axis_eq 2 [nx; ny] [px; py] (nx * ny) 0 px nx x0 x1); try reflexivity; try assumption;
      [|cbn; lia].
    rewrite (coordinate_axis_eq 2 [nx; ny] [px; py] (nx * ny) 1 py ny y0 y1); try reflexivity; try assumption;
      [|cbn; lia].
    cbn [bind].
    destruct (subarray_ok vel 2 [nx; ny] 0 Wv Sv ltac:(lia)) as [vx [E3 [Sx [Wx Gx]]]].
    destruct (subarray_ok vel 2 [nx; ny] 1 Wv Sv ltac:(lia)) as [vy [E4 [Sy [Wy Gy]]]].
    rewrite E3. cbn [bind].
    destruct (axis_ok x0 x1 nx Hnx) as [ax Ax]. destruct (axis_ok y0 y1 ny Hny) as [ay Ay].
    unfold mk_interp2d. rewrite Ax, Ay. cbn [bind]. rewrite E4. cbn [bind].
    eexists _, vx, vy, ax, ay. split; [reflexivity|]. cbn [h_shape]. split; [reflexivity|]. split.
    { split; [reflexivity|]. split; [exact Ho|]. exists None, None. repeat split. }
    repeat (split; [reflexivity || assumption|]).
    intros i j Hi Hj. assert (B : in_bounds [nx; ny] [i; j] = true).
    { cbn [in_bounds]. rewrite (proj2 (Nat.ltb_lt _ _) Hi), (proj2 (Nat.ltb_lt _ _) Hj). reflexivity. }
    assert (Q : sample2 nx i j < nx * ny) by (unfold sample2; nia).
    assert (F : forall c, c < 2 ->
      f_unravel [2; nx * ny] (f_ravel [2; nx; ny] [c; i; j]) = [c; sample2 nx i j]).
    { intros c Hc. replace (f_ravel [2; nx; ny] [c; i; j]) with (f_ravel [2; nx * ny] [c; sample2 nx i j])
        by (cbn [f_ravel]; unfold sample2; lia).
      apply f_unravel_ravel. cbn [in_bounds]. rewrite (proj2 (Nat.ltb_lt _ _) Hc), (proj2 (Nat.ltb_lt _ _) Q).
      reflexivity. }
    assert (N : forall (r : list T), length r = nx * ny -> exists a, nth_error r (sample2 nx i j) = Some a).
    { intros r Hr. destruct (nth_error r (sample2 nx i j)) eqn:E; [eauto|]. apply nth_error_None in E. lia. }
    rewrite (Gx _ B), (Gy _ B).
    rewrite !Gv by (cbn [in_bounds] in *; rewrite B; reflexivity).
    change (shape (nd_of_mat V)) with [2; nx * ny]. rewrite !F by lia.
    destruct (N u Lu) as [a Ea]. destruct (N w Lw) as [b Eb].
    rewrite (nd_of_mat_get V 0 _ u a WV eq_refl Ea), (nd_of_mat_get V 1 _ w b WV eq_refl Eb).
    unfold get. rewrite Ea, Eb. split; reflexivity.
  Qed.

  (** update(velocities, points) on a 3-D grid.  The stored array has shape (ny, nx, nz). *)
  Lemma update3_holds (o : highperf T) nx ny nz u w t px py pz x0 x1 y0 y1 z0 z1 :
    h_shape o = [nx; ny; nz] -> outs_ok 3 o -> 1 <= nx -> 1 <= ny -> 1 <= nz ->
    np_min O px = Ok x0 -> np_max O px = Ok x1 -> np_min O py = Ok y0 -> np_max O py = Ok y1 ->
    np_min O pz = Ok z0 -> np_max O pz = Ok z1 ->
    let n := nx * ny * nz in
    length u = n -> length w = n -> length t = n -> length px = n -> length py = n -> length pz = n ->
    exists o' vx vy vz ax ay az,
      highperf_update O o (Mat n [u; w; t]) (Some (Mat n [px; py; pz])) = (o', Ok tt) /\
      h_shape o' = [nx; ny; nz] /\
      (h_u o' = h_u o /\ h_x o' = Some (C3 (Interp3D vx ax ay az None))) /\ holds3 o' vx vy vz ax ay az /\
      mk_axis O (linspace O x0 x1 nx) = Ok ax /\ mk_axis O (linspace O y0 y1 ny) = Ok ay /\
      mk_axis O (linspace O z0 z1 nz) = Ok az /\
      wf_nd vx /\ wf_nd vy /\ wf_nd vz /\
      shape vx = [ny; nx; nz] /\ shape vy = [ny; nx; nz] /\ shape vz = [ny; nx; nz] /\
      forall i j k, i < ny -> j < nx -> k < nz ->
        nd_get vx [i; j; k] = get u ((j * ny + i) * nz + k) /\
        nd_get vy [i; j; k] = get w ((j * ny + i) * nz + k) /\
        nd_get vz [i; j; k] = get t ((j * ny + i) * nz + k).
  Proof.
    intros Hs Ho Hnx Hny Hnz Mx0 Mx1 My0 My1 Mz0 Mz1 n Lu Lw Lt Lpx Lpy Lpz.
    unfold highperf_update, highperf_init. cbn [h_velocities h_points h_shape].
    rewrite Hs. cbn [length].
    set (V := Mat n [u; w; t]). set (P := Mat n [px; py; pz]).
    assert (WV : wf_mat V) by (repeat constructor; assumption).
    assert (WP : wf_mat P) by (repeat constructor; assumption).
    destruct (reshape_c_ok (nd_of_mat P) [3; nx; ny; nz] (nd_of_mat_wf _ WP)) as [E1 _]; [cbn; unfold n; lia|].
    rewrite E1. clear E1. cbn [bind].
    destruct (reshape_c_ok (nd_of_mat V) [3; nx; ny; nz] (nd_of_mat_wf _ WV)) as [E2 W0]; [cbn; unfold n; lia|].
    rewrite E2. clear E2. cbn [bind].
    set (vel0 := Nd [3; nx; ny; nz] (data (nd_of_mat V))) in *.
    destruct (transpose_0213_ok vel0 3 nx ny nz W0 eq_refl) as [vel [E2 [Sv [Wv Gv]]]]. rewrite E2. clear E2.
    cbn [bind].
    unfold nd_of_mat. cbn [data P mrows].
    rewrite (coordinate_axis_eq 3 [nx; ny; nz] [px; py; pz] n 0 px nx x0 x1); try reflexivity; try assumption;
      [|cbn; unfold n; lia].
    rewrite (coordinate_axis_eq 3 [nx; ny; nz] [px; py; pz] n 1 py ny y0 y1); try reflexivity; try assumption;
      [|cbn; unfold n; lia].
    rewrite (coordinate_axis_eq 3 [nx; ny; nz] [px; py; pz] n 2 pz nz z0 z1); try reflexivity; try assumption;
      [|cbn; unfold n; lia].
    cbn [bind].
    destruct (subarray_ok vel 3 [ny; nx; nz] 0 Wv Sv ltac:(lia)) as [vx [E3 [Sx [Wx Gx]]]].
    destruct (subarray_ok vel 3 [ny; nx; nz] 1 Wv Sv ltac:(lia)) as [vy [E4 [Sy [Wy Gy]]]].
    destruct (subarray_ok vel 3 [ny; nx; nz] 2 Wv Sv ltac:(lia)) as [vz [E5 [Sz [Wz Gz]]]].
    rewrite E3. cbn [bind].
    destruct (axis_ok x0 x1 nx Hnx) as [ax Ax]. destruct (axis_ok y0 y1 ny Hny) as [ay Ay].
    destruct (axis_ok z0 z1 nz Hnz) as [az Az].
    unfold mk_interp3d. rewrite Ax, Ay, Az. cbn [bind]. rewrite E4. cbn [bind]. rewrite E5. cbn [bind].
    eexists _, vx, vy, vz, ax, ay, az. split; [reflexivity|]. cbn [h_shape h_u h_x]. split; [reflexivity|].
    split; [split; reflexivity|]. split.
    { split; [exact Ho|]. exists None, None, None. repeat split. }
    repeat (split; [reflexivity || assumption|]).
    intros i j k Hi Hj Hk. assert (B : in_bounds [ny; nx; nz] [i; j; k] = true).
    { cbn [in_bounds]. rewrite (proj2 (Nat.ltb_lt _ _) Hi), (proj2 (Nat.ltb_lt _ _) Hj), (proj2 (Nat.ltb_lt _ _) Hk).
      reflexivity. }
    set (q := (j * ny + i) * nz + k).
    assert (Q : q < n).
    { unfold q, n. assert (j * ny + i < nx * ny) by nia. nia. }
    assert (F : forall c r, nth_error [u; w; t] c = Some r -> length r = n ->
                nd_get vel0 [c; j; i; k] = get r q).
    { intros c r Hc Hr.
      assert (Hc3 : c < 3) by (apply (nth_error_Some [u; w; t]); congruence).
      unfold nd_get. unfold vel0. cbn [shape data in_bounds].
      rewrite (proj2 (Nat.ltb_lt _ _) Hi), (proj2 (Nat.ltb_lt _ _) Hj), (proj2 (Nat.ltb_lt _ _) Hk),
        (proj2 (Nat.ltb_lt _ _) Hc3). cbn [andb].
      unfold nd_of_mat, V. cbn [data mrows]. unfold get.
      replace (c_ravel [3; nx; ny; nz] [c; j; i; k]) with (c * n + q)
        by (cbn [c_ravel size]; unfold n, q; lia).
      rewrite (nth_concat _ n _ _ r) by (try exact Q; try exact Hc; repeat constructor; assumption).
      reflexivity. }
    rewrite (Gx _ B), (Gy _ B), (Gz _ B).
    rewrite !Gv by (cbn [in_bounds] in *; rewrite B; reflexivity).
    rewrite (F 0 u eq_refl Lu), (F 1 w eq_refl Lw), (F 2 t eq_refl Lt). auto.
  Qed.

  (** update(velocities) alone replaces the stored arrays by 1-D ones: every later query fails. *)
  Lemma update_only2 (o : highperf T) vx vy ax ay n u w :
    holds2 o vx vy ax ay ->
    exists o', highperf_update O o (Mat n [u; w]) None = (o', Ok tt) /\
      holds2 o' (nd_of_list u) (nd_of_list w) ax ay /\ h_shape o' = h_shape o.
  Proof.
    intros [Hz [Ho [bx [by_ [Ix [Iy [Ex Ey]]]]]]]. unfold highperf_update. rewrite Ex, Ey, Hz. cbn.
    eexists. split; [reflexivity|]. split; [|reflexivity].
    split; [reflexivity|]. split; [exact Ho|]. exists bx, by_. auto.
  Qed.

  Lemma update_only3 (o : highperf T) vx vy vz ax ay az n u w t :
    holds3 o vx vy vz ax ay az ->
    exists o', highperf_update O o (Mat n [u; w; t]) None = (o', Ok tt) /\
      holds3 o' (nd_of_list u) (nd_of_list w) (nd_of_list t) ax ay az /\ h_shape o' = h_shape o.
  Proof.
    intros [Ho [bx [by_ [bz [Ix [Iy [Iz [Ex [Ey Ez]]]]]]]]]. unfold highperf_update. rewrite Ex, Ey, Ez. cbn.
    eexists. split; [reflexivity|]. split; [|reflexivity].
    split; [exact Ho|]. exists bx, by_, bz. auto 10.
  Qed.
End Init.

(* ---------------------------------------------------------------- *)
Section Reals.
  Local Open Scope R_scope.

  Lemma np_min_R l m : In m l -> (forall x, In x l -> m <= x) -> np_min Rops l = Ok m.
  Proof.
    destruct l as [|a l]; [intros []|]. intros Hin Hle. unfold np_min. f_equal.
    assert (G : forall acc, m <= acc -> (acc = m \/ In m l) -> fold_left (o_min Rops) l acc = m).
    { assert (Hl : forall x, In x l -> m <= x) by (intros x Hx; apply Hle; right; exact Hx).
      clear Hin Hle. induction l as [|b l IH]; intros acc Ha Hor.
      - destruct Hor as [->|[]]. reflexivity.
      - cbn. apply IH.
        + intros x Hx. apply Hl. right. exact Hx.
        + unfold o_min. cbn. destruct (R_ltb b acc); [apply Hl; left; reflexivity|exact Ha].
        + unfold o_min. cbn. unfold R_ltb. destruct (Rlt_dec b acc) as [L|L]; cbv iota.
          * destruct Hor as [->|[->|Hin]]; [|auto|auto].
            specialize (Hl b (or_introl eq_refl)). exfalso. lra.
          * destruct Hor as [->|[->|Hin]]; [auto| |auto].
            left. lra. }
    apply G; [apply Hle; left; reflexivity|]. destruct Hin; auto.
  Qed.

  Lemma np_max_R l m : In m l -> (forall x, In x l -> x <= m) -> np_max Rops l = Ok m.
  Proof.
    destruct l as [|a l]; [intros []|]. intros Hin Hle. unfold np_max. f_equal.
    assert (G : forall acc, acc <= m -> (acc = m \/ In m l) -> fold_left (o_max Rops) l acc = m).
    { assert (Hl : forall x, In x l -> x <= m) by (intros x Hx; apply Hle; right; exact Hx).
      clear Hin Hle. induction l as [|b l IH]; intros acc Ha Hor.
      - destruct Hor as [->|[]]. reflexivity.
      - cbn. apply IH.
        + intros x Hx. apply Hl. right. exact Hx.
        + unfold o_max. cbn. destruct (R_ltb acc b); [apply Hl; left; reflexivity|exact Ha].
        + unfold o_max. cbn. unfold R_ltb. destruct (Rlt_dec acc b) as [L|L]; cbv iota.
          * destruct Hor as [->|[->|Hin]]; [|auto|auto].
            specialize (Hl b (or_introl eq_refl)). exfalso. lra.
          * destruct Hor as [->|[->|Hin]]; [auto| |auto].
            left. lra. }
    apply G; [apply Hle; left; reflexivity|]. destruct Hin; auto.
  Qed.

  (** Extremes of coordinates x0 + i * d, where the index runs over 0 .. m-1. *)
  Lemma coord_min N m (idx : nat -> nat) x0 d :
    0 < d -> (forall k, (k < N)%nat -> (idx k < m)%nat) -> (exists k, (k < N)%nat /\ idx k = 0%nat) ->
    np_min Rops (map (fun k => x0 + INR (idx k) * d) (seq 0 N)) = Ok x0.
  Proof.
    intros Hd Hb [k [Hk E]]. apply np_min_R.
    - apply in_map_iff. exists k. rewrite E. cbn. split; [ring|]. apply in_seq. lia.
    - intros x Hx. apply in_map_iff in Hx. destruct Hx as [j [<- _]].
      pose proof (pos_INR (idx j)). nra.
  Qed.

  Lemma coord_max N m (idx : nat -> nat) x0 d :
    0 < d -> (1 <= m)%nat -> (forall k, (k < N)%nat -> (idx k < m)%nat) ->
    (exists k, (k < N)%nat /\ idx k = (m - 1)%nat) ->
    np_max Rops (map (fun k => x0 + INR (idx k) * d) (seq 0 N)) = Ok (x0 + (INR m - 1) * d).
  Proof.
    intros Hd Hm Hb [k [Hk E]]. apply np_max_R.
    - apply in_map_iff. exists k. rewrite E, minus_INR by exact Hm. cbn [INR]. split; [reflexivity|].
      apply in_seq. lia.
    - intros x Hx. apply in_map_iff in Hx. destruct Hx as [j [<- Hj]]. apply in_seq in Hj.
      assert (idx j < m)%nat as B by (apply Hb; lia).
      assert (INR (idx j) <= INR m - 1).
      { replace (INR m - 1) with (INR (m - 1)) by (rewrite minus_INR by exact Hm; reflexivity).
        apply le_INR. lia. }
      nra.
  Qed.

  (** An axis of a uniform grid: first node and spacing. *)
  Lemma axis_R x0 d n ax : (2 <= n)%nat -> 0 < d ->
    mk_axis Rops (linspace Rops x0 (x0 + (INR n - 1) * d) n) = Ok ax ->
    forall x, to_grid Rops ax x = Some ((x - x0) / d).
  Proof.
    intros Hn Hd H x. unfold mk_axis in H. rewrite linspace_length in H.
    destruct n as [|[|n]]; try lia.
    set (b := x0 + (INR (S (S n)) - 1) * d) in *.
    assert (E0 : get (linspace Rops x0 b (S (S n))) 0 = Ok x0).
    { unfold linspace. cbn [Nat.sub seq map app get nth_error Z.of_nat]. unfold get. cbn.
      f_equal. ring. }
    assert (E1 : get (linspace Rops x0 b (S (S n))) (S (S n) - 1) = Ok b).
    { unfold linspace, get. rewrite nth_error_app2; rewrite map_length, seq_length; [|lia].
      rewrite Nat.sub_diag. reflexivity. }
    rewrite E0, E1 in H. cbn [bind] in H.
    match type of H with Ok ?t = Ok _ => assert (Hax : ax = t) by congruence end. subst ax. unfold to_grid. cbn [a_delta a_min].
    assert (P : 1 <= INR (S (S n)) - 1).
    { rewrite !S_INR. pose proof (pos_INR n). lra. }
    assert (Z1 : IZR (Z.of_nat (S (S n)) - 1) = INR (S (S n)) - 1).
    { rewrite minus_IZR, <- INR_IZR_INZ. reflexivity. }
    unfold np_div at 1. cbn [o_ofZ o_sub o_div o_eqb Rops o_zero]. unfold R_eqb, o_zero. cbn [o_ofZ Rops].
    rewrite Z1. destruct (Req_EM_T (INR (S (S n)) - 1) 0) as [C|_]; [lra|].
    replace ((b - x0) / (INR (S (S n)) - 1)) with d by (unfold b; field; lra).
    unfold np_div. cbn [o_eqb o_sub o_div Rops]. unfold R_eqb, o_zero. cbn [o_ofZ Rops].
    destruct (Req_EM_T d 0) as [C|_]; [lra|]. reflexivity.
  Qed.

  Lemma node2_ok nx ny k : (k < nx * ny)%nat -> (fst (node2 nx k) < nx)%nat /\ (snd (node2 nx k) < ny)%nat.
  Proof.
    intros H. destruct nx as [|nx]; [lia|]. split; cbn [node2 fst snd].
    - apply Nat.mod_upper_bound. lia.
    - apply Nat.div_lt_upper_bound; lia.
  Qed.

  Lemma node2_sample nx i j : (i < nx)%nat -> node2 nx (sample2 nx i j) = (i, j).
  Proof.
    intros H. unfold node2, sample2. rewrite (Nat.mul_comm nx), Nat.mod_add, Nat.div_add by lia.
    rewrite Nat.mod_small, Nat.div_small by lia. reflexivity.
  Qed.

  Lemma node3_ok nx ny nz k : (k < nx * ny * nz)%nat ->
    (fst (fst (node3 nx nz k)) < nx)%nat /\ (snd (fst (node3 nx nz k)) < ny)%nat /\ (snd (node3 nx nz k) < nz)%nat.
  Proof.
    intros H. destruct nx as [|nx]; [lia|]. destruct nz as [|nz]; [lia|].
    assert (k / S nz < S nx * ny)%nat by (apply Nat.div_lt_upper_bound; lia).
    unfold node3. cbn [fst snd]. repeat split.
    - apply Nat.mod_upper_bound. lia.
    - apply Nat.div_lt_upper_bound; lia.
    - apply Nat.mod_upper_bound. lia.
  Qed.

  Lemma node3_sample nx nz i j k : (i < nx)%nat -> (k < nz)%nat -> node3 nx nz (sample3 nx nz i j k) = (i, j, k).
  Proof.
    intros H Hk. unfold node3, sample3. rewrite (Nat.add_comm _ k), Nat.div_add, Nat.mod_add by lia.
    rewrite (Nat.div_small k), (Nat.mod_small k) by lia. cbn [Nat.add].
    rewrite (Nat.add_comm _ i), Nat.mod_add, Nat.div_add by lia.
    rewrite Nat.mod_small, Nat.div_small by lia. reflexivity.
  Qed.

  Lemma eval2_R v sx sy ax ay x0 y0 dx dy pts :
    shape v = [sx; sy] -> (Z.of_nat sx <= INT_MAX)%Z -> (Z.of_nat sy <= INT_MAX)%Z ->
    (forall x, to_grid Rops ax x = Some ((x - x0) / dx)) -> (forall y, to_grid Rops ay y = Some ((y - y0) / dy)) ->
    eval2 Rops v ax ay pts =
    interp2d_vec_inplace Rops v (q2 (map (index2 x0 y0 dx dy) pts)) (map fst pts).
  Proof.
    intros Hs Bx By Gx Gy. rewrite (kernel2_map _ _ _ _ _ Hs Bx By) by (rewrite !map_length; reflexivity).
    unfold eval2. rewrite Hs, mapr_map. rewrite !wrap_id by lia. apply mapr_ext.
    intros [x y] _. cbn. rewrite Gx, Gy. reflexivity.
  Qed.

  Lemma eval3_R v sx sy sz ax ay az x0 y0 z0 dx dy dz pts :
    shape v = [sx; sy; sz] -> (Z.of_nat sx <= INT_MAX)%Z -> (Z.of_nat sy <= INT_MAX)%Z ->
    (Z.of_nat sz <= INT_MAX)%Z -> (Z.of_nat sy * Z.of_nat sz <= INT_MAX)%Z ->
    (forall x, to_grid Rops ax x = Some ((x - x0) / dx)) -> (forall y, to_grid Rops ay y = Some ((y - y0) / dy)) ->
    (forall z, to_grid Rops az z = Some ((z - z0) / dz)) ->
    eval3 Rops v ax ay az pts =
    interp3d_vec_inplace Rops v (q3 (map (index3 x0 y0 z0 dx dy dz) pts)) (map snd pts).
  Proof.
    intros Hs Bx By Bz Byz Gx Gy Gz.
    rewrite (kernel3_map _ _ _ _ _ _ Hs Bx By Bz Byz) by (rewrite !map_length; reflexivity).
    unfold eval3. rewrite Hs, mapr_map. rewrite !wrap_id by lia. rewrite c_int_ok by (unfold INT_MIN; nia).
    cbn [bind]. apply mapr_ext. intros [[x y] z] _. cbn. rewrite Gx, Gy, Gz. reflexivity.
  Qed.
End Reals.
