(** C34, C86: structured SciPy interpolators over the reals. *)
From Coq Require Import Reals Lra Lia Sorted.
From Verif Require Import Base Num NdArray Integrate GridInterp Interpolate SpecSeeds SpecGrid SpecKernel SpecIntegrate SpecInterp
  NdFacts GridInterpFacts HighPerfFacts HighPerfReal IntegrateMisc GridPlace ScipyFacts.
Local Open Scope R_scope.

Definition axis_nodes (x0 d : R) (n : nat) : list R := map (fun i => x0 + INR i * d) (seq 0 n).

Lemma linspace_R x0 d n : (2 <= n)%nat -> linspace Rops x0 (x0 + (INR n - 1) * d) n = axis_nodes x0 d n.
Proof.
  intros Hn. destruct n as [|[|n]]; try lia. unfold linspace.
  set (b := x0 + (INR (S (S n)) - 1) * d).
  assert (Z1 : IZR (Z.of_nat (S (S n)) - 1) = INR (S (S n)) - 1).
  { rewrite minus_IZR, <- INR_IZR_INZ. reflexivity. }
  assert (P : 1 <= INR (S (S n)) - 1).
  { rewrite !S_INR. pose proof (pos_INR n). lra. }
  cbn [o_ofZ o_sub o_div Rops]. rewrite Z1.
  replace ((b - x0) / (INR (S (S n)) - 1)) with d by (unfold b; field; lra).
  unfold axis_nodes. rewrite (seq_S (S n) 0), map_app. replace (S (S n) - 1)%nat with (S n) by lia. f_equal.
  - apply map_ext. intros i. cbn [o_add o_mul o_ofZ Rops]. rewrite <- INR_IZR_INZ. ring.
  - cbn [map]. f_equal. unfold b. rewrite Nat.add_0_l, (S_INR (S n)). ring.
Qed.

Lemma axis_nodes_length x0 d n : length (axis_nodes x0 d n) = n.
Proof. unfold axis_nodes. rewrite map_length, seq_length. reflexivity. Qed.

Lemma axis_nodes_nth x0 d n i : (i < n)%nat -> nth_error (axis_nodes x0 d n) i = Some (x0 + INR i * d).
Proof. intros H. apply (nth_seq (fun i => x0 + INR i * d)). exact H. Qed.

Lemma axis_nodes_sorted x0 d n : 0 < d -> StronglySorted Rlt (axis_nodes x0 d n).
Proof.
  intros Hd. unfold axis_nodes. generalize 0%nat. induction n as [|n IH]; intros s; cbn; constructor; [apply IH|].
  apply Forall_map, Forall_forall. intros k Hk. apply in_seq in Hk. apply Rplus_lt_compat_l.
  apply Rmult_lt_compat_r; [exact Hd|]. apply lt_INR. lia.
Qed.

Section Struct2.
  Variables (scp : scipy R) (nx ny : nat) (x0 y0 dx dy : R).
  Hypothesis Hnx : (2 <= nx)%nat. Hypothesis Hny : (2 <= ny)%nat.
  Hypothesis Hdx : 0 < dx. Hypothesis Hdy : 0 < dy.

  Let points := grid_points2 nx ny x0 y0 dx dy.
  Let xs := axis_nodes x0 dx nx.
  Let ys := axis_nodes y0 dy ny.

  Lemma axes_grid2 : axes2 Rops points nx ny = Ok [xs; ys].
  Proof.
    unfold axes2, points_axis, points, grid_points2. cbn [mrows]. unfold get. cbn [nth_error bind]. unfold grid_axis.
    assert (B : forall k, (k < nx * ny)%nat -> (fst (node2 nx k) < nx)%nat /\ (snd (node2 nx k) < ny)%nat)
      by (intros k Hk; apply node2_ok, Hk).
    assert (W : forall i j, (i < nx)%nat -> (j < ny)%nat -> (sample2 nx i j < nx * ny)%nat) by (intros; unfold sample2; nia).
    rewrite (coord_min (nx * ny) nx (fun k => fst (node2 nx k))); [|assumption|intros k Hk; apply B, Hk|].
    2:{ exists (sample2 nx 0 0). rewrite node2_sample by lia. split; [apply W; lia|reflexivity]. }
    rewrite (coord_max (nx * ny) nx (fun k => fst (node2 nx k))); [|assumption|lia|intros k Hk; apply B, Hk|].
    2:{ exists (sample2 nx (nx - 1) 0). rewrite node2_sample by lia. split; [apply W; lia|reflexivity]. }
    cbn [bind].
    rewrite (coord_min (nx * ny) ny (fun k => snd (node2 nx k))); [|assumption|intros k Hk; apply B, Hk|].
    2:{ exists (sample2 nx 0 0). rewrite node2_sample by lia. split; [apply W; lia|reflexivity]. }
    rewrite (coord_max (nx * ny) ny (fun k => snd (node2 nx k))); [|assumption|lia|intros k Hk; apply B, Hk|].
    2:{ exists (sample2 nx 0 (ny - 1)). rewrite node2_sample by lia. split; [apply W; lia|reflexivity]. }
    cbn [bind]. rewrite !linspace_R by assumption. reflexivity.
  Qed.

  Variables (method : string) (m : nat).
  Hypothesis RN : reproduces_nodes scp method m.
  Hypothesis Mx : (m <= nx)%nat. Hypothesis My : (m <= ny)%nat.

  Lemma mk_rgi_grid2 (v : mat R) c row : nth_error (mrows v) c = Some row -> length row = (nx * ny)%nat ->
    mk_rgi scp method [xs; ys] v c [nx; ny] = Ok (rgi_of [xs; ys] [nx; ny] row).
  Proof.
    intros Hr Hl. unfold mk_rgi, get. rewrite Hr. cbn [bind]. unfold reshape_c, nd_of_list. cbn [shape data size].
    rewrite (proj2 (Nat.eqb_eq _ _)) by lia. cbn [bind]. destruct RN as [C _].
    rewrite C; [reflexivity| |].
    - repeat constructor; unfold xs, ys; rewrite ?axis_nodes_length; auto using axis_nodes_sorted.
    - cbn. unfold xs, ys. rewrite !axis_nodes_length. reflexivity.
  Qed.

  Lemma init_grid2 (g : gridinterp R) u w : g_shape g = [nx; ny] -> g_method g = method ->
    gridinterp_update Rops scp g (samples2 (nx * ny) u w) (Some points) =
      (GridI method [nx; ny] (Some (samples2 (nx * ny) u w)) (Some points) (Some 2%nat)
         (Some (rgi_of [xs; ys] [nx; ny] (map u (seq 0 (nx * ny)))))
         (Some (rgi_of [xs; ys] [nx; ny] (map w (seq 0 (nx * ny))))) (g_z g), Ok tt).
  Proof.
    intros Hs Hm. unfold gridinterp_update.
    set (v := samples2 (nx * ny) u w).
    transitivity (gridinterp_init Rops scp (GridI (g_method g) (g_shape g) (Some v) (Some points) (g_ndim g) (g_x g) (g_y g) (g_z g))).
    { destruct (g_x g); [destruct (g_ndim g)|]; reflexivity. }
    unfold gridinterp_init. cbn [g_velocities g_points g_shape g_method g_x g_y g_z]. rewrite Hs, Hm.
    change (nrows points) with 2%nat. change (mcols points) with (nx * ny)%nat.
    replace (size [nx; ny] =? nx * ny) with true by (symmetry; apply Nat.eqb_eq; cbn; lia).
    cbn [Nat.eqb orb negb]. fold (axes2 Rops points nx ny). rewrite axes_grid2.
    rewrite (mk_rgi_grid2 v 0 (map u (seq 0 (nx * ny)))) by (try reflexivity; rewrite map_length, seq_length; reflexivity).
    rewrite (mk_rgi_grid2 v 1 (map w (seq 0 (nx * ny)))) by (try reflexivity; rewrite map_length, seq_length; reflexivity).
    reflexivity.
  Qed.

  Lemma query_node (g : gridinterp R) b0 b1 c0 c1 junk i j a b :
    g_method g = method -> g_ndim g = Some 2%nat ->
    g_x g = Some (Rgi [xs; ys] b0 c0) -> g_y g = Some (Rgi [xs; ys] b1 c1) ->
    shape c0 = [nx; ny] -> shape c1 = [nx; ny] ->
    (forall q, rgi_eval scp method [xs; ys] b0 c0 q = rgi_eval scp method [xs; ys] c0 c0 q) ->
    (forall q, rgi_eval scp method [xs; ys] b1 c1 q = rgi_eval scp method [xs; ys] c1 c1 q) ->
    (i < nx)%nat -> (j < ny)%nat -> nd_get c0 [i; j] = Ok a -> nd_get c1 [i; j] = Ok b ->
    gridinterp_interpolate scp junk g (arr2 [(x0 + INR i * dx, y0 + INR j * dy)]) = Ok (arr2 [(a, b)]).
  Proof.
    intros Hm Hn Hx Hy S0 S1 C0 C1 Hi Hj A B. unfold gridinterp_interpolate. rewrite Hx, Hn, Hy, Hm. cbn [rgi_call r_axes r_built r_values].
    rewrite C0, C1. destruct RN as [_ E]. change (arr2 [(x0 + INR i * dx, y0 + INR j * dy)]) with (Mat 2 [[x0 + INR i * dx; y0 + INR j * dy]]).
    assert (F2 : Forall2 (fun ax p => nth_error ax (fst p) = Some (snd p)) [xs; ys]
        (combine [i; j] [x0 + INR i * dx; y0 + INR j * dy])).
    { repeat constructor; cbn; unfold xs, ys; apply axis_nodes_nth; assumption. }
    assert (F1 : Forall (StronglySorted Rlt) [xs; ys]) by (repeat constructor; unfold xs, ys; apply axis_nodes_sorted; assumption).
    assert (L : map (@length R) [xs; ys] = [nx; ny]) by (cbn; unfold xs, ys; rewrite !axis_nodes_length; reflexivity).
    set (q := Mat 2 [[x0 + INR i * dx; y0 + INR j * dy]]).
    assert (Eq : forall cc aa, shape cc = [nx; ny] -> nd_get cc [i; j] = Ok aa -> rgi_eval scp method [xs; ys] cc cc q = Ok [aa]).
    { intros cc aa Sc Gc. unfold q. change 2%nat with (length [xs; ys]).
      apply (E [xs; ys] cc [i; j] _ aa F1); try assumption; [congruence|reflexivity]. }
    rewrite (Eq c0 a S0 A), (Eq c1 b S1 B). reflexivity.
  Qed.
End Struct2.

Section Struct3.
  Variables (scp : scipy R) (nx ny nz : nat) (x0 y0 z0 dx dy dz : R).
  Hypothesis Hnx : (2 <= nx)%nat. Hypothesis Hny : (2 <= ny)%nat. Hypothesis Hnz : (2 <= nz)%nat.
  Hypothesis Hdx : 0 < dx. Hypothesis Hdy : 0 < dy. Hypothesis Hdz : 0 < dz.

  Let N := (nx * ny * nz)%nat.
  Let points := grid_points3 nx ny nz x0 y0 z0 dx dy dz.
  Let xs := axis_nodes x0 dx nx.
  Let ys := axis_nodes y0 dy ny.
  Let zs := axis_nodes z0 dz nz.

  Lemma axes_grid3 : axes3 Rops points nx ny nz = Ok [xs; ys; zs].
  Proof.
    unfold axes3, points_axis, points, grid_points3. cbn [mrows]. unfold get. cbn [nth_error bind]. unfold grid_axis.
    assert (B : forall k, (k < nx * ny * nz)%nat -> (fst (fst (node3 nx nz k)) < nx)%nat /\
       (snd (fst (node3 nx nz k)) < ny)%nat /\ (snd (node3 nx nz k) < nz)%nat)
      by (intros k Hk; apply node3_ok, Hk).
    assert (W : forall i j k, (i < nx)%nat -> (j < ny)%nat -> (k < nz)%nat -> (sample3 nx nz i j k < nx * ny * nz)%nat).
    { intros i j k Hi Hj Hk. unfold sample3. assert (j * nx + i < nx * ny)%nat by nia.
      set (a := (j * nx + i)%nat) in *. set (b := (nx * ny)%nat) in *. clearbody a b. nia. }
    rewrite (coord_min (nx * ny * nz) nx (fun k => fst (fst (node3 nx nz k)))); [|assumption|intros k Hk; apply B, Hk|].
    2:{ exists (sample3 nx nz 0 0 0). rewrite node3_sample by lia. split; [apply W; lia|reflexivity]. }
    rewrite (coord_max (nx * ny * nz) nx (fun k => fst (fst (node3 nx nz k)))); [|assumption|lia|intros k Hk; apply B, Hk|].
    2:{ exists (sample3 nx nz (nx - 1) 0 0). rewrite node3_sample by lia. split; [apply W; lia|reflexivity]. }
    cbn [bind].
    rewrite (coord_min (nx * ny * nz) ny (fun k => snd (fst (node3 nx nz k)))); [|assumption|intros k Hk; apply B, Hk|].
    2:{ exists (sample3 nx nz 0 0 0). rewrite node3_sample by lia. split; [apply W; lia|reflexivity]. }
    rewrite (coord_max (nx * ny * nz) ny (fun k => snd (fst (node3 nx nz k)))); [|assumption|lia|intros k Hk; apply B, Hk|].
    2:{ exists (sample3 nx nz 0 (ny - 1) 0). rewrite node3_sample by lia. split; [apply W; lia|reflexivity]. }
    cbn [bind].
    rewrite (coord_min (nx * ny * nz) nz (fun k => snd (node3 nx nz k))); [|assumption|intros k Hk; apply B, Hk|].
    2:{ exists (sample3 nx nz 0 0 0). rewrite node3_sample by lia. split; [apply W; lia|reflexivity]. }
    rewrite (coord_max (nx * ny * nz) nz (fun k => snd (node3 nx nz k))); [|assumption|lia|intros k Hk; apply B, Hk|].
    2:{ exists (sample3 nx nz 0 0 (nz - 1)). rewrite node3_sample by lia. split; [apply W; lia|reflexivity]. }
    cbn [bind]. rewrite !linspace_R by assumption. reflexivity.
  Qed.

  Variables (method : string) (m : nat).
  Hypothesis RN : reproduces_nodes scp method m.
  Hypothesis Mx : (m <= nx)%nat. Hypothesis My : (m <= ny)%nat. Hypothesis Mz : (m <= nz)%nat.

  Lemma mk_rgi_grid3 (v : mat R) c row : nth_error (mrows v) c = Some row -> length row = N ->
    mk_rgi scp method [xs; ys; zs] v c [nx; ny; nz] = Ok (rgi_of [xs; ys; zs] [nx; ny; nz] row).
  Proof.
    intros Hr Hl. unfold mk_rgi, get. rewrite Hr. cbn [bind]. unfold reshape_c, nd_of_list. cbn [shape data size].
    rewrite (proj2 (Nat.eqb_eq _ _)) by (unfold N in Hl; lia). cbn [bind]. destruct RN as [C _].
    rewrite C; [reflexivity| |].
    - repeat constructor; unfold xs, ys, zs; rewrite ?axis_nodes_length; auto using axis_nodes_sorted.
    - cbn. unfold xs, ys, zs. rewrite !axis_nodes_length. reflexivity.
  Qed.

  Lemma init_grid3 (g : gridinterp R) u w t : g_shape g = [nx; ny; nz] -> g_method g = method ->
    gridinterp_update Rops scp g (samples3 N u w t) (Some points) =
      (GridI method [nx; ny; nz] (Some (samples3 N u w t)) (Some points) (Some 3%nat)
         (Some (rgi_of [xs; ys; zs] [nx; ny; nz] (map u (seq 0 N))))
         (Some (rgi_of [xs; ys; zs] [nx; ny; nz] (map w (seq 0 N))))
         (Some (rgi_of [xs; ys; zs] [nx; ny; nz] (map t (seq 0 N)))), Ok tt).
  Proof.
    intros Hs Hm. unfold gridinterp_update.
    set (v := samples3 N u w t).
    transitivity (gridinterp_init Rops scp (GridI (g_method g) (g_shape g) (Some v) (Some points) (g_ndim g) (g_x g) (g_y g) (g_z g))).
    { destruct (g_x g); [destruct (g_ndim g)|]; reflexivity. }
    unfold gridinterp_init. cbn [g_velocities g_points g_shape g_method g_x g_y g_z]. rewrite Hs, Hm.
    change (nrows points) with 3%nat. change (mcols points) with N.
    replace (size [nx; ny; nz] =? N) with true by (symmetry; apply Nat.eqb_eq; cbn; unfold N; lia).
    cbn [Nat.eqb orb negb]. fold (axes3 Rops points nx ny nz). rewrite axes_grid3.
    rewrite (mk_rgi_grid3 v 0 (map u (seq 0 N))) by (try reflexivity; rewrite map_length, seq_length; reflexivity).
    rewrite (mk_rgi_grid3 v 1 (map w (seq 0 N))) by (try reflexivity; rewrite map_length, seq_length; reflexivity).
    rewrite (mk_rgi_grid3 v 2 (map t (seq 0 N))) by (try reflexivity; rewrite map_length, seq_length; reflexivity).
    reflexivity.
  Qed.

  Lemma query_node3 (g : gridinterp R) c0 c1 c2 junk i j k a b c :
    g_method g = method -> g_ndim g = Some 3%nat ->
    g_x g = Some (Rgi [xs; ys; zs] c0 c0) -> g_y g = Some (Rgi [xs; ys; zs] c1 c1) -> g_z g = Some (Rgi [xs; ys; zs] c2 c2) ->
    shape c0 = [nx; ny; nz] -> shape c1 = [nx; ny; nz] -> shape c2 = [nx; ny; nz] ->
    (i < nx)%nat -> (j < ny)%nat -> (k < nz)%nat ->
    nd_get c0 [i; j; k] = Ok a -> nd_get c1 [i; j; k] = Ok b -> nd_get c2 [i; j; k] = Ok c ->
    gridinterp_interpolate scp junk g (arr3 [(x0 + INR i * dx, y0 + INR j * dy, z0 + INR k * dz)]) = Ok (arr3 [(a, b, c)]).
  Proof.
    intros Hm Hn Hx Hy Hz S0 S1 S2 Hi Hj Hk A B C. unfold gridinterp_interpolate. rewrite Hx, Hn, Hy, Hz, Hm. cbn [rgi_call r_axes r_built r_values].
    destruct RN as [_ E]. unfold arr3. cbn [map row3].
    assert (F2 : Forall2 (fun ax p => nth_error ax (fst p) = Some (snd p)) [xs; ys; zs]
        (combine [i; j; k] [x0 + INR i * dx; y0 + INR j * dy; z0 + INR k * dz])).
    { repeat constructor; cbn; unfold xs, ys, zs; apply axis_nodes_nth; assumption. }
    assert (F1 : Forall (StronglySorted Rlt) [xs; ys; zs]) by (repeat constructor; unfold xs, ys, zs; apply axis_nodes_sorted; assumption).
    assert (L : map (@length R) [xs; ys; zs] = [nx; ny; nz]) by (cbn; unfold xs, ys, zs; rewrite !axis_nodes_length; reflexivity).
    unfold row3. cbn [fst snd].
    set (q := Mat 3 [[x0 + INR i * dx; y0 + INR j * dy; z0 + INR k * dz]]).
    assert (Eq : forall cc aa, shape cc = [nx; ny; nz] -> nd_get cc [i; j; k] = Ok aa ->
      rgi_eval scp method [xs; ys; zs] cc cc q = Ok [aa]).
    { intros cc aa Sc Gc. unfold q. change 3%nat with (length [xs; ys; zs]).
      apply (E [xs; ys; zs] cc [i; j; k] _ aa F1); try assumption; [congruence|reflexivity]. }
    rewrite (Eq c0 a S0 A), (Eq c1 b S1 B), (Eq c2 c S2 C). reflexivity.
  Qed.
End Struct3.
