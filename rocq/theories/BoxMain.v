(** Proofs of C120. *)
From Coq Require Import Reals Lra Lia Sorted.
From Verif Require Import Base Num NdArray Integrate GridInterp Interpolate SpecIntegrate SpecSeeds SpecInterp SpecGrid SpecBox
  HighPerfReal GridInterpFacts GridPlace ScipyFacts BoxFacts.
Local Open Scope R_scope.

Section Kind.
  Variable scp : scipy R.
  Definition keeps (gs : list nat) (i : interp scp) : Prop :=
    match i with IHigh o => h_shape o = gs | IGrid o => g_shape o = gs | _ => False end.

  Lemma high_init_shape (o : highperf R) : h_shape (fst (highperf_init Rops o)) = h_shape o.
  Proof.
    unfold highperf_init. destruct (h_velocities o), (h_points o); try reflexivity.
    match goal with |- h_shape (fst (match ?X with _ => _ end)) = _ => destruct X as [o'|] eqn:E end; [|reflexivity]. cbn.
    destruct (reshape_c (nd_of_mat m0) (length (h_shape o) :: h_shape o)) as [co|]; [|discriminate]. cbn [bind] in E.
    destruct (h_shape o) as [|nx [|ny [|nz [|]]]]; try discriminate;
      repeat match type of E with bind ?X _ = Ok _ => destruct X; [cbn [bind] in E|discriminate] end; injection E as <-; reflexivity.
  Qed.

  Lemma high_update_shape (o : highperf R) v p : h_shape (fst (highperf_update Rops o v p)) = h_shape o.
  Proof.
    unfold highperf_update. destruct p as [p|]; [rewrite high_init_shape; reflexivity|].
    destruct (h_x o), (h_y o); try reflexivity. destruct (get (mrows v) 0); [|reflexivity]. destruct (get (mrows v) 1); [|reflexivity].
    destruct (h_z o); [|reflexivity]. destruct (get (mrows v) 2); reflexivity.
  Qed.

  Lemma high_interpolate_shape mem (o : highperf R) q : h_shape (fst (highperf_interpolate Rops mem o q)) = h_shape o.
  Proof.
    assert (E : h_shape (ensure_buffers mem o (nrows q) (mcols q)) = h_shape o).
    { unfold ensure_buffers. destruct (h_u o) as [b|]; [|reflexivity]. destruct (length b =? nrows q)%nat; reflexivity. }
    assert (X : forall c p, h_shape (fst (run_x Rops mem p c q)) = h_shape p).
    { intros c p. unfold run_x. destruct (call_component Rops _ c q _) as [? [?|?]]; reflexivity. }
    assert (Y : forall c p, h_shape (fst (run_y Rops mem p c q)) = h_shape p).
    { intros c p. unfold run_y. destruct (call_component Rops _ c q _) as [? [?|?]]; reflexivity. }
    assert (Z : forall c p, h_shape (fst (run_z Rops mem p c q)) = h_shape p).
    { intros c p. unfold run_z. destruct (call_component Rops _ c q _) as [? [?|?]]; reflexivity. }
    unfold highperf_interpolate. set (o0 := ensure_buffers mem o _ _) in *. clearbody o0.
    destruct (mcols q) as [|[|[|[|]]]]; try exact E.
    - destruct (h_x o0) as [cx|], (h_y o0) as [cy|]; try exact E.
      specialize (X cx o0). destruct (run_x Rops mem o0 cx q) as [o1 [?|?]]; cbn in *; [|congruence].
      specialize (Y cy o1). destruct (run_y Rops mem o1 cy q) as [o2 [?|?]]; cbn in *; congruence.
    - destruct (h_x o0) as [cx|], (h_y o0) as [cy|], (h_z o0) as [cz|]; try exact E.
      specialize (X cx o0). destruct (run_x Rops mem o0 cx q) as [o1 [?|?]]; cbn in *; [|congruence].
      specialize (Y cy o1). destruct (run_y Rops mem o1 cy q) as [o2 [?|?]]; cbn in *; [|congruence].
      specialize (Z cz o2). destruct (run_z Rops mem o2 cz q) as [o3 [?|?]]; cbn in *; congruence.
  Qed.

  Lemma grid_init_shape (o : gridinterp R) : g_shape (fst (gridinterp_init Rops scp o)) = g_shape o.
  Proof.
    unfold gridinterp_init. destruct (g_velocities o); [|reflexivity]. destruct (g_points o); [|reflexivity].
    repeat match goal with |- g_shape (fst (match ?X with _ => _ end)) = _ => destruct X end; reflexivity.
  Qed.

  Lemma grid_update_shape (o : gridinterp R) v p : g_shape (fst (gridinterp_update Rops scp o v p)) = g_shape o.
  Proof.
    unfold gridinterp_update. destruct (g_x o); [|rewrite grid_init_shape; reflexivity].
    destruct p; [rewrite grid_init_shape; reflexivity|]. destruct (g_ndim o); [|rewrite grid_init_shape; reflexivity].
    repeat match goal with |- g_shape (fst (match ?X with _ => _ end)) = _ => destruct X end; reflexivity.
  Qed.

  Lemma after_keeps gs hist (i : interp scp) : keeps gs i -> keeps gs (after Rops scp i hist).
  Proof.
    revert i. induction hist as [|[v p|mem q] hist IH]; intros i H; cbn [after]; [exact H| |]; apply IH;
      destruct i as [| | |o|o|]; cbn [keeps] in H; try contradiction.
    - cbn [update]. pose proof (grid_update_shape o v p). destruct (gridinterp_update Rops scp o v p). cbn in *. congruence.
    - cbn [update]. pose proof (high_update_shape o v p). destruct (highperf_update Rops o v p). cbn in *. congruence.
    - exact H.
    - cbn [interpolate]. pose proof (high_interpolate_shape mem o q). destruct (highperf_interpolate Rops mem o q). cbn in *. congruence.
  Qed.

  Lemma create_keeps name gs fn i : data_driven name -> create_interpolator Rops scp name (Some gs) fn = Ok i -> keeps gs i.
  Proof.
    intros D H. destruct (create_spec Rops scp name (Some gs) fn) as (_ & G & C & L & N & _).
    destruct D as [D|[D|[D|D]]].
    - rewrite (C D) in H. injection H as <-. reflexivity.
    - rewrite (L D) in H. injection H as <-. reflexivity.
    - rewrite (N D) in H. injection H as <-. reflexivity.
    - rewrite (G D) in H. injection H as <-. reflexivity.
  Qed.

  Lemma box_update gs (i : interp scp) v p p' : keeps gs i -> same_box p p' -> length gs = nrows p ->
    same sim (update Rops scp i v (Some p)) (update Rops scp i v (Some p')).
  Proof.
    intros K B Hl. destruct i as [| | |o|o|]; cbn [keeps] in K; try contradiction; cbn [update].
    - pose proof (sim_grid_update scp o o v (Some p) (Some p') (sim_grid_refl o)) as [S R]; [right; eauto|].
      destruct (gridinterp_update Rops scp o v (Some p)), (gridinterp_update Rops scp o v (Some p')). split; [exact S|exact R].
    - assert (H : same sim_high (highperf_update Rops o v (Some p)) (highperf_update Rops o v (Some p'))).
      { unfold highperf_update. apply (sim_high_init _ _ p p'); try reflexivity; [repeat split|exact B|cbn; rewrite K; exact Hl]. }
      destruct H as [S R]. destruct (highperf_update Rops o v (Some p)), (highperf_update Rops o v (Some p')). split; [exact S|exact R].
  Qed.

  Lemma box_only name gs fn i hist v p p' : data_driven name -> create_interpolator Rops scp name (Some gs) fn = Ok i ->
    length gs = nrows p -> same_box p p' ->
    snd (update Rops scp (after Rops scp i hist) v (Some p)) = snd (update Rops scp (after Rops scp i hist) v (Some p')) /\
    forall later mem q,
      snd (interpolate Rops scp mem (after Rops scp (fst (update Rops scp (after Rops scp i hist) v (Some p))) later) q) =
      snd (interpolate Rops scp mem (after Rops scp (fst (update Rops scp (after Rops scp i hist) v (Some p'))) later) q).
  Proof.
    intros D C Hl B. pose proof (after_keeps gs hist i (create_keeps name gs fn i D C)) as K.
    destruct (box_update gs _ v p p' K B Hl) as [S R]. split; [exact R|]. intros later mem q.
    apply sim_interpolate. apply sim_after. exact S.
  Qed.
End Kind.

(* ------------------------------------------------------------------ *)
(** Stretched grids. *)
Lemma sorted_nth (xs : list R) : StronglySorted Rlt xs -> forall i j, (i < j < length xs)%nat -> nth i xs 0 < nth j xs 0.
Proof.
  intros H. induction H as [|x xs H IH F]; intros i j Hij; cbn in Hij; [lia|].
  destruct j as [|j]; [lia|]. destruct i as [|i]; cbn.
  - rewrite Forall_forall in F. apply F. apply nth_In. lia.
  - apply IH. lia.
Qed.

Lemma sorted_nth_le (xs : list R) : StronglySorted Rlt xs -> forall i j, (i <= j < length xs)%nat -> nth i xs 0 <= nth j xs 0.
Proof. intros H i j Hij. destruct (Nat.eq_dec i j) as [->|N]; [lra|]. apply Rlt_le. apply sorted_nth; [exact H|lia]. Qed.

Lemma spacing_pos xs : StronglySorted Rlt xs -> (2 <= length xs)%nat -> 0 < spacing xs.
Proof.
  intros H L. unfold spacing. apply Rdiv_lt_0_compat.
  - pose proof (sorted_nth xs H 0 (length xs - 1) ltac:(lia)). lra.
  - apply le_INR in L. cbn in L. lra.
Qed.

Lemma row_box (xs : list R) N (idx : nat -> nat) a b : StronglySorted Rlt xs -> (2 <= length xs)%nat ->
  (forall k, (k < N)%nat -> (idx k < length xs)%nat) ->
  (exists k, (k < N)%nat /\ idx k = 0%nat) -> (exists k, (k < N)%nat /\ idx k = (length xs - 1)%nat) ->
  between_all a b (map (fun k => nth (idx k) xs 0) (seq 0 N)) <->
  between_all a b (map (fun k => nth 0 xs 0 + INR (idx k) * spacing xs) (seq 0 N)).
Proof.
  intros H L B (k0 & Hk0 & E0) (k1 & Hk1 & E1).
  pose proof (spacing_pos xs H L) as Sp. set (lo := nth 0 xs 0) in *. set (hi := nth (length xs - 1) xs 0).
  assert (Eh : lo + INR (length xs - 1) * spacing xs = hi).
  { unfold spacing. fold lo hi. rewrite minus_INR by lia. cbn [INR]. field. apply le_INR in L. cbn in L. lra. }
  assert (P : forall k, In k (seq 0 N) <-> (k < N)%nat) by (intro k; rewrite in_seq; lia).
  transitivity (a <= lo /\ hi <= b).
  - split.
    + intros F. split.
      * apply (F lo). apply in_map_iff. exists k0. split; [rewrite E0; reflexivity|apply P; exact Hk0].
      * apply (F hi). apply in_map_iff. exists k1. split; [rewrite E1; reflexivity|apply P; exact Hk1].
    + intros [Ha Hb] x Hx. apply in_map_iff in Hx. destruct Hx as (k & <- & Hk). apply P in Hk. specialize (B k Hk).
      pose proof (sorted_nth_le xs H 0 (idx k) ltac:(lia)). pose proof (sorted_nth_le xs H (idx k) (length xs - 1) ltac:(lia)).
      fold lo in H0. fold hi in H1. lra.
  - split.
    + intros [Ha Hb] x Hx. apply in_map_iff in Hx. destruct Hx as (k & <- & Hk). apply P in Hk. specialize (B k Hk).
      pose proof (pos_INR (idx k)). assert (INR (idx k) <= INR (length xs - 1)) by (apply le_INR; lia).
      assert (0 <= INR (idx k) * spacing xs) by (apply Rmult_le_pos; lra).
      assert (INR (idx k) * spacing xs <= INR (length xs - 1) * spacing xs) by (apply Rmult_le_compat_r; lra). lra.
    + intros F. split.
      * apply (F lo). apply in_map_iff. exists k0. split; [rewrite E0; cbn; ring|apply P; exact Hk0].
      * apply (F hi). apply in_map_iff. exists k1. split; [rewrite E1; exact Eh|apply P; exact Hk1].
Qed.

Lemma mesh_box xs ys : StronglySorted Rlt xs -> StronglySorted Rlt ys -> (2 <= length xs)%nat -> (2 <= length ys)%nat ->
  same_box (grid_points2 (length xs) (length ys) (nth 0 xs 0) (nth 0 ys 0) (spacing xs) (spacing ys)) (mesh2 xs ys).
Proof.
  intros Hx Hy Lx Ly. set (nx := length xs) in *. set (ny := length ys) in *.
  assert (W : forall f g : nat -> R, wf_mat (Mat (nx * ny) [map f (seq 0 (nx * ny)); map g (seq 0 (nx * ny))])).
  { intros f g. repeat constructor; rewrite map_length; apply seq_length. }
  split; [apply W|]. split; [apply W|]. split; [reflexivity|].
  unfold grid_points2, mesh2. cbn [mrows]. fold nx ny. constructor; [intros a b|constructor; [intros a b|constructor]].
  - symmetry. apply (row_box xs (nx * ny) (fun k => fst (node2 nx k))); [exact Hx|exact Lx| | |].
    + intros k Hk. apply (node2_ok nx ny k Hk).
    + exists (sample2 nx 0 0). rewrite node2_sample by lia. split; [unfold sample2; nia|reflexivity].
    + exists (sample2 nx (nx - 1) 0). rewrite node2_sample by lia. split; [unfold sample2; nia|reflexivity].
  - symmetry. apply (row_box ys (nx * ny) (fun k => snd (node2 nx k))); [exact Hy|exact Ly| | |].
    + intros k Hk. apply (node2_ok nx ny k Hk).
    + exists (sample2 nx 0 0). rewrite node2_sample by lia. split; [unfold sample2; nia|reflexivity].
    + exists (sample2 nx 0 (ny - 1)). rewrite node2_sample by lia. split; [unfold sample2; nia|reflexivity].
Qed.

Lemma cell_of (x : R) n : 0 <= x < INR n -> exists i, (i < n)%nat /\ INR i <= x < INR i + 1.
Proof.
  revert x. induction n as [|n IH]; intros x H; [cbn in H; lra|]. rewrite S_INR in H.
  destruct (Rlt_dec x (INR n)) as [L|L]; [destruct (IH x ltac:(lra)) as (i & Hi & E); exists i; split; [lia|exact E]|].
  exists n. split; [lia|lra].
Qed.

Section Mesh.
  Variables xs ys : list R.
  Hypotheses (Hx : StronglySorted Rlt xs) (Hy : StronglySorted Rlt ys) (Lx : (2 <= length xs)%nat) (Ly : (2 <= length ys)%nat)
    (Bx : (Z.of_nat (length xs) <= INT_MAX)%Z) (By : (Z.of_nat (length ys) <= INT_MAX)%Z).
  Let nx := length xs. Let ny := length ys. Let at_ := index2 (nth 0 xs 0) (nth 0 ys 0) (spacing xs) (spacing ys).

  Lemma mesh_grid (scp : scipy R) name fn u w : case_variant name "grid" -> exists i0 i1,
    create_interpolator Rops scp name (Some [nx; ny]) fn = Ok i0 /\
    update Rops scp i0 (samples2 (nx * ny) u w) (Some (mesh2 xs ys)) = (i1, Ok tt) /\
    forall mem pts, Forall (fun p => fits2 (at_ p)) pts -> exists out,
      snd (interpolate Rops scp mem i1 (arr2 pts)) = Ok (arr2 out) /\
      Forall2 (fun p v => field2 nx ny (lattice2 nx u) (lattice2 nx w) (at_ p) v) pts out.
  Proof.
    intros Hn.
    destruct (grid2d nx ny (nth 0 xs 0) (nth 0 ys 0) (spacing xs) (spacing ys) Lx Ly (spacing_pos xs Hx Lx) (spacing_pos ys Hy Ly) Bx By scp name fn u w Hn)
      as (i0 & i1 & C & U & Q).
    pose proof (box_only scp name [nx; ny] fn i0 [] (samples2 (nx * ny) u w) (grid_points2 nx ny (nth 0 xs 0) (nth 0 ys 0) (spacing xs) (spacing ys)) (mesh2 xs ys) (or_intror (or_intror (or_intror Hn))) C eq_refl (mesh_box xs ys Hx Hy Lx Ly)) as [R S].
    cbn [after] in R. fold nx ny in R, S. exists i0, (fst (update Rops scp i0 (samples2 (nx * ny) u w) (Some (mesh2 xs ys)))).
    split; [exact C|]. split.
    - rewrite U in R. cbn in R. destruct (update Rops scp i0 (samples2 (nx * ny) u w) (Some (mesh2 xs ys))). cbn in *. congruence.
    - intros mem pts F. destruct (Q mem pts F) as (i2 & out & E & P). exists out. split; [|exact P].
      specialize (S [] mem (arr2 pts)). cbn [after] in S. rewrite U in S. cbn [fst] in S. rewrite E in S. cbn [snd] in S. symmetry. exact S.
  Qed.

  Lemma index_bounds k : (k + 1 < nx)%nat -> 0 <= (nth k xs 0 - nth 0 xs 0) / spacing xs < INR nx - 1.
  Proof.
    intros Hk. pose proof (spacing_pos xs Hx Lx) as Sp. pose proof (sorted_nth_le xs Hx 0 k ltac:(fold nx; lia)) as A.
    pose proof (sorted_nth xs Hx k (length xs - 1) ltac:(fold nx; lia)) as B.
    assert (E : nth (length xs - 1) xs 0 - nth 0 xs 0 = (INR nx - 1) * spacing xs).
    { unfold spacing. fold nx. field. unfold nx. apply le_INR in Lx. cbn in Lx. lra. }
    split.
    - apply Rmult_le_pos; [lra|]. left. apply Rinv_0_lt_compat. exact Sp.
    - apply (Rmult_lt_reg_r (spacing xs)); [exact Sp|]. unfold Rdiv. rewrite Rmult_assoc, Rinv_l by lra. lra.
  Qed.

  Lemma mesh_stretched (scp : scipy R) name fn k : case_variant name "grid" -> (k + 1 < nx)%nat ->
    let u := fun s => INR (s mod nx) in exists i0 i1,
    create_interpolator Rops scp name (Some [nx; ny]) fn = Ok i0 /\
    update Rops scp i0 (samples2 (nx * ny) u u) (Some (mesh2 xs ys)) = (i1, Ok tt) /\
    forall mem, exists a, snd (interpolate Rops scp mem i1 (arr2 [(nth k xs 0, nth 0 ys 0)])) = Ok (arr2 [(a, a)]) /\
      nth k xs 0 = nth 0 xs 0 + a * spacing xs.
  Proof.
    intros Hn Hk u. destruct (mesh_grid scp name fn u u Hn) as (i0 & i1 & C & U & Q). exists i0, i1. split; [exact C|]. split; [exact U|].
    intros mem. pose proof (index_bounds k Hk) as [B0 B1]. pose proof (spacing_pos xs Hx Lx) as Sp. pose proof (spacing_pos ys Hy Ly) as Spy.
    set (q := (nth k xs 0 - nth 0 xs 0) / spacing xs) in *.
    assert (Eq : at_ (nth k xs 0, nth 0 ys 0) = (q, 0)).
    { unfold at_, index2. cbn [fst snd]. f_equal. unfold Rdiv. ring. }
    assert (NX : INR nx <= 2147483647).
    { rewrite INR_IZR_INZ. apply IZR_le. exact Bx. }
    destruct (Q mem [(nth k xs 0, nth 0 ys 0)]) as (out & E & F).
    { constructor; [|constructor]. rewrite Eq. unfold fits2, fits. cbn [fst snd]. lra. }
    inversion F as [|p v ps vs [Fv1 Fv2] FF]; subst. inversion FF; subst. destruct v as [a b]. cbn [fst snd] in *. fold at_ in Fv1, Fv2. rewrite Eq in Fv1, Fv2.
    assert (G : forall val, sampled2 nx ny (lattice2 nx u) (q, 0) val -> val = q).
    { intros val (I1 & _ & _). cbn [fst snd] in I1. destruct I1 as [Bi _].
      { unfold inside. split; [lra|]. unfold ny. apply le_INR in Ly. cbn in Ly. lra. }
      destruct (cell_of q (nx - 1)) as (i & Hi & Hc).
      { rewrite minus_INR by (unfold nx; lia). cbn [INR]. lra. }
      refine (Bi i 0%nat (fun x _ => x) _ Hc _ _).
      - exists 0, 1, 0, 0. intros. ring.
      - cbn. lra.
      - intros di dj Hdi Hdj. unfold lattice2, sample2, u. f_equal.
        rewrite Nat.mul_comm, Nat.mod_add by (unfold nx; lia). symmetry. apply Nat.mod_small. lia. }
    rewrite (G a Fv1), (G b Fv2) in E. exists q. split; [exact E|]. unfold q. field. lra.
  Qed.

  Lemma mesh_refuted (scp : scipy R) name fn k : case_variant name "grid" -> (k + 1 < nx)%nat ->
    nth k xs 0 <> nth 0 xs 0 + INR k * spacing xs -> exists i0 i1 u,
    create_interpolator Rops scp name (Some [nx; ny]) fn = Ok i0 /\
    update Rops scp i0 (samples2 (nx * ny) u u) (Some (mesh2 xs ys)) = (i1, Ok tt) /\
    forall mem, snd (interpolate Rops scp mem i1 (arr2 [(nth k xs 0, nth 0 ys 0)])) <> Ok (arr2 [(u (sample2 nx k 0), u (sample2 nx k 0))]).
  Proof.
    intros Hn Hk Hs. destruct (mesh_stretched scp name fn k Hn Hk) as (i0 & i1 & C & U & Q). eexists i0, i1, _. split; [exact C|]. split; [exact U|].
    intros mem E. destruct (Q mem) as (a & Ea & Hpos). rewrite Ea in E. injection E as E1. apply Hs. rewrite Hpos, E1.
    unfold sample2. rewrite Nat.mul_0_r, Nat.add_0_r, Nat.mod_small by lia. reflexivity.
  Qed.

  Lemma mesh_equal (scp : scipy R) name fn u w : case_variant name "grid" -> equally_spaced xs -> equally_spaced ys -> exists i0 i1,
    create_interpolator Rops scp name (Some [nx; ny]) fn = Ok i0 /\
    update Rops scp i0 (samples2 (nx * ny) u w) (Some (mesh2 xs ys)) = (i1, Ok tt) /\
    forall mem i j, (i + 1 < nx)%nat -> (j + 1 < ny)%nat ->
      snd (interpolate Rops scp mem i1 (arr2 [(nth i xs 0, nth j ys 0)])) = Ok (arr2 [(u (sample2 nx i j), w (sample2 nx i j))]).
  Proof.
    intros Hn Ex Ey. destruct (mesh_grid scp name fn u w Hn) as (i0 & i1 & C & U & Q). exists i0, i1. split; [exact C|]. split; [exact U|].
    intros mem i j Hi Hj. pose proof (spacing_pos xs Hx Lx) as Sp. pose proof (spacing_pos ys Hy Ly) as Spy.
    assert (Eq : at_ (nth i xs 0, nth j ys 0) = (INR i, INR j)).
    { unfold at_, index2. cbn [fst snd]. rewrite (Ex i) by (fold nx; lia). rewrite (Ey j) by (fold ny; lia). f_equal; field; lra. }
    assert (NX : INR nx <= 2147483647) by (rewrite INR_IZR_INZ; apply IZR_le; exact Bx).
    assert (NY : INR ny <= 2147483647) by (rewrite INR_IZR_INZ; apply IZR_le; exact By).
    assert (I1 : INR i < INR nx) by (apply lt_INR; lia). assert (J1 : INR j < INR ny) by (apply lt_INR; lia).
    pose proof (pos_INR i). pose proof (pos_INR j).
    destruct (Q mem [(nth i xs 0, nth j ys 0)]) as (out & E & F).
    { constructor; [|constructor]. rewrite Eq. unfold fits2, fits. cbn [fst snd]. lra. }
    inversion F as [|p v ps vs [Fv1 Fv2] FF]; subst. inversion FF; subst. destruct v as [a b]. cbn [fst snd] in *. fold at_ in Fv1, Fv2. rewrite Eq in Fv1, Fv2.
    rewrite E. destruct Fv1 as (_ & _ & F1). destruct Fv2 as (_ & _ & F2).
    rewrite (F1 i j Hi Hj eq_refl), (F2 i j Hi Hj eq_refl). reflexivity.
  Qed.
End Mesh.

Lemma mesh_case : StronglySorted Rlt [0; 1; 4] /\ StronglySorted Rlt [0; 1] /\ nth 1 [0; 1; 4] 0 <> nth 0 [0; 1; 4] 0 + INR 1 * spacing [0; 1; 4] /\
  equally_spaced [0; 1].
Proof.
  split; [repeat constructor; lra|]. split; [repeat constructor; lra|]. split; [unfold spacing; cbn; lra|].
  intros k Hk. unfold spacing. cbn in *. destruct k as [|[|k]]; [| |lia]; cbn; field.
Qed.
