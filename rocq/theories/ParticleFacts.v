(** Proofs about particles.py and cauchy_green.py. *)
From Coq Require Import Lia Reals Lra.
From Verif Require Import Base Num Particles Jacobian SpecSeeds.

(* ---- np.split ---- *)
Lemma chunks_concat {A} (n : nat) (bs : list (list A)) :
  Forall (fun b => length b = n) bs -> chunks (length bs) n (concat bs) = bs.
Proof.
  induction bs as [|b bs IH]; intro H; [reflexivity|].
  inversion H as [|? ? Hb Hbs]; subst. cbn [length chunks concat].
  rewrite firstn_app, firstn_all, Nat.sub_diag. cbn [firstn]. rewrite app_nil_r.
  rewrite skipn_app, skipn_all, Nat.sub_diag. cbn [skipn app]. rewrite IH by exact Hbs. reflexivity.
Qed.

Lemma length_concat_n {A} (n : nat) (bs : list (list A)) :
  Forall (fun b => length b = n) bs -> length (concat bs) = length bs * n.
Proof.
  induction 1 as [|b bs Hb H IH]; [reflexivity|]. cbn [concat length].
  rewrite app_length, IH, Hb. reflexivity.
Qed.

Lemma np_split_blocks {A} (c n : nat) (bs : list (list (list A))) :
  bs <> [] -> Forall (fun b => length b = n) bs ->
  np_split (Mat c (concat bs)) (length bs) = Ok (map (Mat c) bs).
Proof.
  intros Hne H. unfold np_split, nrows. cbn [mrows mcols].
  rewrite (length_concat_n n) by exact H.
  destruct bs as [|b bs]; [congruence|]. cbn [length].
  rewrite Nat.mul_comm, Nat.mod_mul by lia. cbn [Nat.eqb].
  rewrite Nat.div_mul by lia. f_equal. f_equal.
  apply (chunks_concat n (b :: bs)). exact H.
Qed.

(** Every array whose row count is divisible is a concatenation of such blocks. *)
Lemma chunks_spec {A} (k n : nat) (l : list A) : length l = k * n ->
  concat (chunks k n l) = l /\ length (chunks k n l) = k /\
  Forall (fun b => length b = n) (chunks k n l).
Proof.
  revert l. induction k as [|k IH]; intros l H.
  - destruct l; [|discriminate]. repeat split; constructor.
  - cbn [chunks concat length]. destruct (IH (skipn n l)) as (H1 & H2 & H3).
    { rewrite skipn_length. cbn in H. lia. }
    rewrite H1, H2. split; [apply firstn_skipn|]. split; [reflexivity|].
    constructor; [|exact H3]. rewrite firstn_length. cbn in H. lia.
Qed.

(* ---- elementwise operations on arrays of points ---- *)
Lemma zip_with_map {A B C X} (f : A -> B -> C) (a : X -> A) (b : X -> B) (l : list X) :
  zip_with f (map a l) (map b l) = map (fun x => f (a x) (b x)) l.
Proof. induction l as [|x l IH]; [reflexivity|]. cbn. rewrite IH. reflexivity. Qed.

Lemma mat_map2_arr2 {X T} (f : T -> T -> T) (a b : X -> T * T) (l : list X) :
  mat_map2 f (arr2 (map a l)) (arr2 (map b l)) = Ok (arr2 (map (fun x => pt2 f (a x) (b x)) l)).
Proof.
  unfold mat_map2, same_shape, nrows, arr2. cbn [mrows mcols].
  rewrite !map_length, !Nat.eqb_refl. cbn [andb]. f_equal. f_equal.
  rewrite !map_map. rewrite zip_with_map. apply map_ext. intro x.
  destruct (a x), (b x). reflexivity.
Qed.

Lemma mat_map2_arr3 {X T} (f : T -> T -> T) (a b : X -> T * T * T) (l : list X) :
  mat_map2 f (arr3 (map a l)) (arr3 (map b l)) = Ok (arr3 (map (fun x => pt3 f (a x) (b x)) l)).
Proof.
  unfold mat_map2, same_shape, nrows, arr3. cbn [mrows mcols].
  rewrite !map_length, !Nat.eqb_refl. cbn [andb]. f_equal. f_equal.
  rewrite !map_map. rewrite zip_with_map. apply map_ext. intro x.
  destruct (a x) as [[? ?] ?], (b x) as [[? ?] ?]. reflexivity.
Qed.

Lemma mat_map_arr2 {X T} (f : T -> T) (a : X -> T * T) (l : list X) :
  mat_map f (arr2 (map a l)) = arr2 (map (fun x => (f (fst (a x)), f (snd (a x)))) l).
Proof.
  unfold mat_map, arr2. cbn [mrows mcols]. f_equal. rewrite !map_map. apply map_ext. intro x.
  destruct (a x); reflexivity.
Qed.

Lemma mat_map_arr3 {X T} (f : T -> T) (a : X -> T * T * T) (l : list X) :
  mat_map f (arr3 (map a l))
  = arr3 (map (fun x => (f (fst (fst (a x))), f (snd (fst (a x))), f (snd (a x)))) l).
Proof.
  unfold mat_map, arr3. cbn [mrows mcols]. f_equal. rewrite !map_map. apply map_ext. intro x.
  destruct (a x) as [[? ?] ?]; reflexivity.
Qed.

Section Layout.
  Context {T : Type} (O : ops T).

  Lemma split_layout2 (gs : list (group2 T)) :
    np_split (layout2 gs) 4 = Ok [arr2 (map g_left gs); arr2 (map g_right gs);
                                  arr2 (map g_top gs); arr2 (map g_bottom gs)].
  Proof.
    unfold layout2, arr2. rewrite !map_app.
    pose proof (np_split_blocks 2 (length gs)
      [map row2 (map g_left gs); map row2 (map g_right gs); map row2 (map g_top gs); map row2 (map g_bottom gs)]) as H.
    cbn [concat length map] in H. rewrite app_nil_r in H. apply H; [discriminate|].
    repeat constructor; rewrite !map_length; reflexivity.
  Qed.

  Lemma split_layout3 (gs : list (group3 T)) :
    np_split (layout3 gs) 6 = Ok [arr3 (map h_left gs); arr3 (map h_right gs);
                                  arr3 (map h_top gs); arr3 (map h_bottom gs);
                                  arr3 (map h_front gs); arr3 (map h_back gs)].
  Proof.
    unfold layout3, arr3. rewrite !map_app.
    pose proof (np_split_blocks 3 (length gs)
      [map row3 (map h_left gs); map row3 (map h_right gs); map row3 (map h_top gs);
       map row3 (map h_bottom gs); map row3 (map h_front gs); map row3 (map h_back gs)]) as H.
    cbn [concat length map] in H. rewrite app_nil_r in H. apply H; [discriminate|].
    repeat constructor; rewrite !map_length; reflexivity.
  Qed.

  (** Per-group quantities. *)
  Lemma drl2 gs : compute_delta_right_left O (layout2 gs) 4 = Ok (arr2 (map (rl2 O) gs)).
  Proof. unfold compute_delta_right_left. rewrite split_layout2. apply mat_map2_arr2. Qed.
  Lemma dtb2 gs : compute_delta_top_bottom O (layout2 gs) 4 = Ok (arr2 (map (tb2 O) gs)).
  Proof. unfold compute_delta_top_bottom. rewrite split_layout2. apply mat_map2_arr2. Qed.
  Lemma dfb2 gs : compute_delta_front_back O (layout2 gs) 4 = Ok (arr2 (map (tb2 O) gs)).
  Proof. unfold compute_delta_front_back. rewrite split_layout2. cbn [bind rev app]. apply mat_map2_arr2. Qed.
  Lemma cen2 gs : compute_centroid O (layout2 gs) 4 = Ok (arr2 (map (mean2 O) gs)).
  Proof.
    unfold compute_centroid. rewrite split_layout2. cbn [bind mean_parts mat_sum].
    rewrite mat_map2_arr2. cbn [bind]. rewrite mat_map2_arr2. cbn [bind].
    rewrite mat_map2_arr2. cbn [bind]. rewrite mat_map_arr2. reflexivity.
  Qed.

  Lemma drl3 gs : compute_delta_right_left O (layout3 gs) 6 = Ok (arr3 (map (rl3 O) gs)).
  Proof. unfold compute_delta_right_left. rewrite split_layout3. apply mat_map2_arr3. Qed.
  Lemma dtb3 gs : compute_delta_top_bottom O (layout3 gs) 6 = Ok (arr3 (map (tb3 O) gs)).
  Proof. unfold compute_delta_top_bottom. rewrite split_layout3. apply mat_map2_arr3. Qed.
  Lemma dfb3 gs : compute_delta_front_back O (layout3 gs) 6 = Ok (arr3 (map (fb3 O) gs)).
  Proof. unfold compute_delta_front_back. rewrite split_layout3. cbn [bind rev app]. apply mat_map2_arr3. Qed.
  Lemma cen3 gs : compute_centroid O (layout3 gs) 6 = Ok (arr3 (map (mean3 O) gs)).
  Proof.
    unfold compute_centroid. rewrite split_layout3. cbn [bind mean_parts mat_sum].
    rewrite mat_map2_arr3. cbn [bind]. rewrite mat_map2_arr3. cbn [bind].
    rewrite mat_map2_arr3. cbn [bind]. rewrite mat_map2_arr3. cbn [bind].
    rewrite mat_map2_arr3. cbn [bind]. rewrite mat_map_arr3. reflexivity.
  Qed.

  Lemma nrows_layout2 (gs : list (group2 T)) : nrows (layout2 gs) = 4 * length gs.
  Proof. unfold nrows, layout2, arr2. cbn [mrows]. rewrite !map_app, !app_length, !map_length. lia. Qed.
  Lemma nrows_layout3 (gs : list (group3 T)) : nrows (layout3 gs) = 6 * length gs.
  Proof. unfold nrows, layout3, arr3. cbn [mrows]. rewrite !map_app, !app_length, !map_length. lia. Qed.

  Definition mk2 (gs : list (group2 T)) : particles T :=
    Particles (layout2 gs) (arr2 (map (tb2 O) gs)) (arr2 (map (rl2 O) gs)) (Mat 0 []) (arr2 (map (mean2 O) gs)) 4.
  Definition mk3 (gs : list (group3 T)) : particles T :=
    Particles (layout3 gs) (arr3 (map (tb3 O) gs)) (arr3 (map (rl3 O) gs)) (arr3 (map (fb3 O) gs))
      (arr3 (map (mean3 O) gs)) 6.

  Lemma mk_particles_2 gs : mk_particles O (layout2 gs) = Ok (mk2 gs).
  Proof.
    unfold mk_particles. rewrite nrows_layout2, Nat.mul_comm, Nat.mod_mul by lia.
    cbn [Nat.eqb orb]. change (mcols (layout2 gs) * 2) with 4. change (mcols (layout2 gs) =? 3) with false.
    rewrite dtb2, drl2, cen2. reflexivity.
  Qed.
  Lemma mk_particles_3 gs : mk_particles O (layout3 gs) = Ok (mk3 gs).
  Proof.
    unfold mk_particles. rewrite nrows_layout3.
    replace ((6 * length gs) mod 6 =? 0) with true
      by (rewrite Nat.mul_comm, Nat.mod_mul by lia; reflexivity).
    rewrite orb_true_r. change (mcols (layout3 gs) * 2) with 6. change (mcols (layout3 gs) =? 3) with true.
    cbv iota. rewrite dtb3, drl3, dfb3, cen3. reflexivity.
  Qed.

  Lemma len_2 gs : particles_len (mk2 gs) = length gs.
  Proof.
    unfold particles_len. cbn [positions num_neighbors mk2]. rewrite nrows_layout2, Nat.mul_comm.
    apply Nat.div_mul. lia.
  Qed.
  Lemma len_3 gs : particles_len (mk3 gs) = length gs.
  Proof.
    unfold particles_len. cbn [positions num_neighbors mk3]. rewrite nrows_layout3, Nat.mul_comm.
    apply Nat.div_mul. lia.
  Qed.

  (** C13 *)
  Lemma layout_2d gs : exists p, mk_particles O (layout2 gs) = Ok p /\
    particles_len p = length gs /\ positions p = layout2 gs /\
    delta_right_left O p = Ok (arr2 (map (rl2 O) gs)) /\ initial_delta_right_left p = arr2 (map (rl2 O) gs) /\
    delta_top_bottom O p = Ok (arr2 (map (tb2 O) gs)) /\ initial_delta_top_bottom p = arr2 (map (tb2 O) gs) /\
    centroid O p = Ok (arr2 (map (mean2 O) gs)) /\ initial_centroid p = arr2 (map (mean2 O) gs).
  Proof.
    exists (mk2 gs). split; [apply mk_particles_2|]. split; [apply len_2|]. split; [reflexivity|].
    split; [apply drl2|]. split; [reflexivity|]. split; [apply dtb2|]. split; [reflexivity|].
    split; [apply cen2|reflexivity].
  Qed.
  Lemma layout_3d gs : exists p, mk_particles O (layout3 gs) = Ok p /\
    particles_len p = length gs /\ positions p = layout3 gs /\
    delta_right_left O p = Ok (arr3 (map (rl3 O) gs)) /\ initial_delta_right_left p = arr3 (map (rl3 O) gs) /\
    delta_top_bottom O p = Ok (arr3 (map (tb3 O) gs)) /\ initial_delta_top_bottom p = arr3 (map (tb3 O) gs) /\
    delta_front_back O p = Ok (arr3 (map (fb3 O) gs)) /\ initial_delta_front_back p = arr3 (map (fb3 O) gs) /\
    centroid O p = Ok (arr3 (map (mean3 O) gs)) /\ initial_centroid p = arr3 (map (mean3 O) gs).
  Proof.
    exists (mk3 gs). split; [apply mk_particles_3|]. split; [apply len_3|]. split; [reflexivity|].
    split; [apply drl3|]. split; [reflexivity|]. split; [apply dtb3|]. split; [reflexivity|].
    split; [apply dfb3|]. split; [reflexivity|]. split; [apply cen3|reflexivity].
  Qed.

  (** C17 *)
  Lemma front_back_2d gs : exists p, mk_particles O (layout2 gs) = Ok p /\
    delta_front_back O p = Ok (arr2 (map (tb2 O) gs)) /\ initial_delta_front_back p = Mat 0 [].
  Proof. exists (mk2 gs). split; [apply mk_particles_2|]. split; [apply dfb2|reflexivity]. Qed.

  (** C15: every well-formed array with a divisible row count is a block layout. *)
  Lemma rows_are_points2 (l : list (list T)) : Forall (fun r => length r = 2) l ->
    exists ps, l = map row2 ps.
  Proof.
    induction 1 as [|r l Hr H [ps ->]]; [exists []; reflexivity|].
    destruct r as [|x [|y [|? ?]]]; try discriminate. exists ((x, y) :: ps). reflexivity.
  Qed.
  Lemma rows_are_points3 (l : list (list T)) : Forall (fun r => length r = 3) l ->
    exists ps, l = map row3 ps.
  Proof.
    induction 1 as [|r l Hr H [ps ->]]; [exists []; reflexivity|].
    destruct r as [|x [|y [|z [|? ?]]]]; try discriminate. exists ((x, y, z) :: ps). reflexivity.
  Qed.

  Lemma zip4 {A B} (mk : A -> A -> A -> A -> B) (n : nat) (a b c d : list A) :
    length a = n -> length b = n -> length c = n -> length d = n ->
    exists l : list (A * A * A * A), length l = n /\
      a = map (fun t => fst (fst (fst t))) l /\ b = map (fun t => snd (fst (fst t))) l /\
      c = map (fun t => snd (fst t)) l /\ d = map snd l.
  Proof.
    revert a b c d. induction n as [|n IH]; intros a b c d Ha Hb Hc Hd.
    - destruct a, b, c, d; try discriminate. exists []. repeat split.
    - destruct a as [|xa a], b as [|xb b], c as [|xc c], d as [|xd d]; try discriminate.
      cbn in Ha, Hb, Hc, Hd.
      destruct (IH a b c d) as (l & Hl & -> & -> & -> & ->); try lia.
      exists ((xa, xb, xc, xd) :: l). cbn. repeat split. lia.
  Qed.

  Lemma is_layout2 (m : mat T) : wf_mat m -> mcols m = 2 -> nrows m mod 4 = 0 ->
    exists gs, m = layout2 gs.
  Proof.
    intros Hwf Hc Hm. destruct m as [c l]. cbn in Hc. subst c. unfold wf_mat in Hwf. cbn in Hwf.
    destruct (rows_are_points2 l Hwf) as [ps ->]. unfold nrows in Hm. cbn [mrows] in Hm. rewrite map_length in Hm.
    set (n := length ps / 4).
    assert (Hn : length ps = 4 * n) by (unfold n; pose proof (Nat.div_mod (length ps) 4); lia). clearbody n.
    destruct (chunks_spec 4 n ps Hn) as (H1 & _ & H3). cbn [chunks] in H1, H3.
    revert H1 H3. generalize (firstn n ps) as a. intros a.
    generalize (firstn n (skipn n ps)) as b. intros b.
    generalize (firstn n (skipn n (skipn n ps))) as c. intros c.
    generalize (firstn n (skipn n (skipn n (skipn n ps)))) as d. intros d H1 H3.
    repeat match goal with H : Forall _ (_ :: _) |- _ => inversion_clear H end.
    destruct (zip4 (fun w x y z : T * T => Group2 w x y z) n a b c d) as (l & Hl & -> & -> & -> & ->); try lia.
    exists (map (fun t => Group2 (fst (fst (fst t))) (snd (fst (fst t))) (snd (fst t)) (snd t)) l).
    unfold layout2, arr2. rewrite <- H1. cbn [concat]. rewrite app_nil_r, !map_map. reflexivity.
  Qed.

  Lemma is_layout3 (m : mat T) : wf_mat m -> mcols m = 3 -> nrows m mod 6 = 0 ->
    exists gs, m = layout3 gs.
  Proof.
    intros Hwf Hc Hm. destruct m as [c l]. cbn in Hc. subst c. unfold wf_mat in Hwf. cbn in Hwf.
    destruct (rows_are_points3 l Hwf) as [ps ->]. unfold nrows in Hm. cbn [mrows] in Hm. rewrite map_length in Hm.
    set (n := length ps / 6).
    assert (Hn : length ps = 6 * n) by (unfold n; pose proof (Nat.div_mod (length ps) 6); lia). clearbody n.
    destruct (chunks_spec 6 n ps Hn) as (H1 & _ & H3). cbn [chunks] in H1, H3.
    revert H1 H3. generalize (firstn n ps) as a. intros a.
    generalize (firstn n (skipn n ps)) as b. intros b.
    generalize (firstn n (skipn n (skipn n ps))) as c. intros c.
    generalize (firstn n (skipn n (skipn n (skipn n ps)))) as d. intros d.
    generalize (firstn n (skipn n (skipn n (skipn n (skipn n ps))))) as e. intros e.
    generalize (firstn n (skipn n (skipn n (skipn n (skipn n (skipn n ps)))))) as f. intros f H1 H3.
    repeat match goal with H : Forall _ (_ :: _) |- _ => inversion_clear H end.
    destruct (zip4 (fun w x y z : T * T * T => (w, x, y, z)) n a b c d) as (l & Hl & -> & -> & -> & ->); try lia.
    destruct (zip4 (fun w x y z : T * T * T => (w, x, y, z)) n e f e f) as (l' & Hl' & -> & -> & _ & _); try lia.
    set (ll := combine l l').
    assert (E1 : l = map fst ll /\ l' = map snd ll).
    { unfold ll. clear - Hl Hl'. rewrite <- Hl' in Hl. clear Hl'. revert l' Hl.
      induction l as [|x l IH]; intros [|y l'] H; try discriminate; [split; reflexivity|].
      cbn in *. destruct (IH l') as [<- <-]; [lia|]. split; reflexivity. }
    destruct E1 as [E1 E2].
    exists (map (fun t => Group3 (fst (fst (fst (fst t)))) (snd (fst (fst (fst t)))) (snd (fst (fst t))) (snd (fst t))
              (fst (fst (fst (snd t)))) (snd (fst (fst (snd t))))) ll).
    unfold layout3, arr3. rewrite <- H1. cbn [concat]. rewrite app_nil_r. rewrite E1, E2, !map_map. reflexivity.
  Qed.

  Lemma accept_2d (m : mat T) : wf_mat m -> mcols m = 2 ->
    ((exists p, mk_particles O m = Ok p) <-> nrows m mod 4 = 0) /\
    (nrows m mod 4 <> 0 -> mk_particles O m = Err AssertionError \/ mk_particles O m = Err ValueError).
  Proof.
    intros Hwf Hc.
    assert (Hbad : nrows m mod 4 <> 0 -> mk_particles O m = Err AssertionError \/ mk_particles O m = Err ValueError).
    { intro H. unfold mk_particles. apply Nat.eqb_neq in H. rewrite H. cbn [orb].
      destruct (nrows m mod 6 =? 0); [right|left; reflexivity].
      unfold compute_delta_top_bottom, np_split. rewrite Hc. cbn [Nat.mul Nat.add].
      rewrite H. reflexivity. }
    split; [|exact Hbad]. split.
    - intros [p Hp]. destruct (Nat.eq_dec (nrows m mod 4) 0) as [|Hne]; [assumption|].
      destruct (Hbad Hne) as [E|E]; rewrite E in Hp; discriminate.
    - intro H. destruct (is_layout2 m Hwf Hc H) as [gs ->]. exists (mk2 gs). apply mk_particles_2.
  Qed.

  Lemma accept_3d (m : mat T) : wf_mat m -> mcols m = 3 ->
    ((exists p, mk_particles O m = Ok p) <-> nrows m mod 6 = 0) /\
    (nrows m mod 6 <> 0 -> mk_particles O m = Err AssertionError \/ mk_particles O m = Err ValueError).
  Proof.
    intros Hwf Hc.
    assert (Hbad : nrows m mod 6 <> 0 -> mk_particles O m = Err AssertionError \/ mk_particles O m = Err ValueError).
    { intro H. unfold mk_particles. apply Nat.eqb_neq in H. rewrite H, orb_false_r.
      destruct (nrows m mod 4 =? 0); [right|left; reflexivity].
      unfold compute_delta_top_bottom, np_split. rewrite Hc. cbn [Nat.mul Nat.add].
      rewrite H. reflexivity. }
    split; [|exact Hbad]. split.
    - intros [p Hp]. destruct (Nat.eq_dec (nrows m mod 6) 0) as [|Hne]; [assumption|].
      destruct (Hbad Hne) as [E|E]; rewrite E in Hp; discriminate.
    - intro H. destruct (is_layout3 m Hwf Hc H) as [gs ->]. exists (mk3 gs). apply mk_particles_3.
  Qed.
End Layout.
