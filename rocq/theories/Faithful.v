(** C87: unstructured interpolators pass samples and queries to SciPy unchanged. *)
From Coq Require Import Lia.
From Verif Require Import Base Num NdArray Integrate GridInterp Interpolate SpecSeeds SpecGrid SpecKernel SpecIntegrate SpecInterp
  NdFacts GridInterpFacts HighPerfFacts HighPerfReal IntegrateMisc ScipyFacts.

Lemma combine_fst_snd {A B} (l : list (A * B)) : combine (map fst l) (map snd l) = l.
Proof. induction l as [|[a b] l IH]; cbn; congruence. Qed.

Section Faithful.
  Context {T : Type} (O : ops T) (scp : scipy T).

  Lemma map_nth_seq {A B} (f : A -> B) (l : list A) :
    mapr (fun j => get (map f l) j) (seq 0 (length l)) = Ok (map f l).
  Proof.
    assert (G : forall (l : list B) k, mapr (fun j => get l j) (seq 0 k) = if k <=? length l then Ok (firstn k l) else Err IndexError).
    { clear. intros l k. induction k as [|k IH]; [reflexivity|].
      assert (Ha : forall (g : nat -> res B) u v, mapr g (u ++ v) = let* a := mapr g u in let* b := mapr g v in Ok (a ++ b)).
      { intros g u v. induction u as [|x u IHu]; cbn; [destruct (mapr g v); reflexivity|].
        destruct (g x); cbn; [|reflexivity]. rewrite IHu. destruct (mapr g u); cbn; [|reflexivity].
        destruct (mapr g v); reflexivity. }
      rewrite seq_S, Ha, IH. cbn [Nat.add mapr].
      destruct (Nat.leb_spec k (length l)), (Nat.leb_spec (S k) (length l)); try lia; try reflexivity.
      - unfold get. destruct (nth_error l k) eqn:E; [|apply nth_error_None in E; lia]. cbn. f_equal.
        clear IH Ha H H0. revert k E. induction l as [|x l IH]; intros [|k] E; try discriminate; cbn in *.
        + congruence.
        + f_equal. apply IH, E.
      - unfold get. destruct (nth_error l k) eqn:E; [|reflexivity].
        assert (k < length l) by (apply nth_error_Some; congruence). lia. }
    rewrite G, map_length, Nat.leb_refl. f_equal. rewrite <- (map_length f l). apply firstn_all.
  Qed.

  Lemma map_pair {A B C} (f : A -> B) (g : A -> C) l (P : A -> B * C) : (forall a, P a = (f a, g a)) ->
    combine (map f l) (map g l) = map P l.
  Proof. intros H. induction l; cbn; [reflexivity|]. rewrite H, IHl. reflexivity. Qed.

  Lemma transpose_cols2 (ps : list (T * T)) : transpose2 (cols2 ps) = Ok (arr2 ps).
  Proof.
    unfold transpose2. cbn [cols2 mcols nrows].
    assert (E : mapr (get_col (cols2 ps)) (seq 0 (length ps)) = Ok (map row2 ps)).
    { apply mapr_Forall2. assert (G : forall l k, Forall2 (fun a b => get_col (cols2 (firstn k ps ++ l)) a = Ok b) (seq (length (firstn k ps)) (length l)) (map row2 l)).
      { clear. intros l k. generalize (firstn k ps). intros f. revert f. induction l as [|[x y] l IH]; intros f; [constructor|].
        cbn [length seq map]. constructor.
        - unfold get_col. cbn [cols2 mcols]. rewrite app_length. cbn [length].
          rewrite (proj2 (Nat.ltb_lt _ _)) by lia. cbn [cols2 cols3 mrows mapr]. unfold get.
          rewrite !map_app, !nth_error_app2, !map_length, Nat.sub_diag by (rewrite map_length; lia). reflexivity.
        - specialize (IH (f ++ [(x, y)])). rewrite app_length in IH. cbn [length] in IH. rewrite Nat.add_1_r in IH.
          rewrite <- app_assoc in IH. exact IH. }
      exact (G ps 0). }
    rewrite E. reflexivity.
  Qed.

  Lemma transpose_cols3 (ps : list (T * T * T)) : transpose2 (cols3 ps) = Ok (arr3 ps).
  Proof.
    unfold transpose2. cbn [cols3 mcols nrows].
    assert (E : mapr (get_col (cols3 ps)) (seq 0 (length ps)) = Ok (map row3 ps)).
    { apply mapr_Forall2. assert (G : forall l k, Forall2 (fun a b => get_col (cols3 (firstn k ps ++ l)) a = Ok b) (seq (length (firstn k ps)) (length l)) (map row3 l)).
      { clear. intros l k. generalize (firstn k ps). intros f. revert f. induction l as [|[[x y] z] l IH]; intros f; [constructor|].
        cbn [length seq map]. constructor.
        - unfold get_col. cbn [cols3 mcols]. rewrite app_length. cbn [length].
          rewrite (proj2 (Nat.ltb_lt _ _)) by lia. cbn [cols2 cols3 mrows mapr]. unfold get.
          rewrite !map_app, !nth_error_app2, !map_length, Nat.sub_diag by (rewrite map_length; lia). reflexivity.
        - specialize (IH (f ++ [(x, y, z)])). rewrite app_length in IH. cbn [length] in IH. rewrite Nat.add_1_r in IH.
          rewrite <- app_assoc in IH. exact IH. }
      exact (G ps 0). }
    rewrite E. reflexivity.
  Qed.

  Lemma complex_cols2 (vs : list (T * T)) : to_complex (cols2 vs) = Ok vs.
  Proof. unfold to_complex, cols2. cbn [mrows get nth_error bind]. unfold get. cbn. rewrite combine_fst_snd. reflexivity. Qed.

  Lemma complex_cols3 (vs : list (T * T * T)) : to_complex (cols3 vs) = Ok (map fst vs).
  Proof.
    unfold to_complex, cols3. cbn [mrows]. unfold get. cbn. f_equal. apply map_pair. intros [[a b] c]. reflexivity.
  Qed.

  Lemma data_2d (ps vs : list (T * T)) {A} (k : mat T -> res A) : length vs = length ps ->
    (let* c := to_complex (cols2 vs) in let* pt := transpose2 (cols2 ps) in
     let* _ := check_values (cols2 ps) c in let* t := k pt in Ok (t, c)) =
    (let* t := k (arr2 ps) in Ok (t, vs)).
  Proof.
    intros L. rewrite complex_cols2, transpose_cols2. cbn [bind]. unfold check_values. cbn [cols2 mcols].
    rewrite L, Nat.eqb_refl. reflexivity.
  Qed.

  Lemma data_3d (ps vs : list (T * T * T)) {A} (k : mat T -> res A) : length vs = length ps ->
    (let* c := to_complex (cols3 vs) in let* pt := transpose2 (cols3 ps) in
     let* _ := check_values (cols3 ps) c in let* t := k pt in Ok (t, c)) =
    (let* t := k (arr3 ps) in Ok (t, map fst vs)).
  Proof.
    intros L. rewrite complex_cols3, transpose_cols3. cbn [bind]. unfold check_values. cbn [cols3 mcols].
    rewrite map_length, L, Nat.eqb_refl. reflexivity.
  Qed.

  Lemma near_data {A} (chk : mat T -> res unit) pt c (x : A) :
    (let* _ := chk pt in Ok (pt, c)) = (let* t := (let* _ := chk pt in Ok pt) in Ok (t, c)) :> res (mat T * A).
  Proof. destruct (chk pt); reflexivity. Qed.

  Lemma fill_2d mem (pts uv : list (T * T)) : length uv = length pts ->
    set_complex (empty_like (mem : nat -> nat -> T) (arr2 pts)) uv = Ok (arr2 uv).
  Proof.
    intros L. rewrite (empty_arr2 (fun _ => mem)). apply set_complex2_ok. rewrite map_length, seq_length. exact L.
  Qed.

  (** Two dimensions. *)
  Lemma cubic_faithful name fn ps vs t : case_variant name "cubic" -> length vs = length ps ->
    delaunay scp (arr2 ps) = Ok t ->
    exists i i1, create_interpolator O scp name None fn = Ok i /\
      update O scp i (cols2 vs) (Some (cols2 ps)) = (i1, Ok tt) /\
      forall mem pts uv, ct_eval scp t vs (arr2 pts) = Ok uv -> length uv = length pts ->
        interpolate O scp mem i1 (arr2 pts) = (i1, Ok (arr2 uv)).
  Proof.
    intros N L D. destruct (create_spec O scp name None fn) as (_ & _ & Hc & _).
    eexists. eexists. split; [apply Hc, N|]. cbn [update]. unfold base_update, cubic_init. cbn [u_velocities u_points nrows cols2 mrows length Nat.eqb].
    fold (cols2 ps). fold (cols2 vs). rewrite (data_2d ps vs (delaunay scp) L), D. cbn [bind]. split; [reflexivity|].
    intros mem pts uv E Luv. cbn [interpolate]. unfold cubic_interpolate. cbn [u_interp]. rewrite E. cbn [bind].
    rewrite fill_2d by exact Luv. reflexivity.
  Qed.

  Lemma linear_faithful name fn ps vs t : case_variant name "linear" -> length vs = length ps ->
    delaunay scp (arr2 ps) = Ok t ->
    exists i i1, create_interpolator O scp name None fn = Ok i /\
      update O scp i (cols2 vs) (Some (cols2 ps)) = (i1, Ok tt) /\
      forall mem pts uv, lin_c scp t vs (arr2 pts) = Ok uv -> length uv = length pts -> length pts <> 3 ->
        interpolate O scp mem i1 (arr2 pts) = (i1, Ok (arr2 uv)).
  Proof.
    intros N L D. destruct (create_spec O scp name None fn) as (_ & _ & _ & Hl & _).
    eexists. eexists. split; [apply Hl, N|]. cbn [update]. unfold base_update, linear_init. cbn [u_velocities u_points nrows cols2 mrows length Nat.eqb].
    fold (cols2 ps). fold (cols2 vs). rewrite (data_2d ps vs (delaunay scp) L), D. cbn [bind]. split; [reflexivity|].
    intros mem pts uv E Luv N3. cbn [interpolate]. unfold linear_interpolate. cbn [u_interp]. rewrite E. cbn [bind].
    rewrite fill_2d by exact Luv. cbn [bind]. rewrite arr2_nrows. destruct (Nat.eqb_spec (length pts) 3); [contradiction|reflexivity].
  Qed.

  Lemma nearest_faithful name fn ps vs : case_variant name "nearest" -> length vs = length ps ->
    near_check scp (arr2 ps) = Ok tt ->
    exists i i1, create_interpolator O scp name None fn = Ok i /\
      update O scp i (cols2 vs) (Some (cols2 ps)) = (i1, Ok tt) /\
      forall mem pts uv, near_c scp (arr2 ps) vs (arr2 pts) = Ok uv -> length uv = length pts -> length pts <> 3 ->
        interpolate O scp mem i1 (arr2 pts) = (i1, Ok (arr2 uv)).
  Proof.
    intros N L D. destruct (create_spec O scp name None fn) as (_ & _ & _ & _ & Hn & _).
    eexists. eexists. split; [apply Hn, N|]. cbn [update]. unfold base_update, nearest_init. cbn [u_velocities u_points nrows cols2 mrows length Nat.eqb].
    fold (cols2 ps). fold (cols2 vs).
    rewrite complex_cols2, transpose_cols2. cbn [bind]. unfold check_values. cbn [cols2 mcols]. rewrite L, Nat.eqb_refl. cbn [bind].
    rewrite D. cbn [bind]. split; [reflexivity|].
    intros mem pts uv E Luv N3. cbn [interpolate]. unfold nearest_interpolate. cbn [u_interp]. rewrite E. cbn [bind].
    rewrite fill_2d by exact Luv. cbn [bind]. rewrite arr2_nrows. destruct (Nat.eqb_spec (length pts) 3); [contradiction|reflexivity].
  Qed.

  (** Three dimensions. *)
  Lemma fill_3d (mem : memory) (pts : list (T * T * T)) uv : length uv = length pts ->
    set_complex (empty_like (mem 0) (arr3 pts)) uv = Ok (arr3 (stale_third mem uv)).
  Proof.
    intros L. rewrite empty_arr3, set_complex3_ok by (rewrite map_length, seq_length; exact L).
    unfold stale_third. rewrite zip_map_l, L. reflexivity.
  Qed.

  Lemma fill_3d_w (mem : memory) (uv : list (T * T)) (ws : list T) : length uv = 3 -> length ws = 3 ->
    set_col (arr3 (stale_third mem uv)) 2 ws = Ok (arr3 (combine uv ws)).
  Proof.
    destruct uv as [|[a b] [|[c d] [|[e f] [|]]]]; try discriminate. destruct ws as [|x [|y [|z [|]]]]; try discriminate.
    reflexivity.
  Qed.

  Lemma linear_faithful_3d name fn ps vs t : case_variant name "linear" -> length vs = length ps ->
    delaunay scp (arr3 ps) = Ok t ->
    exists i i1, create_interpolator O scp name None fn = Ok i /\
      update O scp i (cols3 vs) (Some (cols3 ps)) = (i1, Ok tt) /\
      forall mem pts uv ws, lin_c scp t (map fst vs) (arr3 pts) = Ok uv -> length uv = length pts ->
        lin_r scp t (map snd vs) (arr3 pts) = Ok ws -> length ws = length pts ->
        interpolate O scp mem i1 (arr3 pts) =
          (i1, Ok (arr3 (if length pts =? 3 then combine uv ws else stale_third mem uv))).
  Proof.
    intros N L D. destruct (create_spec O scp name None fn) as (_ & _ & _ & Hl & _).
    eexists. eexists. split; [apply Hl, N|]. cbn [update]. unfold base_update, linear_init. cbn [u_velocities u_points nrows cols3 mrows length Nat.eqb].
    fold (cols3 ps). fold (cols3 vs). rewrite (data_3d ps vs (delaunay scp) L), D. cbn [bind]. unfold get. cbn [nth_error bind].
    unfold check_values. cbn [cols3 mcols]. rewrite map_length, L, Nat.eqb_refl. cbn [bind]. split; [reflexivity|].
    intros mem pts uv ws E Luv Ew Lw. cbn [interpolate]. unfold linear_interpolate. cbn [u_interp u_interp_z]. rewrite E. cbn [bind].
    rewrite fill_3d by exact Luv. cbn [bind]. rewrite arr3_nrows. destruct (Nat.eqb_spec (length pts) 3) as [E3|E3]; [|reflexivity].
    rewrite Ew. cbn [bind]. rewrite fill_3d_w by congruence. reflexivity.
  Qed.

  Lemma nearest_faithful_3d name fn ps vs : case_variant name "nearest" -> length vs = length ps ->
    near_check scp (arr3 ps) = Ok tt ->
    exists i i1, create_interpolator O scp name None fn = Ok i /\
      update O scp i (cols3 vs) (Some (cols3 ps)) = (i1, Ok tt) /\
      forall mem pts uv ws, near_c scp (arr3 ps) (map fst vs) (arr3 pts) = Ok uv -> length uv = length pts ->
        near_r scp (arr3 ps) (map snd vs) (arr3 pts) = Ok ws -> length ws = length pts ->
        interpolate O scp mem i1 (arr3 pts) =
          (i1, Ok (arr3 (if length pts =? 3 then combine uv ws else stale_third mem uv))).
  Proof.
    intros N L D. destruct (create_spec O scp name None fn) as (_ & _ & _ & _ & Hn & _).
    eexists. eexists. split; [apply Hn, N|]. cbn [update]. unfold base_update, nearest_init. cbn [u_velocities u_points nrows cols3 mrows length Nat.eqb].
    fold (cols3 ps). fold (cols3 vs).
    rewrite complex_cols3, transpose_cols3. cbn [bind]. unfold check_values. cbn [cols3 mcols]. rewrite !map_length, L, Nat.eqb_refl. cbn [bind].
    rewrite D. cbn [bind]. unfold get. cbn [nth_error bind]. rewrite map_length, L, Nat.eqb_refl. cbn [bind]. split; [reflexivity|].
    intros mem pts uv ws E Luv Ew Lw. cbn [interpolate]. unfold nearest_interpolate. cbn [u_interp u_interp_z]. rewrite E. cbn [bind].
    rewrite fill_3d by exact Luv. cbn [bind]. rewrite arr3_nrows. destruct (Nat.eqb_spec (length pts) 3) as [E3|E3]; [|reflexivity].
    rewrite Ew. cbn [bind]. rewrite fill_3d_w by congruence. reflexivity.
  Qed.

  (** 'cubic' rejects points in three dimensions. *)
  Lemma cubic_3d name fn v p i : case_variant name "cubic" -> create_interpolator O scp name None fn = Ok i ->
    nrows p = 3 -> snd (update O scp i v (Some p)) = Err ValueError.
  Proof.
    intros N C Hp. destruct (create_spec O scp name None fn) as (_ & _ & Hc & _). rewrite (Hc N) in C. injection C as <-.
    cbn [update]. unfold base_update, cubic_init. cbn [u_velocities u_points]. rewrite Hp. reflexivity.
  Qed.
End Faithful.
