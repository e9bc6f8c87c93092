(** Lemmas about arrays and interpolators whose values are multiplied by a number. *)
From Coq Require Import Lia Reals Lra.
From Verif Require Import Base Num NdArray Particles Jacobian Ftle Integrate GridInterp Interpolate Readers DataSource Solver FileRun
  SpecUnits SpecTimescale UnitsFacts.

Open Scope nat_scope.

Definition rmap {A B} (g : A -> B) (r : res A) : res B := match r with Ok x => Ok (g x) | Err e => Err e end.

Section Arrays.
  Context {A B : Type} (f : A -> B).
  Notation fm := (mat_map f).
  Notation fn := (nd_values f).

  Lemma rmap_bind {X Y Z} (g : Y -> Z) (r : res X) (k : X -> res Y) : rmap g (bind r k) = bind r (fun x => rmap g (k x)).
  Proof. destruct r; reflexivity. Qed.
  Lemma bind_rmap {X Y Z} (g : X -> Y) (r : res X) (k : Y -> res Z) : bind (rmap g r) k = bind r (fun x => k (g x)).
  Proof. destruct r; reflexivity. Qed.
  Lemma bind_ext' {X Y} (r : res X) (k k' : X -> res Y) : (forall x, k x = k' x) -> bind r k = bind r k'.
  Proof. intro H. destruct r; cbn; auto. Qed.

  Lemma get_map (l : list A) i : get (map f l) i = rmap f (get l i).
  Proof. unfold get. rewrite nth_error_map. destruct (nth_error l i); reflexivity. Qed.
  Lemma cget_map (l : list A) i : cget (map f l) i = rmap f (cget l i).
  Proof. unfold cget. rewrite nth_error_map. destruct (nth_error l i); reflexivity. Qed.
  Lemma ptr_map (l : list A) k : ptr_get (map f l) k = rmap f (ptr_get l k).
  Proof. unfold ptr_get. destruct (k <? 0)%Z; [reflexivity|apply cget_map]. Qed.
  Lemma mapr_rmap {X} (g : X -> res A) l : mapr (fun x => rmap f (g x)) l = rmap (map f) (mapr g l).
  Proof. induction l as [|x l IH]; cbn; [reflexivity|]. rewrite IH. destruct (g x); cbn; [|reflexivity]. destruct (mapr g l); reflexivity. Qed.
  Lemma mapr_ext {X Y} (g g' : X -> res Y) l : (forall x, g x = g' x) -> mapr g l = mapr g' l.
  Proof. intro H. induction l as [|x l IH]; cbn; [reflexivity|]. rewrite H, IH. reflexivity. Qed.

  Lemma nrows_map (m : mat A) : nrows (fm m) = nrows m.
  Proof. unfold nrows. cbn. apply map_length. Qed.
  Lemma nd_map_mat (m : mat A) : nd_of_mat (fm m) = fn (nd_of_mat m).
  Proof. unfold nd_of_mat, nd_values. rewrite nrows_map. cbn [shape NdArray.data mcols mrows mat_map]. rewrite concat_map. reflexivity. Qed.
  Lemma nd_map_list (l : list A) : nd_of_list (map f l) = fn (nd_of_list l).
  Proof. unfold nd_of_list, nd_values. cbn. rewrite map_length. reflexivity. Qed.
  Lemma nd_get_map (a : nd A) ix : nd_get (fn a) ix = rmap f (nd_get a ix).
  Proof. unfold nd_get. cbn. destruct (in_bounds _ _); [apply get_map|reflexivity]. Qed.
  Lemma nd_build_map s (g : list nat -> res A) : nd_build s (fun ix => rmap f (g ix)) = rmap fn (nd_build s g).
  Proof. unfold nd_build. rewrite mapr_rmap. destruct (mapr g _); reflexivity. Qed.
  Lemma nd_build_ext {X} s (g g' : list nat -> res X) : (forall ix, g ix = g' ix) -> nd_build s g = nd_build s g'.
  Proof. intro H. unfold nd_build. rewrite (mapr_ext g g' _ H). reflexivity. Qed.
  Lemma reshape_c_map (a : nd A) s : reshape_c (fn a) s = rmap fn (reshape_c a s).
  Proof. unfold reshape_c. cbn. destruct (_ =? _); reflexivity. Qed.
  Lemma reshape_f_map (a : nd A) s : reshape_f (fn a) s = rmap fn (reshape_f a s).
  Proof.
    unfold reshape_f. cbn [shape nd_values]. destruct (_ =? _); [|reflexivity]. rewrite <- nd_build_map. apply nd_build_ext. intro. apply nd_get_map.
  Qed.
  Lemma transpose_map (a : nd A) : transpose_0213 (fn a) = rmap fn (transpose_0213 a).
  Proof.
    unfold transpose_0213. cbn [shape nd_values]. destruct (shape a) as [|c [|p [|q [|r [|]]]]]; try reflexivity. rewrite <- nd_build_map.
    apply nd_build_ext. intros [|d [|i [|j [|k [|]]]]]; try reflexivity. apply nd_get_map.
  Qed.
  Lemma subarray_map (a : nd A) i : subarray (fn a) i = rmap fn (subarray a i).
  Proof.
    unfold subarray. cbn [shape nd_values]. destruct (shape a); [reflexivity|]. destruct (_ <? _); [|reflexivity]. cbn.
    rewrite skipn_map, firstn_map. reflexivity.
  Qed.
  Lemma set_nth_map j v (r : list A) : set_nth j (f v) (map f r) = map f (set_nth j v r).
  Proof. revert j. induction r as [|x r IH]; intros [|j]; cbn; try reflexivity. rewrite IH. reflexivity. Qed.
  Lemma set_col_map (m : mat A) j vals : set_col (fm m) j (map f vals) = rmap fm (set_col m j vals).
  Proof.
    unfold set_col. rewrite nrows_map, map_length. cbn [mcols mat_map]. destruct (negb _); [reflexivity|]. destruct (negb _); [reflexivity|].
    cbn. unfold mat_map. cbn. do 2 f_equal. generalize (mrows m). clear m.
    induction vals as [|v vals IH]; intros [|r rows]; cbn; try reflexivity. rewrite set_nth_map, IH. reflexivity.
  Qed.
  Lemma same_shape_map {X} (m : mat A) (q : mat X) : same_shape (fm m) q = same_shape m q.
  Proof. unfold same_shape. rewrite nrows_map. reflexivity. Qed.
  Lemma copyto_map (d s : mat A) : copyto (fm d) (fm s) = rmap fm (copyto d s).
  Proof.
    unfold copyto, same_shape. rewrite !nrows_map. cbn [mcols mrows mat_map]. destruct (_ && _); [reflexivity|].
    destruct (_ || _); [|reflexivity]. assert (ST : forall n (r : list A), match map f r with [a] => repeat a n | _ => map f r end = map f match r with [a] => repeat a n | _ => r end).
    { intros n [|x [|y r]]; try reflexivity. cbn. induction n; cbn; congruence. }
    destruct (_ =? _).
    - cbn. unfold mat_map. cbn. do 2 f_equal. rewrite !map_map. apply map_ext. intro r. apply ST.
    - destruct (mrows s) as [|r [|]]; try reflexivity. cbn [map]. cbn. unfold mat_map. cbn. do 2 f_equal.
      rewrite ST. generalize (nrows d). induction n; cbn; congruence.
  Qed.
End Arrays.

Lemma empty_map {A B} (f : A -> B) junk (q : mat A) (q' : mat B) : nrows q' = nrows q -> mcols q' = mcols q ->
  empty_like (fun i j => f (junk i j)) q' = mat_map f (empty_like junk q).
Proof.
  intros E E'. unfold empty_like, junk_mat, mat_map. cbn. rewrite E, E'. f_equal. rewrite map_map. apply map_ext. intro. rewrite map_map. reflexivity.
Qed.

Section Scale.
  Variable c : R.
  Hypothesis Hc : c <> 0%R.
  Variable scp : scipy R.
  Hypothesis Hscp : homogeneous c scp.
  Notation f := (retime c).
  Notation fm := (mat_map (retime c)).
  Notation fn := (nd_values (retime c)).

  (** Memory: the buffers of velocities (numbers 0 to 3) are scaled; those of positions and indices are not. *)
  Definition retimed_memory (mem : memory (T := R)) : memory (T := R) := fun k i j => if k <? 4 then f (mem k i j) else mem k i j.

  (* ---- the unstructured interpolators ---- *)
  Definition fu {Obj} (o : unstructured scp Obj) : unstructured scp Obj :=
    Unstr (option_map fm (u_velocities o)) (u_points o) (u_tri o) (option_map (fun x => (fst x, map (both f) (snd x))) (u_interp o))
      (option_map (fun x => (fst x, map f (snd x))) (u_interp_z o)).

  Lemma to_complex_map v : to_complex (fm v) = rmap (map (both f)) (to_complex v).
  Proof.
    unfold to_complex. cbn [mrows mat_map]. rewrite !get_map. destruct (get (mrows v) 0) as [u|]; [|reflexivity].
    destruct (get (mrows v) 1) as [w|]; [|reflexivity]. cbn. f_equal. revert w. induction u as [|x u IH]; intros [|y w]; cbn; try reflexivity.
    rewrite IH. reflexivity.
  Qed.
  Lemma check_map {X Y} (g : X -> Y) (p : mat R) l : check_values p (map g l) = check_values p l.
  Proof. unfold check_values. rewrite map_length. reflexivity. Qed.

  Lemma init_values {Obj} (mk : mat R -> res Obj) v p :
    (let* z := to_complex (fm v) in let* pt := transpose2 p in let* _ := check_values p z in let* t := mk pt in Ok (t, z)) =
    rmap (fun x => (fst x, map (both f) (snd x))) (let* z := to_complex v in let* pt := transpose2 p in let* _ := check_values p z in let* t := mk pt in Ok (t, z)).
  Proof.
    rewrite to_complex_map. destruct (to_complex v) as [z|]; [|reflexivity]. cbn. destruct (transpose2 p) as [pt|]; [|reflexivity]. cbn.
    rewrite check_map. destruct (check_values p z) as [[]|]; [|reflexivity]. cbn. destruct (mk pt); reflexivity.
  Qed.
  Lemma z_values v (p : mat R) : (let* w := get (mrows (fm v)) 2 in let* _ := check_values p w in Ok w) =
    rmap (map f) (let* w := get (mrows v) 2 in let* _ := check_values p w in Ok w).
  Proof.
    cbn [mrows mat_map]. rewrite get_map. destruct (get (mrows v) 2) as [w|]; [|reflexivity]. cbn. rewrite check_map. destruct (check_values p w); reflexivity.
  Qed.

  Lemma cubic_init_map o : cubic_init scp (fu o) = (fu (fst (cubic_init scp o)), snd (cubic_init scp o)).
  Proof.
    unfold cubic_init. cbn [fu u_velocities u_points]. destruct (u_velocities o) as [v|] eqn:Ev, (u_points o) as [p|] eqn:Ep; cbn [option_map]; try reflexivity.
    destruct (nrows p =? 3); [reflexivity|]. rewrite init_values.
    destruct (bind (to_complex v) _) as [[t z]|e]; cbn; unfold fu; cbn; rewrite ?Ev, ?Ep; reflexivity.
  Qed.
  Lemma linear_init_map o : linear_init scp (fu o) = (fu (fst (linear_init scp o)), snd (linear_init scp o)).
  Proof.
    unfold linear_init. cbn [fu u_velocities u_points]. destruct (u_velocities o) as [v|] eqn:Ev, (u_points o) as [p|] eqn:Ep; cbn [option_map]; try reflexivity.
    rewrite init_values. destruct (bind (to_complex v) _) as [[t z]|e]; cbn [rmap fst snd]; [|unfold fu; cbn; rewrite ?Ev, ?Ep; reflexivity].
    destruct (nrows p =? 3); [|unfold fu; cbn; rewrite ?Ev, ?Ep; reflexivity].
    rewrite z_values. destruct (bind (get (mrows v) 2) _) as [w|e]; cbn; unfold fu; cbn; rewrite ?Ev, ?Ep; reflexivity.
  Qed.
  Lemma nearest_init_map o : nearest_init scp (fu o) = (fu (fst (nearest_init scp o)), snd (nearest_init scp o)).
  Proof.
    unfold nearest_init. cbn [fu u_velocities u_points]. destruct (u_velocities o) as [v|] eqn:Ev, (u_points o) as [p|] eqn:Ep; cbn [option_map]; try reflexivity.
    pose proof (init_values (fun pt => let* _ := near_check scp pt in Ok pt) v p) as E.
    assert (S : forall zz : res (list (R * R)), (let* c0 := zz in let* pt := transpose2 p in let* _ := check_values p c0 in let* t := (let* _ := near_check scp pt in Ok pt) in Ok (t, c0)) =
      (let* c0 := zz in let* pt := transpose2 p in let* _ := check_values p c0 in let* _ := near_check scp pt in Ok (pt, c0))).
    { intros [z|]; [|reflexivity]. cbn. destruct (transpose2 p) as [pt|]; [|reflexivity]. cbn. destruct (check_values p z); [|reflexivity]. cbn. destruct (near_check scp pt); reflexivity. }
    rewrite !S in E. rewrite E. clear E S. destruct (bind (to_complex v) _) as [[t z]|e]; cbn [rmap fst snd]; [|unfold fu; cbn; rewrite ?Ev, ?Ep; reflexivity].
    destruct (nrows p =? 3); [|unfold fu; cbn; rewrite ?Ev, ?Ep; reflexivity].
    rewrite z_values. destruct (bind (get (mrows v) 2) _) as [w|e]; cbn; unfold fu; cbn; rewrite ?Ev, ?Ep; reflexivity.
  Qed.
  Lemma base_update_map {Obj} (init : unstructured scp Obj -> unstructured scp Obj * res unit) :
    (forall o, init (fu o) = (fu (fst (init o)), snd (init o))) ->
    forall o v p, base_update scp init (fu o) (fm v) p = (fu (fst (base_update scp init o v p)), snd (base_update scp init o v p)).
  Proof. intros H o v p. unfold base_update. rewrite <- H. f_equal. Qed.

  Lemma set_complex_map out z : set_complex (fm out) (map (both f) z) = rmap fm (set_complex out z).
  Proof.
    unfold set_complex. replace (map fst (map (both f) z)) with (map f (map fst z)) by (rewrite !map_map; reflexivity).
    replace (map snd (map (both f) z)) with (map f (map snd z)) by (rewrite !map_map; reflexivity). rewrite set_col_map.
    destruct (set_col out 0 (map fst z)); [|reflexivity]. cbn. apply set_col_map.
  Qed.

  Notation ej junk := (fun i j => f (junk i j)).
  Lemma cubic_map junk o q : cubic_interpolate scp (ej junk) (fu o) q = rmap fm (cubic_interpolate scp junk o q).
  Proof.
    unfold cubic_interpolate. cbn [fu u_interp]. destruct (u_interp o) as [[t z]|]; [|reflexivity]. cbn [option_map fst snd].
    destruct Hscp as (H & _). rewrite H. destruct (ct_eval scp t z q) as [y|]; [|reflexivity]. cbn [divided bind].
    rewrite (empty_map f junk q q eq_refl eq_refl). apply set_complex_map.
  Qed.
  Lemma linear_map junk o q : linear_interpolate scp (ej junk) (fu o) q = rmap fm (linear_interpolate scp junk o q).
  Proof.
    unfold linear_interpolate. cbn [fu u_interp u_interp_z]. destruct (u_interp o) as [[t z]|]; [|reflexivity]. cbn [option_map fst snd].
    destruct Hscp as (_ & H & H' & _). rewrite H. destruct (lin_c scp t z q) as [y|]; [|reflexivity]. cbn [divided bind].
    rewrite (empty_map f junk q q eq_refl eq_refl), set_complex_map. destruct (set_complex _ y) as [out|]; [|reflexivity]. cbn [rmap bind].
    destruct (nrows q =? 3); [|reflexivity]. destruct (u_interp_z o) as [[tz w]|]; [|reflexivity]. cbn [option_map fst snd].
    rewrite H'. destruct (lin_r scp tz w q) as [zz|]; [|reflexivity]. cbn [divided bind]. apply set_col_map.
  Qed.
  Lemma nearest_map junk o q : nearest_interpolate scp (ej junk) (fu o) q = rmap fm (nearest_interpolate scp junk o q).
  Proof.
    unfold nearest_interpolate. cbn [fu u_interp u_interp_z]. destruct (u_interp o) as [[t z]|]; [|reflexivity]. cbn [option_map fst snd].
    destruct Hscp as (_ & _ & _ & H & H' & _). rewrite H. destruct (near_c scp t z q) as [y|]; [|reflexivity]. cbn [divided bind].
    rewrite (empty_map f junk q q eq_refl eq_refl), set_complex_map. destruct (set_complex _ y) as [out|]; [|reflexivity]. cbn [rmap bind].
    destruct (nrows q =? 3); [|reflexivity]. destruct (u_interp_z o) as [[tz w]|]; [|reflexivity]. cbn [option_map fst snd].
    rewrite H'. destruct (near_r scp tz w q) as [zz|]; [|reflexivity]. cbn [divided bind]. apply set_col_map.
  Qed.

  (* ---- the structured SciPy interpolator ---- *)
  Definition fr (r : rgi R) : rgi R := Rgi (r_axes r) (fn (r_built r)) (fn (r_values r)).
  Definition fg (o : gridinterp R) : gridinterp R :=
    GridI (g_method o) (g_shape o) (option_map fm (g_velocities o)) (g_points o) (g_ndim o) (option_map fr (g_x o)) (option_map fr (g_y o))
      (option_map fr (g_z o)).
  Lemma mk_rgi_map m axes v k s : mk_rgi scp m axes (fm v) k s = rmap fr (mk_rgi scp m axes v k s).
  Proof.
    unfold mk_rgi. cbn [mrows mat_map]. rewrite get_map. destruct (get (mrows v) k) as [row|]; [|reflexivity]. cbn [rmap bind].
    rewrite nd_map_list, reshape_c_map. destruct (reshape_c _ s) as [vals|]; [|reflexivity]. cbn [rmap bind].
    destruct Hscp as (_ & _ & _ & _ & _ & H & _). rewrite H. destruct (rgi_check scp m axes vals); reflexivity.
  Qed.
  Lemma gridinterp_init_map o : gridinterp_init Rops scp (fg o) = (fg (fst (gridinterp_init Rops scp o)), snd (gridinterp_init Rops scp o)).
  Proof.
    unfold gridinterp_init. cbn [fg g_velocities g_points g_shape g_method g_x g_y g_z].
    destruct (g_velocities o) as [v|] eqn:Ev, (g_points o) as [p|] eqn:Ep; cbn [option_map]; try (unfold fg; cbn; rewrite ?Ev, ?Ep; reflexivity).
    destruct (negb _); [unfold fg; cbn; rewrite ?Ev, ?Ep; reflexivity|]. destruct (negb _); [unfold fg; cbn; rewrite ?Ev, ?Ep; reflexivity|].
    destruct (if _ : bool then _ else _) as [axes|e]; [|unfold fg; cbn; rewrite ?Ev, ?Ep; reflexivity].
    rewrite !mk_rgi_map. destruct (mk_rgi scp (g_method o) axes v 0 (g_shape o)) as [rx|]; cbn [rmap]; [|unfold fg; cbn; rewrite ?Ev, ?Ep; reflexivity].
    destruct (mk_rgi scp (g_method o) axes v 1 (g_shape o)) as [ry|]; cbn [rmap]; [|unfold fg; cbn; rewrite ?Ev, ?Ep; reflexivity].
    destruct (_ =? 2); [unfold fg; cbn; rewrite ?Ev, ?Ep; reflexivity|].
    destruct (mk_rgi scp (g_method o) axes v 2 (g_shape o)) as [rz|]; cbn [rmap]; unfold fg; cbn; rewrite ?Ev, ?Ep; reflexivity.
  Qed.
  Lemma set_values_map r field k : set_values (option_map fr r) (fn field) k = rmap fr (set_values r field k).
  Proof. unfold set_values. rewrite subarray_map. destruct (subarray field k); [|reflexivity]. cbn. destruct r; reflexivity. Qed.
  Lemma gridinterp_update_map o v p :
    gridinterp_update Rops scp (fg o) (fm v) p = (fg (fst (gridinterp_update Rops scp o v p)), snd (gridinterp_update Rops scp o v p)).
  Proof.
    unfold gridinterp_update. cbn [fg g_velocities g_points g_shape g_method g_x g_y g_z g_ndim].
    assert (Init : forall pts, gridinterp_init Rops scp (GridI (g_method o) (g_shape o) (Some (fm v)) pts (g_ndim o) (option_map fr (g_x o)) (option_map fr (g_y o)) (option_map fr (g_z o))) =
      (fg (fst (gridinterp_init Rops scp (GridI (g_method o) (g_shape o) (Some v) pts (g_ndim o) (g_x o) (g_y o) (g_z o)))),
       snd (gridinterp_init Rops scp (GridI (g_method o) (g_shape o) (Some v) pts (g_ndim o) (g_x o) (g_y o) (g_z o))))).
    { intro pts. rewrite <- gridinterp_init_map. reflexivity. }
    destruct (g_x o) as [rx|] eqn:Ex; cbn [option_map]; [|apply Init]. destruct p as [p|]; [apply Init|]. destruct (g_ndim o) as [ndim|] eqn:En; [|apply Init].
    clear Init. rewrite nd_map_mat.
    rewrite reshape_f_map, reshape_c_map.
    assert (F : (if ndim =? 2 then rmap fn (reshape_f (nd_of_mat v) (ndim :: g_shape o)) else rmap fn (reshape_c (nd_of_mat v) (ndim :: g_shape o))) =
      rmap fn (if ndim =? 2 then reshape_f (nd_of_mat v) (ndim :: g_shape o) else reshape_c (nd_of_mat v) (ndim :: g_shape o))) by (destruct (ndim =? 2); reflexivity).
    rewrite F. clear F. destruct (if ndim =? 2 then _ else _) as [field|e]; cbn [rmap]; [|unfold fg; cbn; rewrite ?Ex, ?En; reflexivity].
    change (Some (fr rx)) with (option_map fr (Some rx)). rewrite !set_values_map.
    destruct (set_values (Some rx) field 0) as [rx'|]; cbn [rmap]; [|unfold fg; cbn; rewrite ?Ex, ?En; reflexivity].
    destruct (set_values (g_y o) field 1) as [ry'|]; cbn [rmap]; [|unfold fg; cbn; rewrite ?Ex, ?En; reflexivity].
    destruct (ndim =? 2); [unfold fg; cbn; rewrite ?Ex, ?En; reflexivity|].
    destruct (set_values (g_z o) field 2) as [rz'|]; cbn [rmap]; unfold fg; cbn; rewrite ?Ex, ?En; reflexivity.
  Qed.
  Lemma rgi_call_map m r q : rgi_call scp m (option_map fr r) q = rmap (map f) (rgi_call scp m r q).
  Proof.
    unfold rgi_call. destruct r as [r|]; [|reflexivity]. cbn [option_map fr r_axes r_built r_values].
    destruct Hscp as (_ & _ & _ & _ & _ & _ & H). rewrite H. reflexivity.
  Qed.
  Lemma gridinterp_map junk o q : gridinterp_interpolate scp (ej junk) (fg o) q = rmap fm (gridinterp_interpolate scp junk o q).
  Proof.
    unfold gridinterp_interpolate. cbn [fg g_x g_y g_z g_ndim g_method]. destruct (g_x o) as [rx|]; cbn [option_map]; [|reflexivity].
    destruct (g_ndim o) as [ndim|]; [|reflexivity]. rewrite (empty_map f junk q q eq_refl eq_refl).
    change (Some (fr rx)) with (option_map fr (Some rx)). rewrite !rgi_call_map.
    destruct (rgi_call scp (g_method o) (Some rx) q) as [xs|]; [|reflexivity]. cbn [rmap bind]. rewrite set_col_map.
    destruct (set_col _ 0 xs) as [out0|]; [|reflexivity]. cbn [rmap bind].
    destruct (rgi_call scp (g_method o) (g_y o) q) as [ys|]; [|reflexivity]. cbn [rmap bind]. rewrite set_col_map.
    destruct (set_col out0 1 ys) as [out1|]; [|reflexivity]. cbn [rmap bind]. destruct (ndim =? 3); [|reflexivity].
    destruct (rgi_call scp (g_method o) (g_z o) q) as [zs|]; [|reflexivity]. cbn [rmap bind]. apply set_col_map.
  Qed.

  (* ---- the compiled kernels ---- *)
  Notation K2 := (interp2d_point Rops). Notation K3 := (interp3d_point Rops).
  Lemma zero_map : f (o_zero Rops) = o_zero Rops.
  Proof. unfold retime. cbn. field. exact Hc. Qed.
  Ltac step r := destruct r; cbn [rmap bind]; [|reflexivity].
  Lemma point2_map v nx ny px py : K2 (map f v) nx ny px py = rmap f (K2 v nx ny px py).
  Proof.
    unfold interp2d_point. step (floor_int Rops px). step (floor_int Rops py). step (c_int (a + 1)). step (c_int (a0 + 1)).
    step (frac Rops px a). step (frac Rops py a0). destruct (_ && _); [|cbn [rmap]; rewrite zero_map; reflexivity]. cbv zeta.
    rewrite !ptr_map. repeat (match goal with |- bind (rmap f ?r) _ = _ => step r end). f_equal. unfold retime. cbn. field. exact Hc.
  Qed.
  Lemma lerp_map a b d : lerp Rops (f a) (f b) d = f (lerp Rops a b d).
  Proof. unfold lerp, retime. cbn. field. exact Hc. Qed.
  Lemma point3_map v X Y Z YZ px py pz : K3 (map f v) X Y Z YZ px py pz = rmap f (K3 v X Y Z YZ px py pz).
  Proof.
    unfold interp3d_point. step (floor_int Rops px). step (floor_int Rops py). step (floor_int Rops pz). step (c_int (a + 1)). step (c_int (a0 + 1)).
    step (c_int (a1 + 1)). step (frac Rops px a). step (frac Rops py a0). step (frac Rops pz a1). destruct (_ && _); [|cbn [rmap]; rewrite zero_map; reflexivity]. cbv zeta.
    rewrite !ptr_map. repeat (match goal with |- bind (rmap f ?r) _ = _ => step r end). rewrite !lerp_map. reflexivity.
  Qed.
  Lemma vec2_map v p out : interp2d_vec_inplace Rops (fn v) p (map f out) = rmap (map f) (interp2d_vec_inplace Rops v p out).
  Proof.
    unfold interp2d_vec_inplace. cbn [shape nd_values]. destruct (shape v) as [|sx [|sy [|]]]; try reflexivity. destruct (negb _); [reflexivity|].
    rewrite map_length. destruct (negb _); [reflexivity|]. cbv zeta. rewrite <- mapr_rmap. apply mapr_ext. intro x. cbn [NdArray.data].
    step (cget x 0). step (cget x 1). apply point2_map.
  Qed.
  Lemma vec3_map v p out : interp3d_vec_inplace Rops (fn v) p (map f out) = rmap (map f) (interp3d_vec_inplace Rops v p out).
  Proof.
    unfold interp3d_vec_inplace. cbn [shape nd_values]. destruct (shape v) as [|sx [|sy [|sz [|]]]]; try reflexivity. destruct (negb _); [reflexivity|].
    rewrite map_length. destruct (negb _); [reflexivity|]. cbv zeta. step (c_int (int_of_ssize (Z.of_nat sy) * int_of_ssize (Z.of_nat sz))).
    rewrite <- mapr_rmap. apply mapr_ext. intro x. cbn [NdArray.data].
    step (cget x 0). step (cget x 1). step (cget x 2). apply point3_map.
  Qed.

  (* ---- the grid interpolator ---- *)
  Definition f2 (o : interp2d R) : interp2d R := Interp2D (fn (i2_v o)) (i2_x o) (i2_y o) (i2_buffer o).
  Definition f3 (o : interp3d R) : interp3d R := Interp3D (fn (i3_v o)) (i3_x o) (i3_y o) (i3_z o) (i3_buffer o).
  Definition fcomp (k : component R) : component R := match k with C2 o => C2 (f2 o) | C3 o => C3 (f3 o) end.
  Definition fh (o : highperf R) : highperf R :=
    HighPerf (h_shape o) (option_map fm (h_velocities o)) (h_points o) (option_map (map f) (h_u o)) (option_map (map f) (h_v o))
      (option_map (map f) (h_w o)) (option_map fcomp (h_x o)) (option_map fcomp (h_y o)) (option_map fcomp (h_z o)).
  Lemma mk2_map v x y : mk_interp2d Rops (fn v) x y = rmap f2 (mk_interp2d Rops v x y).
  Proof. unfold mk_interp2d. step (mk_axis Rops x). step (mk_axis Rops y). reflexivity. Qed.
  Lemma mk3_map v x y z : mk_interp3d Rops (fn v) x y z = rmap f3 (mk_interp3d Rops v x y z).
  Proof. unfold mk_interp3d. step (mk_axis Rops x). step (mk_axis Rops y). step (mk_axis Rops z). reflexivity. Qed.

  Lemma highperf_init_map o : highperf_init Rops (fh o) = (fh (fst (highperf_init Rops o)), snd (highperf_init Rops o)).
  Proof.
    unfold highperf_init. cbn [fh h_shape h_velocities h_points h_u h_v h_w h_x h_y h_z].
    destruct (h_velocities o) as [v|] eqn:Ev, (h_points o) as [p|] eqn:Ep; cbn [option_map]; try (unfold fh; cbn; rewrite ?Ev, ?Ep; reflexivity).
    rewrite nd_map_mat.
    match goal with |- match ?L with Ok _ => _ | Err _ => _ end = (fh (fst match ?M with Ok _ => _ | Err _ => _ end), _) => assert (E : L = rmap fh M) end.
    { destruct (reshape_c (nd_of_mat p) _) as [co|]; [|reflexivity]. cbn [bind rmap].
      destruct (h_shape o) as [|n0 [|n1 [|n2 [|]]]]; try reflexivity.
      - rewrite reshape_f_map. step (reshape_f (nd_of_mat v) (length [n0; n1] :: [n0; n1])).
        step (coordinate_axis Rops co [n0; n1] 0). step (coordinate_axis Rops co [n0; n1] 1).
        rewrite !subarray_map. step (subarray a 0). rewrite mk2_map. step (mk_interp2d Rops a2 a0 a1).
        step (subarray a 1). rewrite mk2_map. step (mk_interp2d Rops a4 a0 a1). unfold fh; cbn; rewrite ?Ev, ?Ep; reflexivity.
      - rewrite reshape_c_map. step (reshape_c (nd_of_mat v) (length [n0; n1; n2] :: [n0; n1; n2])). rewrite transpose_map. step (transpose_0213 a).
        step (coordinate_axis Rops co [n0; n1; n2] 0). step (coordinate_axis Rops co [n0; n1; n2] 1). step (coordinate_axis Rops co [n0; n1; n2] 2).
        rewrite !subarray_map. step (subarray a0 0). rewrite mk3_map. step (mk_interp3d Rops a4 a1 a2 a3).
        step (subarray a0 1). rewrite mk3_map. step (mk_interp3d Rops a6 a1 a2 a3).
        step (subarray a0 2). rewrite mk3_map. step (mk_interp3d Rops a8 a1 a2 a3). unfold fh; cbn; rewrite ?Ev, ?Ep; reflexivity. }
    rewrite E. clear E. match goal with |- match rmap fh ?M with Ok _ => _ | Err _ => _ end = _ => destruct M as [o'|e] end; [reflexivity|].
    cbn. unfold fh; cbn; rewrite ?Ev, ?Ep; reflexivity.
  Qed.
  Lemma set_field_map row k : set_field (map f row) (fcomp k) = fcomp (set_field row k).
  Proof. destruct k; cbn; unfold f2, f3; cbn; rewrite nd_map_list; reflexivity. Qed.
  Lemma highperf_update_map o v p : highperf_update Rops (fh o) (fm v) p = (fh (fst (highperf_update Rops o v p)), snd (highperf_update Rops o v p)).
  Proof.
    unfold highperf_update. cbn [fh h_shape h_velocities h_points h_u h_v h_w h_x h_y h_z]. destruct p as [p|].
    - rewrite <- highperf_init_map. reflexivity.
    - destruct (h_x o) as [cx|] eqn:Ex, (h_y o) as [cy|] eqn:Ey; cbn [option_map]; try (unfold fh; cbn; rewrite ?Ex, ?Ey; reflexivity).
      cbn [mrows mat_map]. rewrite !get_map. destruct (get (mrows v) 0) as [r0|]; cbn [rmap]; [|unfold fh; cbn; rewrite ?Ex, ?Ey; reflexivity].
      destruct (get (mrows v) 1) as [r1|]; cbn [rmap]; [|unfold fh; cbn; rewrite ?Ex, ?Ey, set_field_map; reflexivity].
      destruct (h_z o) as [cz|] eqn:Ez; cbn [option_map]; [|unfold fh; cbn; rewrite ?Ex, ?Ey, !set_field_map; reflexivity].
      destruct (get (mrows v) 2) as [r2|]; cbn [rmap]; unfold fh; cbn; rewrite ?Ex, ?Ey, ?Ez; cbn; rewrite !set_field_map; reflexivity.
  Qed.
  Lemma call_map junk k t out : call_component Rops junk (fcomp k) t (option_map (map f) out) =
    (fcomp (fst (call_component Rops junk k t out)), rmap (map f) (snd (call_component Rops junk k t out))).
  Proof.
    unfold call_component. destruct k as [o|o]; cbn [fcomp]; unfold call2d, call3d; cbn [f2 f3 i2_v i2_x i2_y i2_buffer i3_v i3_x i3_y i3_z i3_buffer].
    - destruct out as [b|]; cbn [option_map].
      + match goal with |- context [match ?X with Ok _ => _ | Err _ => _ end] => destruct X as [b'|] end; [|reflexivity]. rewrite vec2_map. reflexivity.
      + match goal with |- context [match ?X with Ok _ => _ | Err _ => _ end] => destruct X as [b'|] end; [|reflexivity].
        pose proof (vec2_map (i2_v o) b' []) as E; cbn [map] in E; rewrite E; clear E. destruct (interp2d_vec_inplace Rops (i2_v o) b' []); reflexivity.
    - destruct out as [b|]; cbn [option_map].
      + match goal with |- context [match ?X with Ok _ => _ | Err _ => _ end] => destruct X as [b'|] end; [|reflexivity]. rewrite vec3_map. reflexivity.
      + match goal with |- context [match ?X with Ok _ => _ | Err _ => _ end] => destruct X as [b'|] end; [|reflexivity].
        pose proof (vec3_map (i3_v o) b' []) as E; cbn [map] in E; rewrite E; clear E. destruct (interp3d_vec_inplace Rops (i3_v o) b' []); reflexivity.
  Qed.
  Lemma junk_map mem k n : (k < 4)%nat -> junk_list (retimed_memory mem k 0) n = map f (junk_list (mem k 0) n).
  Proof. intro H. unfold junk_list. rewrite map_map. apply map_ext. intro. unfold retimed_memory. apply Nat.ltb_lt in H. rewrite H. reflexivity. Qed.
  Lemma buffers_map mem o n d : ensure_buffers (retimed_memory mem) (fh o) n d = fh (ensure_buffers mem o n d).
  Proof.
    unfold ensure_buffers. cbn [fh h_shape h_velocities h_points h_u h_v h_w h_x h_y h_z]. rewrite !junk_map by lia.
    destruct (h_u o) as [b|] eqn:Eu; cbn [option_map].
    - rewrite map_length. destruct (_ =? n); [reflexivity|]. destruct (d =? 3); reflexivity.
    - destruct (d =? 3); reflexivity.
  Qed.
  Lemma run_x_map mem o k q : run_x Rops (retimed_memory mem) (fh o) (fcomp k) q = (fh (fst (run_x Rops mem o k q)), rmap (map f) (snd (run_x Rops mem o k q))).
  Proof.
    unfold run_x. change (h_u (fh o)) with (option_map (map f) (h_u o)). change (index_junk (retimed_memory mem) 4) with (index_junk mem 4).
    rewrite call_map. destruct (call_component Rops _ k q (h_u o)) as [k' [b|]]; reflexivity.
  Qed.
  Lemma run_y_map mem o k q : run_y Rops (retimed_memory mem) (fh o) (fcomp k) q = (fh (fst (run_y Rops mem o k q)), rmap (map f) (snd (run_y Rops mem o k q))).
  Proof.
    unfold run_y. change (h_v (fh o)) with (option_map (map f) (h_v o)). change (index_junk (retimed_memory mem) 5) with (index_junk mem 5).
    rewrite call_map. destruct (call_component Rops _ k q (h_v o)) as [k' [b|]]; reflexivity.
  Qed.
  Lemma run_z_map mem o k q : run_z Rops (retimed_memory mem) (fh o) (fcomp k) q = (fh (fst (run_z Rops mem o k q)), rmap (map f) (snd (run_z Rops mem o k q))).
  Proof.
    unfold run_z. change (h_w (fh o)) with (option_map (map f) (h_w o)). change (index_junk (retimed_memory mem) 6) with (index_junk mem 6).
    rewrite call_map. destruct (call_component Rops _ k q (h_w o)) as [k' [b|]]; reflexivity.
  Qed.
  Lemma highperf_map mem o q : highperf_interpolate Rops (retimed_memory mem) (fh o) q =
    (fh (fst (highperf_interpolate Rops mem o q)), rmap fm (snd (highperf_interpolate Rops mem o q))).
  Proof.
    unfold highperf_interpolate. cbv zeta. rewrite buffers_map. set (o0 := ensure_buffers mem o (nrows q) (mcols q)).
    change (retimed_memory mem 0) with (ej (mem 0)). rewrite (empty_map f (mem 0) q q eq_refl eq_refl). set (out := empty_like (mem 0) q).
    change (h_x (fh o0)) with (option_map fcomp (h_x o0)). change (h_y (fh o0)) with (option_map fcomp (h_y o0)). change (h_z (fh o0)) with (option_map fcomp (h_z o0)).
    destruct (mcols q) as [|[|[|[|]]]]; try reflexivity.
    - destruct (h_x o0) as [cx|]; cbn [option_map]; [|reflexivity]. destruct (h_y o0) as [cy|]; cbn [option_map]; [|reflexivity].
      rewrite run_x_map. destruct (run_x Rops mem o0 cx q) as [o1 [bu|]]; cbn [fst snd rmap]; [|reflexivity].
      rewrite run_y_map. destruct (run_y Rops mem o1 cy q) as [o2 [bv|]]; cbn [fst snd rmap]; [|reflexivity].
      rewrite set_col_map. step (set_col out 0 bu). rewrite set_col_map. reflexivity.
    - destruct (h_x o0) as [cx|]; cbn [option_map]; [|reflexivity]. destruct (h_y o0) as [cy|]; cbn [option_map]; [|reflexivity].
      destruct (h_z o0) as [cz|]; cbn [option_map]; [|reflexivity].
      rewrite run_x_map. destruct (run_x Rops mem o0 cx q) as [o1 [bu|]]; cbn [fst snd rmap]; [|reflexivity].
      rewrite run_y_map. destruct (run_y Rops mem o1 cy q) as [o2 [bv|]]; cbn [fst snd rmap]; [|reflexivity].
      rewrite run_z_map. destruct (run_z Rops mem o2 cz q) as [o3 [bw|]]; cbn [fst snd rmap]; [|reflexivity].
      rewrite set_col_map. step (set_col out 0 bu). rewrite set_col_map. step (set_col a 1 bv). rewrite set_col_map. reflexivity.
  Qed.

  (* ---- all interpolators ---- *)
  Definition retimed_interp (i : interp scp) : interp scp :=
    match i with
    | ICubic o => ICubic (fu o) | ILinear o => ILinear (fu o) | INearest o => INearest (fu o)
    | IGrid o => IGrid (fg o) | IHigh o => IHigh (fh o)
    | IAnalytical o => IAnalytical (Analytical (fun t q => rmap fm (velocity_fn o t q)) (a_time o))
    end.
  Lemma update_map i v p : update Rops scp (retimed_interp i) (fm v) p = (retimed_interp (fst (update Rops scp i v p)), snd (update Rops scp i v p)).
  Proof.
    destruct i as [o|o|o|o|o|o]; cbn [retimed_interp update].
    - rewrite (base_update_map _ cubic_init_map). destruct (base_update _ _ o v p); reflexivity.
    - rewrite (base_update_map _ linear_init_map). destruct (base_update _ _ o v p); reflexivity.
    - rewrite (base_update_map _ nearest_init_map). destruct (base_update _ _ o v p); reflexivity.
    - rewrite gridinterp_update_map. destruct (gridinterp_update Rops scp o v p); reflexivity.
    - rewrite highperf_update_map. destruct (highperf_update Rops o v p); reflexivity.
    - reflexivity.
  Qed.
  Lemma interpolate_map mem i q : interpolate Rops scp (retimed_memory mem) (retimed_interp i) q =
    (retimed_interp (fst (interpolate Rops scp mem i q)), rmap fm (snd (interpolate Rops scp mem i q))).
  Proof.
    destruct i as [o|o|o|o|o|o]; cbn [retimed_interp interpolate fst snd]; change (retimed_memory mem 0) with (ej (mem 0)).
    - rewrite cubic_map. reflexivity.
    - rewrite linear_map. reflexivity.
    - rewrite nearest_map. reflexivity.
    - rewrite gridinterp_map. reflexivity.
    - rewrite highperf_map. destruct (highperf_interpolate Rops mem o q); reflexivity.
    - reflexivity.
  Qed.
  Lemma new_map name gs : create_interpolator Rops scp name gs None = rmap retimed_interp (create_interpolator Rops scp name gs None).
  Proof.
    unfold create_interpolator, gridinterp_new. cbv zeta. destruct (negb _); [reflexivity|]. destruct (String.eqb _ _); [reflexivity|].
    destruct gs as [gs|].
    - destruct (String.eqb _ _); [reflexivity|]. destruct (existsb _ _); reflexivity.
    - repeat (destruct (String.eqb _ _); [reflexivity|]). reflexivity.
  Qed.

  (* ---- the integrators ---- *)
  Definition retimed_integrator (i : integrator R) : integrator R :=
    match i with
    | Euler b => Euler (option_map fm b)
    | AB2 p b => AB2 (option_map fm p) (option_map fm b)
    | RK4 b => RK4 (option_map (fun x => match x with (k1, k2, k3, k4, t) => (fm k1, fm k2, fm k3, fm k4, t) end) b)
    end.
  Section Steps.
    Context {S : Type} (interp interp' : S -> mat R -> S * res (mat R)) (g : S -> S).
    Hypothesis Hi : forall s q, interp' (g s) q = (g (fst (interp s q)), rmap fm (snd (interp s q))).
    Lemma smul_map h v : smul Rops (c * h)%R (fm v) = smul Rops h v.
    Proof.
      unfold smul, mat_map. cbn [mcols mrows]. f_equal. rewrite map_map. apply map_ext. intro r. rewrite map_map. apply map_ext. intro x.
      unfold retime. cbn. field. exact Hc.
    Qed.
    Lemma smul_fm a v : smul Rops a (fm v) = fm (smul Rops a v).
    Proof.
      unfold smul, mat_map. cbn [mcols mrows]. f_equal. rewrite !map_map. apply map_ext. intro r. rewrite !map_map. apply map_ext. intro x.
      unfold retime. cbn. field. exact Hc.
    Qed.
    Lemma map2_map op (H : forall x y, op (f x) (f y) = f (op x y)) a b : mat_map2 op (fm a) (fm b) = rmap fm (mat_map2 op a b).
    Proof.
      unfold mat_map2, same_shape. rewrite !nrows_map. cbn [mcols mrows mat_map]. destruct (_ && _); [|reflexivity]. cbn. unfold mat_map. cbn. do 2 f_equal.
      generalize (mrows b). generalize (mrows a). induction l as [|r l IH]; intros [|r' l']; cbn; try reflexivity. rewrite IH. f_equal.
      revert r'. induction r as [|x r IHr]; intros [|y r']; cbn; try reflexivity. rewrite IHr, H. reflexivity.
    Qed.
    Lemma madd_map a b : madd Rops (fm a) (fm b) = rmap fm (madd Rops a b).
    Proof. apply map2_map. intros. unfold retime. cbn. field. exact Hc. Qed.
    Lemma msub_map a b : msub Rops (fm a) (fm b) = rmap fm (msub Rops a b).
    Proof. apply map2_map. intros. unfold retime. cbn. field. exact Hc. Qed.
    Lemma euler_map pos h v : euler_step Rops pos (c * h)%R (fm v) = euler_step Rops pos h v.
    Proof. unfold euler_step. rewrite smul_map. reflexivity. Qed.
    Lemma ab2_map pos h v w : ab2_step Rops pos (c * h)%R (fm v) (fm w) = ab2_step Rops pos h v w.
    Proof. unfold ab2_step. rewrite !smul_fm, msub_map. step (msub Rops (smul Rops (o_three_halves Rops) v) (smul Rops (o_half Rops) w)). rewrite smul_map. reflexivity. Qed.
    Lemma rk4_map pos h k1 k2 k3 k4 : rk4_step Rops pos (c * h)%R (fm k1) (fm k2) (fm k3) (fm k4) = rk4_step Rops pos h k1 k2 k3 k4.
    Proof.
      unfold rk4_step. rewrite !smul_fm, madd_map. step (madd Rops k1 (smul Rops (o_ofZ Rops 2) k2)). rewrite madd_map.
      step (madd Rops a (smul Rops (o_ofZ Rops 2) k3)). rewrite madd_map. step (madd Rops a0 k4).
      replace (o_div Rops (c * h)%R (o_ofZ Rops 6)) with (c * o_div Rops h (o_ofZ Rops 6))%R by (cbn; field). rewrite smul_map. reflexivity.
    Qed.
    Lemma empty_velocity mem k (q : mat R) : (k < 4)%nat -> empty_like (retimed_memory mem k) q = fm (empty_like (mem k) q).
    Proof.
      intro H. rewrite <- (empty_map f (mem k) q q eq_refl eq_refl). unfold retimed_memory. apply Nat.ltb_lt in H. rewrite H. reflexivity.
    Qed.
    Lemma buffer_map mem b (pos : mat R) : get_buffer (retimed_memory mem) 0 (option_map fm b) pos = fm (get_buffer mem 0 b pos).
    Proof. unfold get_buffer. rewrite empty_velocity by lia. destruct b as [v|]; cbn [option_map]; [|reflexivity]. rewrite same_shape_map. destruct (same_shape v pos); reflexivity. Qed.
    Lemma sample_map s buf q : sample interp' (g s) (fm buf) q = (g (fst (sample interp s buf q)), rmap fm (snd (sample interp s buf q))).
    Proof. unfold sample. rewrite Hi. destruct (interp s q) as [s' [v|]]; [|reflexivity]. cbn. rewrite copyto_map. reflexivity. Qed.
    Definition out_map (r : integrator R * S * res (mat R)) : integrator R * S * res (mat R) :=
      match r with (i, s, p) => (retimed_integrator i, g s, p) end.
    Lemma integrate_map mem i s h pos : integrate_pos Rops interp' (retimed_memory mem) (retimed_integrator i) (g s) (c * h)%R pos =
      out_map (integrate_pos Rops interp mem i s h pos).
    Proof.
      destruct i as [b|p b|b]; cbn [retimed_integrator integrate_pos].
      - unfold euler_integrate. cbv zeta. rewrite buffer_map, sample_map. destruct (sample interp s _ pos) as [s' [v|]]; [|reflexivity].
        cbn [fst snd rmap]. rewrite euler_map. reflexivity.
      - unfold ab2_integrate. cbv zeta. rewrite buffer_map, sample_map. destruct (sample interp s _ pos) as [s' [v|]]; [|reflexivity].
        cbn [fst snd rmap]. destruct p as [p|]; cbn [option_map].
        + rewrite ab2_map. destruct (ab2_step Rops pos h v p); [|reflexivity]. rewrite copyto_map. destruct (copyto p v); reflexivity.
        + rewrite euler_map. destruct (euler_step Rops pos h v); [|reflexivity].
          replace (empty_like (retimed_memory mem 1) (fm v)) with (fm (empty_like (mem 1) v)).
          2:{ rewrite <- (empty_map f (mem 1) v (fm v) (nrows_map f v) eq_refl). reflexivity. }
          rewrite copyto_map. destruct (copyto _ v); reflexivity.
      - unfold rk4_integrate. cbv zeta. rewrite !empty_velocity by lia. change (retimed_memory mem 4) with (mem 4).
        set (fresh := (empty_like (mem 0) pos, empty_like (mem 1) pos, empty_like (mem 2) pos, empty_like (mem 3) pos, empty_like (mem 4) pos)).
        set (bufs := match b with Some (k1, k2, k3, k4, t) => if same_shape k1 pos then (k1, k2, k3, k4, t) else fresh | None => fresh end).
        match goal with |- (let '_ := ?B in _) = _ => assert (E : B = match bufs with (k1, k2, k3, k4, t) => (fm k1, fm k2, fm k3, fm k4, t) end) end.
        { unfold bufs, fresh. destruct b as [[[[[k1 k2] k3] k4] t]|]; cbn [option_map]; [|reflexivity]. rewrite same_shape_map. destruct (same_shape k1 pos); reflexivity. }
        rewrite E. clear E. destruct bufs as [[[[b1 b2] b3] b4] t].
        assert (HH : o_mul Rops (o_half Rops) (c * h)%R = (c * o_mul Rops (o_half Rops) h)%R) by (cbn; ring). rewrite HH.
        rewrite sample_map. destruct (sample interp s b1 pos) as [s1 [k1|]]; [|reflexivity]. cbn [fst snd rmap]. rewrite smul_map.
        destruct (let* t0 := copyto t pos in madd Rops t0 (smul Rops (o_mul Rops (o_half Rops) h) k1)) as [t1|]; [|reflexivity].
        rewrite sample_map. destruct (sample interp s1 b2 t1) as [s2 [k2|]]; [|reflexivity]. cbn [fst snd rmap]. rewrite smul_map.
        destruct (let* t0 := copyto t1 pos in madd Rops t0 (smul Rops (o_mul Rops (o_half Rops) h) k2)) as [t2|]; [|reflexivity].
        rewrite sample_map. destruct (sample interp s2 b3 t2) as [s3 [k3|]]; [|reflexivity]. cbn [fst snd rmap]. rewrite smul_map.
        destruct (let* t0 := copyto t2 pos in madd Rops t0 (smul Rops h k3)) as [t3|]; [|reflexivity].
        rewrite sample_map. destruct (sample interp s3 b4 t3) as [s4 [k4|]]; [|reflexivity]. cbn [fst snd rmap]. rewrite rk4_map. reflexivity.
    Qed.
  End Steps.
End Scale.
