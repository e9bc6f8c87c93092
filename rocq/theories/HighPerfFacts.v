(** HighPerfInterpolator as a pure function of its field: buffers never matter. *)
From Coq Require Import Lia.
From Verif Require Import Base Num NdArray Integrate GridInterp Interpolate SpecSeeds NdFacts.

(** Every 2-column (3-column) array is an array of points. *)
Lemma wf_arr2 {A} (m : mat A) : wf_mat m -> mcols m = 2 -> exists pts, m = arr2 pts.
Proof.
  destruct m as [c rows]. unfold wf_mat. cbn. intros H ->. induction H as [|r rows Hr H IH].
  - exists []. reflexivity.
  - destruct IH as [pts E]. injection E as E.
    destruct r as [|x [|y [|]]]; try discriminate. exists ((x, y) :: pts).
    unfold arr2. cbn. rewrite <- E. reflexivity.
Qed.

Lemma wf_arr3 {A} (m : mat A) : wf_mat m -> mcols m = 3 -> exists pts, m = arr3 pts.
Proof.
  destruct m as [c rows]. unfold wf_mat. cbn. intros H ->. induction H as [|r rows Hr H IH].
  - exists []. reflexivity.
  - destruct IH as [pts E]. injection E as E.
    destruct r as [|x [|y [|z [|]]]]; try discriminate. exists ((x, y, z) :: pts).
    unfold arr3. cbn. rewrite <- E. reflexivity.
Qed.

Lemma arr2_wf {A} (pts : list (A * A)) : wf_mat (arr2 pts).
Proof. apply Forall_map, Forall_forall. intros [x y] _. reflexivity. Qed.
Lemma arr3_wf {A} (pts : list (A * A * A)) : wf_mat (arr3 pts).
Proof. apply Forall_map, Forall_forall. intros [[x y] z] _. reflexivity. Qed.

Lemma arr2_nrows {A} (pts : list (A * A)) : nrows (arr2 pts) = length pts.
Proof. unfold nrows, arr2. cbn. apply map_length. Qed.
Lemma arr3_nrows {A} (pts : list (A * A * A)) : nrows (arr3 pts) = length pts.
Proof. unfold nrows, arr3. cbn. apply map_length. Qed.

Lemma junk_arr2 {A} (junk : nat -> nat -> A) n :
  junk_mat junk n 2 = arr2 (map (fun i => (junk i 0, junk i 1)) (seq 0 n)).
Proof. unfold junk_mat, arr2. rewrite map_map. reflexivity. Qed.
Lemma junk_arr3 {A} (junk : nat -> nat -> A) n :
  junk_mat junk n 3 = arr3 (map (fun i => (junk i 0, junk i 1, junk i 2)) (seq 0 n)).
Proof. unfold junk_mat, arr3. rewrite map_map. reflexivity. Qed.

Lemma get_col2_0 {A} (pts : list (A * A)) : get_col (arr2 pts) 0 = Ok (map fst pts).
Proof. unfold get_col, arr2. cbn. rewrite mapr_map, <- mapr_const. apply mapr_ext. intros [x y] _. reflexivity. Qed.
Lemma get_col2_1 {A} (pts : list (A * A)) : get_col (arr2 pts) 1 = Ok (map snd pts).
Proof. unfold get_col, arr2. cbn. rewrite mapr_map, <- mapr_const. apply mapr_ext. intros [x y] _. reflexivity. Qed.
Lemma get_col3_0 {A} (pts : list (A * A * A)) : get_col (arr3 pts) 0 = Ok (map (fun p => fst (fst p)) pts).
Proof. unfold get_col, arr3. cbn. rewrite mapr_map, <- mapr_const. apply mapr_ext. intros [[x y] z] _. reflexivity. Qed.
Lemma get_col3_1 {A} (pts : list (A * A * A)) : get_col (arr3 pts) 1 = Ok (map (fun p => snd (fst p)) pts).
Proof. unfold get_col, arr3. cbn. rewrite mapr_map, <- mapr_const. apply mapr_ext. intros [[x y] z] _. reflexivity. Qed.
Lemma get_col3_2 {A} (pts : list (A * A * A)) : get_col (arr3 pts) 2 = Ok (map snd pts).
Proof. unfold get_col, arr3. cbn. rewrite mapr_map, <- mapr_const. apply mapr_ext. intros [[x y] z] _. reflexivity. Qed.

Lemma zip_map_l {A B C D} (g : A -> B) (f : B -> C -> D) l m :
  zip_with f (map g l) m = zip_with (fun a c => f (g a) c) l m.
Proof. revert m; induction l; intros [|c m]; cbn; try reflexivity. rewrite IHl. reflexivity. Qed.
Lemma map_zip {A B C D} (g : C -> D) (f : A -> B -> C) l m :
  map g (zip_with f l m) = zip_with (fun a b => g (f a b)) l m.
Proof. revert m; induction l; intros [|c m]; cbn; try reflexivity. rewrite IHl. reflexivity. Qed.
Lemma zip_ext {A B C} (f g : A -> B -> C) l m : (forall a b, f a b = g a b) -> zip_with f l m = zip_with g l m.
Proof. intros H. revert m; induction l; intros [|c m]; cbn; try reflexivity. rewrite H, IHl. reflexivity. Qed.

Lemma set_col2_0 {A} (bs : list (A * A)) vals : length vals = length bs ->
  set_col (arr2 bs) 0 vals = Ok (arr2 (zip_with (fun b v => (v, snd b)) bs vals)).
Proof.
  intros H. unfold set_col. rewrite arr2_nrows, H, Nat.eqb_refl. cbn. f_equal. unfold arr2. f_equal.
  rewrite zip_map_l, map_zip. apply zip_ext. intros [x y] v. reflexivity.
Qed.
Lemma set_col2_1 {A} (bs : list (A * A)) vals : length vals = length bs ->
  set_col (arr2 bs) 1 vals = Ok (arr2 (zip_with (fun b v => (fst b, v)) bs vals)).
Proof.
  intros H. unfold set_col. rewrite arr2_nrows, H, Nat.eqb_refl. cbn. f_equal. unfold arr2. f_equal.
  rewrite zip_map_l, map_zip. apply zip_ext. intros [x y] v. reflexivity.
Qed.
Lemma set_col3_0 {A} (bs : list (A * A * A)) vals : length vals = length bs ->
  set_col (arr3 bs) 0 vals = Ok (arr3 (zip_with (fun b v => (v, snd (fst b), snd b)) bs vals)).
Proof.
  intros H. unfold set_col. rewrite arr3_nrows, H, Nat.eqb_refl. cbn. f_equal. unfold arr3. f_equal.
  rewrite zip_map_l, map_zip. apply zip_ext. intros [[x y] z] v. reflexivity.
Qed.
Lemma set_col3_1 {A} (bs : list (A * A * A)) vals : length vals = length bs ->
  set_col (arr3 bs) 1 vals = Ok (arr3 (zip_with (fun b v => (fst (fst b), v, snd b)) bs vals)).
Proof.
  intros H. unfold set_col. rewrite arr3_nrows, H, Nat.eqb_refl. cbn. f_equal. unfold arr3. f_equal.
  rewrite zip_map_l, map_zip. apply zip_ext. intros [[x y] z] v. reflexivity.
Qed.
Lemma set_col3_2 {A} (bs : list (A * A * A)) vals : length vals = length bs ->
  set_col (arr3 bs) 2 vals = Ok (arr3 (zip_with (fun b v => (fst (fst b), snd (fst b), v)) bs vals)).
Proof.
  intros H. unfold set_col. rewrite arr3_nrows, H, Nat.eqb_refl. cbn. f_equal. unfold arr3. f_equal.
  rewrite zip_map_l, map_zip. apply zip_ext. intros [[x y] z] v. reflexivity.
Qed.

Lemma zip_length2 {A B C} (f : A -> B -> C) l m : length m = length l -> length (zip_with f l m) = length l.
Proof. revert m; induction l; intros [|c m]; cbn; intros H; try reflexivity; try discriminate. rewrite IHl; congruence. Qed.

(** All columns assigned: nothing of the old contents remains. *)
Lemma fill2 {A} (bs : list (A * A)) xs ys : length xs = length bs -> length ys = length bs ->
  (let* o := set_col (arr2 bs) 0 xs in set_col o 1 ys) = Ok (arr2 (combine xs ys)).
Proof.
  intros Hx Hy. rewrite (set_col2_0 _ _ Hx). cbn [bind].
  rewrite set_col2_1 by (rewrite zip_length2 by exact Hx; exact Hy). do 2 f_equal.
  revert xs ys Hx Hy. induction bs as [|b bs IH]; intros [|x xs] [|y ys] Hx Hy; cbn in *; try discriminate;
    [reflexivity|]. rewrite IH by congruence. reflexivity.
Qed.

Lemma fill3 {A} (bs : list (A * A * A)) xs ys zs :
  length xs = length bs -> length ys = length bs -> length zs = length bs ->
  (let* o := set_col (arr3 bs) 0 xs in let* o1 := set_col o 1 ys in set_col o1 2 zs)
  = Ok (arr3 (combine (combine xs ys) zs)).
Proof.
  intros Hx Hy Hz. rewrite (set_col3_0 _ _ Hx). cbn [bind].
  rewrite set_col3_1 by (rewrite zip_length2 by exact Hx; exact Hy). cbn [bind].
  rewrite set_col3_2 by (rewrite !zip_length2; try assumption; rewrite zip_length2; assumption).
  do 2 f_equal.
  revert xs ys zs Hx Hy Hz. induction bs as [|b bs IH]; intros [|x xs] [|y ys] [|z zs] Hx Hy Hz;
    cbn in *; try discriminate; [reflexivity|]. rewrite IH by congruence. reflexivity.
Qed.

Lemma combine_map {A B C} (f : A -> B) (g : A -> C) l : combine (map f l) (map g l) = map (fun a => (f a, g a)) l.
Proof. induction l; cbn; congruence. Qed.

Section HighPerf.
  Context {T : Type} (O : ops T).

  (** Contents of an index buffer in use: right number of columns. *)
  Definition idx2 (b : option (mat (option T))) : Prop :=
    match b with None => True | Some m => exists bs, m = arr2 bs end.
  Definition idx3 (b : option (mat (option T))) : Prop :=
    match b with None => True | Some m => exists bs, m = arr3 bs end.

  (** The value of one component at one point: no buffer involved. *)
  Definition eval2 (v : nd T) (ax ay : axis T) (pts : list (T * T)) : res (list T) :=
    match shape v with
    | [sx; sy] => mapr (fun p => interp2d_point O (data v) (int_of_ssize (Z.of_nat sx))
                                   (int_of_ssize (Z.of_nat sy)) (to_grid O ax (fst p)) (to_grid O ay (snd p))) pts
    | _ => Err RuntimeError
    end.
  Definition eval3 (v : nd T) (ax ay az : axis T) (pts : list (T * T * T)) : res (list T) :=
    match shape v with
    | [sx; sy; sz] =>
        let* YZ := c_int (int_of_ssize (Z.of_nat sy) * int_of_ssize (Z.of_nat sz)) in
        mapr (fun p => interp3d_point O (data v) (int_of_ssize (Z.of_nat sx)) (int_of_ssize (Z.of_nat sy))
                         (int_of_ssize (Z.of_nat sz)) YZ
                         (to_grid O ax (fst (fst p))) (to_grid O ay (snd (fst p))) (to_grid O az (snd p))) pts
    | _ => Err RuntimeError
    end.

  Lemma eval2_length v ax ay pts vals : eval2 v ax ay pts = Ok vals -> length vals = length pts.
  Proof.
    unfold eval2. destruct (shape v) as [|? [|? [|]]]; try discriminate. apply mapr_len.
  Qed.
  Lemma eval3_length v ax ay az pts vals : eval3 v ax ay az pts = Ok vals -> length vals = length pts.
  Proof.
    unfold eval3. destruct (shape v) as [|? [|? [|? [|]]]]; try discriminate.
    destruct (c_int _); [|discriminate]. apply mapr_len.
  Qed.

  Lemma grid_buffer2 junk b pts : idx2 b ->
    exists bs, grid_buffer junk b (arr2 pts) = arr2 bs /\ length bs = length pts.
  Proof.
    intros H. unfold grid_buffer.
    assert (J : exists bs, junk_mat junk (nrows (arr2 pts)) (mcols (arr2 pts)) = arr2 bs /\ length bs = length pts).
    { cbn [arr2 mcols]. change (nrows (Mat 2 (map row2 pts))) with (nrows (arr2 pts)). rewrite junk_arr2.
      eexists. split; [reflexivity|]. rewrite map_length, seq_length. apply arr2_nrows. }
    destruct b as [m|]; [|exact J]. destruct (Nat.eqb_spec (nrows m) (nrows (arr2 pts))) as [E|E]; [|exact J].
    destruct H as [bs ->]. exists bs. split; [reflexivity|]. rewrite !arr2_nrows in E. exact E.
  Qed.
  Lemma grid_buffer3 junk b pts : idx3 b ->
    exists bs, grid_buffer junk b (arr3 pts) = arr3 bs /\ length bs = length pts.
  Proof.
    intros H. unfold grid_buffer.
    assert (J : exists bs, junk_mat junk (nrows (arr3 pts)) (mcols (arr3 pts)) = arr3 bs /\ length bs = length pts).
    { cbn [arr3 mcols]. change (nrows (Mat 3 (map row3 pts))) with (nrows (arr3 pts)). rewrite junk_arr3.
      eexists. split; [reflexivity|]. rewrite map_length, seq_length. apply arr3_nrows. }
    destruct b as [m|]; [|exact J]. destruct (Nat.eqb_spec (nrows m) (nrows (arr3 pts))) as [E|E]; [|exact J].
    destruct H as [bs ->]. exists bs. split; [reflexivity|]. rewrite !arr3_nrows in E. exact E.
  Qed.

  Lemma call2d_eq junk v ax ay b pts out : idx2 b -> length out = length pts ->
    exists b', idx2 b' /\
      call2d O junk (Interp2D v ax ay b) (arr2 pts) out = (Interp2D v ax ay b', eval2 v ax ay pts).
  Proof.
    intros Hb Hl. unfold call2d. cbn [i2_v i2_x i2_y i2_buffer].
    destruct (grid_buffer2 junk b pts Hb) as [bs [E Hbs]]. rewrite E. clear E.
    set (xs := map (fun p => to_grid O ax (fst p)) pts). set (ys := map (fun p => to_grid O ay (snd p)) pts).
    assert (F : (let* b0 := fill_col O ax 0 (arr2 pts) (arr2 bs) in fill_col O ay 1 (arr2 pts) b0)
                = Ok (arr2 (combine xs ys))).
    { unfold fill_col. rewrite get_col2_0, get_col2_1. cbn [bind]. rewrite !map_map.
      apply fill2; unfold xs, ys; rewrite map_length; congruence. }
    rewrite F. exists (Some (arr2 (combine xs ys))). split; [eexists; reflexivity|]. f_equal.
    unfold xs, ys. rewrite combine_map. unfold interp2d_vec_inplace, eval2.
    destruct (shape v) as [|sx [|sy [|]]]; try reflexivity.
    rewrite arr2_nrows, map_length, Hl. change (mcols (arr2 _)) with 2. cbn [Nat.eqb negb].
    rewrite Nat.eqb_refl. cbn [negb]. unfold arr2. cbn [mrows]. rewrite !mapr_map. reflexivity.
  Qed.

  Lemma call3d_eq junk v ax ay az b pts out : idx3 b -> length out = length pts ->
    exists b', idx3 b' /\
      call3d O junk (Interp3D v ax ay az b) (arr3 pts) out = (Interp3D v ax ay az b', eval3 v ax ay az pts).
  Proof.
    intros Hb Hl. unfold call3d. cbn [i3_v i3_x i3_y i3_z i3_buffer].
    destruct (grid_buffer3 junk b pts Hb) as [bs [E Hbs]]. rewrite E. clear E.
    set (xs := map (fun p => to_grid O ax (fst (fst p))) pts).
    set (ys := map (fun p => to_grid O ay (snd (fst p))) pts).
    set (zs := map (fun p => to_grid O az (snd p)) pts).
    assert (F : (let* b0 := fill_col O ax 0 (arr3 pts) (arr3 bs) in
                 let* b1 := fill_col O ay 1 (arr3 pts) b0 in fill_col O az 2 (arr3 pts) b1)
                = Ok (arr3 (combine (combine xs ys) zs))).
    { unfold fill_col. rewrite get_col3_0, get_col3_1, get_col3_2. cbn [bind]. rewrite !map_map.
      apply fill3; unfold xs, ys, zs; rewrite map_length; congruence. }
    rewrite F. exists (Some (arr3 (combine (combine xs ys) zs))). split; [eexists; reflexivity|]. f_equal.
    unfold xs, ys, zs. rewrite !combine_map. unfold interp3d_vec_inplace, eval3.
    destruct (shape v) as [|sx [|sy [|sz [|]]]]; try reflexivity.
    rewrite arr3_nrows, map_length, Hl. change (mcols (arr3 _)) with 3. cbn [Nat.eqb negb].
    rewrite Nat.eqb_refl. cbn [negb]. unfold arr3. cbn [mrows]. destruct (c_int _); [|reflexivity].
    cbn [bind]. rewrite !mapr_map. reflexivity.
  Qed.

  (** Output buffers of one length; in three dimensions there are three of them. *)
  Definition outs_ok (dim : nat) (o : highperf T) : Prop :=
    match h_u o with
    | None => True
    | Some bu => exists bv, h_v o = Some bv /\ length bv = length bu /\
                 (dim = 3 -> exists bw, h_w o = Some bw /\ length bw = length bu)
    end.

  (** The object holds this field. *)
  Definition holds2 (o : highperf T) (vx vy : nd T) (ax ay : axis T) : Prop :=
    h_z o = None /\ outs_ok 2 o /\
    exists bx by_, idx2 bx /\ idx2 by_ /\
      h_x o = Some (C2 (Interp2D vx ax ay bx)) /\ h_y o = Some (C2 (Interp2D vy ax ay by_)).

  Definition holds3 (o : highperf T) (vx vy vz : nd T) (ax ay az : axis T) : Prop :=
    outs_ok 3 o /\
    exists bx by_ bz, idx3 bx /\ idx3 by_ /\ idx3 bz /\
      h_x o = Some (C3 (Interp3D vx ax ay az bx)) /\ h_y o = Some (C3 (Interp3D vy ax ay az by_)) /\
      h_z o = Some (C3 (Interp3D vz ax ay az bz)).

  Lemma ensure_spec mem o n dim : (dim = 2 \/ dim = 3) -> outs_ok dim o ->
    let o' := ensure_buffers mem o n dim in
    h_x o' = h_x o /\ h_y o' = h_y o /\ h_z o' = h_z o /\ h_shape o' = h_shape o /\
    h_velocities o' = h_velocities o /\ h_points o' = h_points o /\
    exists bu bv, h_u o' = Some bu /\ h_v o' = Some bv /\ length bu = n /\ length bv = n /\
      (dim = 3 -> exists bw, h_w o' = Some bw /\ length bw = n).
  Proof.
    intros Hd H. unfold outs_ok in H. unfold ensure_buffers.
    assert (J : forall f : nat -> T, length (junk_list f n) = n).
    { intros f. unfold junk_list. rewrite map_length. apply seq_length. }
    destruct (h_u o) as [bu|] eqn:Eu.
    - destruct H as [bv [Ev [Lv Hw]]]. destruct (Nat.eqb_spec (length bu) n) as [E|E].
      + cbv zeta. repeat split. exists bu, bv. rewrite Eu, Ev. repeat split; try congruence.
        intros H3. destruct (Hw H3) as [bw [Ew Lw]]. exists bw. split; congruence.
      + cbn. repeat split. eexists _, _. repeat split; try apply J.
        intros ->. cbn. eexists. split; [reflexivity|apply J].
    - cbn. repeat split. eexists _, _. repeat split; try apply J.
      intros ->. cbn. eexists. split; [reflexivity|apply J].
  Qed.

  Lemma interpolate2_eq mem o vx vy ax ay pts : holds2 o vx vy ax ay ->
    exists o', holds2 o' vx vy ax ay /\
      highperf_interpolate O mem o (arr2 pts) =
        (o', let* us := eval2 vx ax ay pts in let* vs := eval2 vy ax ay pts in Ok (arr2 (combine us vs))).
  Proof.
    intros [Hz [Ho [bx [by_ [Ix [Iy [Ex Ey]]]]]]]. unfold highperf_interpolate.
    destruct (ensure_spec mem o (nrows (arr2 pts)) 2 (or_introl eq_refl) Ho)
      as [Px [Py [Pz [_ [_ [_ [bu [bv [Eu [Ev [Lu [Lv _]]]]]]]]]]]].
    change (mcols (arr2 pts)) with 2.
    set (o0 := ensure_buffers mem o (nrows (arr2 pts)) 2) in *. clearbody o0.
    cbv beta iota. rewrite Px, Py, Ex, Ey. rewrite arr2_nrows in Lu, Lv.
    unfold run_x, call_component. rewrite Eu.
    destruct (call2d_eq (index_junk mem 4) vx ax ay bx pts bu Ix Lu) as [bx' [Ix' Cx]]. rewrite Cx.
    destruct (eval2 vx ax ay pts) as [us|e] eqn:EVx; cbn [bind].
    - unfold run_y, call_component, with_u. cbn [h_v h_y h_x h_z h_u h_w h_shape h_velocities h_points].
      rewrite Ev.
      destruct (call2d_eq (index_junk mem 5) vy ax ay by_ pts bv Iy Lv) as [by' [Iy' Cy]]. rewrite Cy.
      destruct (eval2 vy ax ay pts) as [vs|e] eqn:EVy; cbn [bind].
      + eexists. split; [|f_equal].
        * repeat split; cbn; [congruence| |].
          -- unfold outs_ok. cbn. exists vs. split; [reflexivity|]. split; [|discriminate].
             rewrite (eval2_length _ _ _ _ _ EVx), (eval2_length _ _ _ _ _ EVy). reflexivity.
          -- exists bx', by'. auto.
        * unfold empty_like. rewrite arr2_nrows. change (mcols (arr2 pts)) with 2. rewrite junk_arr2.
          apply fill2; rewrite map_length, seq_length;
            [apply (eval2_length _ _ _ _ _ EVx)|apply (eval2_length _ _ _ _ _ EVy)].
      + eexists. split; [|reflexivity].
        repeat split; cbn; [congruence| |].
        * unfold outs_ok. cbn. exists bv. split; [first [reflexivity|assumption]|]. split; [|discriminate].
          rewrite (eval2_length _ _ _ _ _ EVx). exact Lv.
        * exists bx', by'. auto.
    - eexists. split; [|reflexivity].
      repeat split; cbn; [congruence| |].
      + unfold outs_ok. cbn. rewrite Eu. exists bv. split; [exact Ev|]. split; [congruence|discriminate].
      + exists bx', by_. repeat split; try assumption. congruence.
  Qed.

  Lemma interpolate3_eq mem o vx vy vz ax ay az pts : holds3 o vx vy vz ax ay az ->
    exists o', holds3 o' vx vy vz ax ay az /\
      highperf_interpolate O mem o (arr3 pts) =
        (o', let* us := eval3 vx ax ay az pts in let* vs := eval3 vy ax ay az pts in
             let* ws := eval3 vz ax ay az pts in Ok (arr3 (combine (combine us vs) ws))).
  Proof.
    intros [Ho [bx [by_ [bz [Ix [Iy [Iz [Ex [Ey Ez]]]]]]]]]. unfold highperf_interpolate.
    destruct (ensure_spec mem o (nrows (arr3 pts)) 3 (or_intror eq_refl) Ho)
      as [Px [Py [Pz [_ [_ [_ [bu [bv [Eu [Ev [Lu [Lv Hw]]]]]]]]]]]].
    destruct (Hw eq_refl) as [bw [Ew Lw]].
    change (mcols (arr3 pts)) with 3.
    set (o0 := ensure_buffers mem o (nrows (arr3 pts)) 3) in *. clearbody o0.
    cbv beta iota. rewrite Px, Py, Pz, Ex, Ey, Ez. rewrite arr3_nrows in Lu, Lv, Lw.
    unfold run_x, call_component. rewrite Eu.
    destruct (call3d_eq (index_junk mem 4) vx ax ay az bx pts bu Ix Lu) as [bx' [Ix' Cx]]. rewrite Cx.
    destruct (eval3 vx ax ay az pts) as [us|e] eqn:EVx; cbn [bind].
    - unfold run_y, call_component, with_u. cbn [h_v h_y h_x h_z h_u h_w h_shape h_velocities h_points].
      rewrite Ev.
      destruct (call3d_eq (index_junk mem 5) vy ax ay az by_ pts bv Iy Lv) as [by' [Iy' Cy]]. rewrite Cy.
      destruct (eval3 vy ax ay az pts) as [vs|e] eqn:EVy; cbn [bind].
      + unfold run_z, call_component, with_v. cbn [h_v h_y h_x h_z h_u h_w h_shape h_velocities h_points].
        rewrite Ew.
        destruct (call3d_eq (index_junk mem 6) vz ax ay az bz pts bw Iz Lw) as [bz' [Iz' Cz]]. rewrite Cz.
        destruct (eval3 vz ax ay az pts) as [ws|e] eqn:EVz; cbn [bind].
        * eexists. split; [|f_equal].
          -- split; [|exists bx', by', bz'; cbn; auto 10].
             unfold outs_ok. cbn. exists vs. split; [reflexivity|].
             rewrite (eval3_length _ _ _ _ _ _ EVx), (eval3_length _ _ _ _ _ _ EVy). split; [reflexivity|].
             intros _. exists ws. split; [reflexivity|]. apply (eval3_length _ _ _ _ _ _ EVz).
          -- unfold empty_like. rewrite arr3_nrows. change (mcols (arr3 pts)) with 3. rewrite junk_arr3.
             apply fill3; rewrite map_length, seq_length;
               [apply (eval3_length _ _ _ _ _ _ EVx)|apply (eval3_length _ _ _ _ _ _ EVy)
               |apply (eval3_length _ _ _ _ _ _ EVz)].
        * eexists. split; [|reflexivity].
          split; [|exists bx', by', bz'; cbn; auto 10].
          unfold outs_ok. cbn. exists vs. split; [reflexivity|].
          rewrite (eval3_length _ _ _ _ _ _ EVx), (eval3_length _ _ _ _ _ _ EVy). split; [reflexivity|].
          intros _. exists bw. auto.
      + eexists. split; [|reflexivity].
        split; [|exists bx', by', bz; cbn; repeat split; auto; congruence].
        unfold outs_ok. cbn. exists bv. split; [first [reflexivity|assumption]|].
        rewrite (eval3_length _ _ _ _ _ _ EVx). split; [exact Lv|].
        intros _. exists bw. auto.
    - eexists. split; [|reflexivity].
      split; [|exists bx', by_, bz; cbn; repeat split; auto; congruence].
      unfold outs_ok. cbn. rewrite Eu. exists bv. split; [exact Ev|]. split; [congruence|].
      intros _. exists bw. split; [exact Ew|congruence].
  Qed.
End HighPerf.
