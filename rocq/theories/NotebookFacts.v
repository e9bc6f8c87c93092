(** Lemmas about the seed recipes of the notebooks (Notebook.v). *)
From Coq Require Import String Lia Reals Lra.
From Verif Require Import Base Num NdArray NdFacts Particles SpecSeeds ParticleFacts Readers SpecFiles ReaderFacts Notebook.
Local Open Scope list_scope.
Local Arguments Nat.ltb : simpl never.

Section Arrays.
  Context {T : Type}.

  Lemma nth_rows {A B C} (f : A -> B -> C) (ys : list A) (xs : list B) r c y x :
    nth_error ys r = Some y -> nth_error xs c = Some x ->
    nth_error (flat_map (fun y => map (f y) xs) ys) (r * length xs + c) = Some (f y x).
  Proof.
    intros Hy Hx. rewrite flat_map_concat_map.
    assert (Hc : c < length xs) by (apply nth_error_Some; congruence).
    rewrite (nth_concat _ (length xs) r c (map (f y) xs)); [rewrite nth_error_map, Hx; reflexivity| |rewrite nth_error_map, Hy; reflexivity|exact Hc].
    apply Forall_forall. intros l Hl. apply in_map_iff in Hl as (a & <- & _). apply map_length.
  Qed.

  Lemma length_rows {A B C} (f : A -> B -> C) (ys : list A) (xs : list B) :
    length (flat_map (fun y => map (f y) xs) ys) = length ys * length xs.
  Proof. induction ys as [|y ys IH]; [reflexivity|]. cbn [flat_map length]. rewrite app_length, map_length, IH. lia. Qed.

  Lemma map_rows {A B C D} (g : C -> D) (f : A -> B -> C) (ys : list A) (xs : list B) :
    map g (flat_map (fun y => map (f y) xs) ys) = flat_map (fun y => map (fun x => g (f y x)) xs) ys.
  Proof. induction ys as [|y ys IH]; [reflexivity|]. cbn [flat_map]. rewrite map_app, map_map, IH. reflexivity. Qed.

  Lemma nth_same {A} n (rows : list (list A)) k i l : Forall (fun r => length r = n) rows ->
    nth_error rows k = Some l -> i < n -> nth_error (concat rows) (k * n + i) = nth_error l i.
  Proof. intros F Hk Hi. exact (nth_concat rows n k i l F Hk Hi). Qed.

  (** Stacking on a new second axis and reshaping in column-major order puts the arrays one below the other. *)
  Lemma stacked_rows (ms : list (mat T)) n d : ms <> [] -> 0 < d ->
    Forall (fun m => wf_mat m /\ nrows m = n /\ mcols m = d) ms ->
    (let* a := stack_axis1 ms in reshape_rows a d) = Ok (Mat d (concat (map mrows ms))).
  Proof.
    intros Hne Hd F.
    set (b := Mat d (concat (map mrows ms))).
    assert (Fn : Forall (fun r => length r = n) (map mrows ms)).
    { apply Forall_forall. intros l Hl. apply in_map_iff in Hl as (m & <- & Hm). rewrite Forall_forall in F. apply F in Hm as (_ & <- & _). reflexivity. }
    assert (Wb : wf_mat b).
    { unfold wf_mat, b. cbn [mrows mcols]. apply Forall_forall. intros r Hr. apply in_concat in Hr as (l & Hl & Hr).
      apply in_map_iff in Hl as (m & <- & Hm). rewrite Forall_forall in F. destruct (F _ Hm) as (W & _ & <-).
      unfold wf_mat in W. rewrite Forall_forall in W. exact (W _ Hr). }
    assert (Nb : nrows b = length ms * n).
    { unfold nrows, b. cbn [mrows]. rewrite (concat_length_rows _ n Fn), map_length. reflexivity. }
    assert (Ei : forall i k c, i < n -> k < length ms -> c < d -> exists m r v, nth_error ms k = Some m /\ nth_error (mrows m) i = Some r /\ nth_error r c = Some v).
    { intros i k c Hi Hk Hc. destruct (nth_error ms k) as [m|] eqn:Em; [|apply nth_error_None in Em; lia].
      rewrite Forall_forall in F. destruct (F _ (nth_error_In _ _ Em)) as (W & Hn & Hm). unfold nrows in Hn.
      destruct (nth_error (mrows m) i) as [r|] eqn:Er; [|apply nth_error_None in Er; lia].
      unfold wf_mat in W. rewrite Forall_forall in W. pose proof (W _ (nth_error_In _ _ Er)) as Hl.
      destruct (nth_error r c) as [v|] eqn:Ev; [|apply nth_error_None in Ev; lia]. exists m, r, v. auto. }
    unfold stack_axis1. destruct ms as [|m0 ms']; [congruence|].
    destruct (Forall_inv F) as (_ & Hn0 & Hd0). rewrite Hn0, Hd0.
    assert (Eb : forallb (fun m => (nrows m =? n) && (mcols m =? d)) (m0 :: ms') = true).
    { apply forallb_forall. intros m Hm. rewrite Forall_forall in F. destruct (F _ Hm) as (_ & -> & ->). rewrite !Nat.eqb_refl. reflexivity. }
    rewrite Eb. clear Eb. set (ms := m0 :: ms') in *.
    set (f := fun ix => match ix with [i; k; c] => let* m := get ms k in let* r := get (mrows m) i in get r c | _ => Err IndexError end).
    destruct (nd_build_ok [n; length ms; d] f) as (a & Ea & Sa & Wa & Ga).
    { intros ix Hix. destruct ix as [|i [|k [|c [|]]]]; cbn in Hix; try discriminate; try (rewrite !andb_false_r in Hix; discriminate).
      rewrite !andb_true_iff, !Nat.ltb_lt in Hix. destruct Hix as (Hi & Hk & Hc & _).
      destruct (Ei i k c Hi Hk Hc) as (m & r & v & E1 & E2 & E3). exists v. unfold f, get. rewrite E1. cbn [bind]. rewrite E2. cbn [bind]. rewrite E3. reflexivity. }
    fold f. rewrite Ea. cbn [bind]. unfold reshape_rows. rewrite Sa.
    assert (Es : size [n; length ms; d] / d = length ms * n).
    { cbn [size]. rewrite Nat.mul_1_r. replace (n * (length ms * d)) with (length ms * n * d) by lia. apply Nat.div_mul. lia. }
    rewrite Es.
    destruct (reshape_f_ok a [length ms * n; d] Wa) as (a' & Ea' & Sa' & Wa' & Ga').
    { rewrite Sa. cbn [size]. lia. }
    rewrite Ea'. cbn [bind].
    assert (E : a' = nd_of_mat b).
    { apply nd_ext; [exact Wa'|apply nd_of_mat_wf, Wb|rewrite Sa'; unfold nd_of_mat; cbn [shape]; rewrite Nb; reflexivity|].
      rewrite Sa'. intros ix Hix. rewrite (Ga' _ Hix). pose proof Hix as Hix0. destruct ix as [|j [|c [|]]]; cbn [in_bounds] in Hix; try discriminate; try (rewrite !andb_false_r in Hix; discriminate).
      rewrite !andb_true_iff, !Nat.ltb_lt in Hix. destruct Hix as (Hj & Hc & _).
      assert (Hn : 0 < n) by nia.
      assert (Ej : j = (j / n) * n + j mod n) by (pose proof (Nat.div_mod j n); lia).
      assert (Hi : j mod n < n) by (apply Nat.mod_upper_bound; lia).
      assert (Hk : j / n < length ms) by (apply Nat.div_lt_upper_bound; [lia|rewrite Nat.mul_comm; exact Hj]).
      assert (Eu : f_unravel (shape a) (f_ravel [length ms * n; d] [j; c]) = [j mod n; j / n; c]).
      { rewrite Sa. rewrite <- (f_unravel_ravel [n; length ms; d] [j mod n; j / n; c]).
        - f_equal. cbn [f_ravel]. clear - Ej. revert Ej. generalize (j / n) (j mod n) (length ms). intros q t L ->. ring.
        - cbn. rewrite !andb_true_iff, !Nat.ltb_lt. auto. }
      rewrite Eu. rewrite Ga by (cbn; rewrite !andb_true_iff, !Nat.ltb_lt; auto).
      destruct (Ei (j mod n) (j / n) c Hi Hk Hc) as (m & r & v & E1 & E2 & E3).
      unfold f, get. rewrite E1. cbn [bind]. rewrite E2. cbn [bind]. rewrite E3. symmetry.
      apply (nd_of_mat_get b j c r v Wb); [|exact E3]. unfold b. cbn [mrows]. rewrite Ej.
      rewrite (nth_same n (map mrows ms) (j / n) (j mod n) (mrows m) Fn); [exact E2| |exact Hi].
      rewrite nth_error_map, E1. reflexivity. }
    rewrite E. unfold mat_of_nd, nd_of_mat, nrows. cbn [shape data]. rewrite ReaderFacts.chunks_concat; [reflexivity|exact Wb].
  Qed.
End Arrays.

Section Recipe.
  Context {T : Type} (O : ops T).

  (** The group that the recipe in the plane puts around a point. *)
  Definition shifted2 (s x y : T) : group2 T :=
    Group2 (o_sub O x s, o_sub O y (o_zero O)) (o_add O x s, o_add O y (o_zero O))
           (o_add O x (o_zero O), o_add O y s) (o_sub O x (o_zero O), o_sub O y s).
  Definition shifted3 (s x y z : T) : group3 T :=
    Group3 (o_sub O x s, y, z) (o_add O x s, y, z) (x, o_add O y s, z) (x, o_sub O y s, z) (x, y, o_add O z s) (x, y, o_sub O z s).

  Definition cells2 (xs ys : list T) : list (T * T) := flat_map (fun y => map (fun x => (x, y)) xs) ys.
  Definition groups2 (s : T) (xs ys : list T) : list (group2 T) := flat_map (fun y => map (fun x => shifted2 s x y) xs) ys.

  Lemma groups2_cells s xs ys : groups2 s xs ys = map (fun c => shifted2 s (fst c) (snd c)) (cells2 xs ys).
  Proof. unfold groups2, cells2. rewrite map_rows. reflexivity. Qed.

  Lemma length_cells2 xs ys : length (cells2 xs ys) = length ys * length xs.
  Proof. apply (length_rows (fun y x => (x, y))). Qed.

  Lemma central_rows xs ys : let '(Xc, Yc) := meshgrid_xy xs ys in column_stack2 (ravel_c Xc) (ravel_c Yc) = Ok (arr2 (cells2 xs ys)).
  Proof.
    cbn. unfold column_stack2, arr2.
    assert (E : zip_with (fun u v => [u; v]) (flat_map (fun _ => xs) ys) (flat_map (fun b => map (fun _ => b) xs) ys) = map row2 (cells2 xs ys) /\
                length (flat_map (fun _ : T => xs) ys) = length (flat_map (fun b => map (fun _ => b) xs) ys)).
    { unfold cells2. induction ys as [|y ys [IH1 IH2]]; [split; reflexivity|]. cbn [flat_map]. split.
      - rewrite map_app, map_map, <- IH1. cbn [row2]. generalize (flat_map (fun _ : T => xs) ys), (flat_map (fun b => map (fun _ : T => b) xs) ys). clear. intros l m.
        induction xs as [|x xs IH]; [reflexivity|]. cbn. rewrite IH. reflexivity.
      - rewrite !app_length, map_length, IH2. reflexivity. }
    destruct E as [E1 E2]. rewrite E2, Nat.eqb_refl, E1. reflexivity.
  Qed.

  Lemma shift_rows f (l : list (T * T)) a b : shift f (arr2 l) [a; b] = Ok (arr2 (map (fun p => (f (fst p) a, f (snd p) b)) l)).
  Proof. unfold shift, arr2. cbn [mcols mrows length Nat.eqb]. rewrite !map_map. do 2 f_equal. apply map_ext. intros [x y]. reflexivity. Qed.

  Lemma neighbors_rows xs ys s : neighbors_2d O xs ys s = let gs := groups2 s xs ys in
    Ok (arr2 (map g_left gs), arr2 (map g_right gs), arr2 (map g_top gs), arr2 (map g_bottom gs)).
  Proof.
    unfold neighbors_2d. pose proof (central_rows xs ys) as H. destruct (meshgrid_xy xs ys) as [Xc Yc]. rewrite H. cbn [bind].
    repeat (rewrite shift_rows; cbn [bind]).
    cbv zeta. rewrite groups2_cells, !map_map. reflexivity.
  Qed.

  Lemma arr2_ok (l : list (T * T)) : wf_mat (arr2 l) /\ nrows (arr2 l) = length l /\ mcols (arr2 l) = 2.
  Proof.
    split; [|split; [apply map_length|reflexivity]]. unfold wf_mat, arr2. cbn. apply Forall_forall. intros r Hr.
    apply in_map_iff in Hr as ([x y] & <- & _). reflexivity.
  Qed.
  Lemma arr3_ok (l : list (T * T * T)) : wf_mat (arr3 l) /\ nrows (arr3 l) = length l /\ mcols (arr3 l) = 3.
  Proof.
    split; [|split; [apply map_length|reflexivity]]. unfold wf_mat, arr3. cbn. apply Forall_forall. intros r Hr.
    apply in_map_iff in Hr as ([[x y] z] & <- & _). reflexivity.
  Qed.

  Lemma positions_rows xs ys s : positions_2d O xs ys s = Ok (layout2 (groups2 s xs ys)).
  Proof.
    unfold positions_2d. rewrite neighbors_rows. cbn [bind]. cbv zeta. set (gs := groups2 s xs ys).
    rewrite (stacked_rows _ (length gs) 2); [|discriminate|lia|].
    - unfold layout2, arr2. cbn [map mrows concat]. rewrite app_nil_r, <- !map_app. reflexivity.
    - repeat (constructor; [destruct (arr2_ok (map g_left gs)), (arr2_ok (map g_right gs)), (arr2_ok (map g_top gs)), (arr2_ok (map g_bottom gs)); rewrite !map_length in *; tauto|]). constructor.
  Qed.

  (** The file of the second notebook holds the same particles. *)
  Lemma file_particles xs ys s : exists data p, particle_file_2d O xs ys s = Ok data /\
    read_seed_particles_coordinates O data = Ok p /\ mk_particles O (layout2 (groups2 s xs ys)) = Ok p.
  Proof.
    unfold particle_file_2d. rewrite neighbors_rows. cbn [bind]. cbv zeta. eexists.
    destruct (seeds_2d O (fun key : string => if String.eqb key "top" then Some (nd_of_mat (arr2 (map g_top (groups2 s xs ys)))) else
                   if String.eqb key "bottom" then Some (nd_of_mat (arr2 (map g_bottom (groups2 s xs ys)))) else
                   if String.eqb key "left" then Some (nd_of_mat (arr2 (map g_left (groups2 s xs ys)))) else
                   if String.eqb key "right" then Some (nd_of_mat (arr2 (map g_right (groups2 s xs ys)))) else None) (groups2 s xs ys)) as (p & H1 & H2); try reflexivity; [left; reflexivity|].
    exists p. split; [reflexivity|]. split; [exact H1|exact H2].
  Qed.

  (** In space. *)
  Definition cells3 (xs ys zs : list T) : list (T * T * T) :=
    flat_map (fun x => flat_map (fun y => map (fun z => (x, y, z)) zs) ys) xs.
  Definition groups3 (s : T) (xs ys zs : list T) : list (group3 T) :=
    flat_map (fun x => flat_map (fun y => map (fun z => shifted3 s x y z) zs) ys) xs.

  Lemma map_cells {A} (g : T * T * T -> A) xs ys zs : map g (cells3 xs ys zs) = flat_map (fun x => flat_map (fun y => map (fun z => g (x, y, z)) zs) ys) xs.
  Proof.
    unfold cells3. induction xs as [|x xs IH]; [reflexivity|]. cbn [flat_map]. rewrite map_app, IH, map_rows. reflexivity.
  Qed.
  Lemma groups3_cells s xs ys zs : groups3 s xs ys zs = map (fun c => shifted3 s (fst (fst c)) (snd (fst c)) (snd c)) (cells3 xs ys zs).
  Proof. rewrite map_cells. reflexivity. Qed.

  Lemma mesh_rows xs ys zs : meshgrid_ij xs ys zs =
    let sh := [length xs; length ys; length zs] in
    (Nd sh (map (fun c => fst (fst c)) (cells3 xs ys zs)), Nd sh (map (fun c => snd (fst c)) (cells3 xs ys zs)), Nd sh (map snd (cells3 xs ys zs))).
  Proof.
    unfold meshgrid_ij. cbv zeta. rewrite !map_cells. cbn [fst snd]. do 2 f_equal.
    apply flat_map_ext. intros x. apply flat_map_ext. intros y. symmetry. apply map_id.
  Qed.

  Lemma columns_rows {X} (a b c : X -> T) (l : list X) : column_stack3 (map a l) (map b l) (map c l) = Ok (arr3 (map (fun x => (a x, b x, c x)) l)).
  Proof.
    unfold column_stack3. rewrite !map_length, !Nat.eqb_refl. cbn [andb]. unfold arr3. do 2 f_equal.
    induction l as [|x l IH]; [reflexivity|]. cbn in *. rewrite IH. reflexivity.
  Qed.

  Lemma positions_rows3 xs ys zs s : positions_3d O xs ys zs s = Ok (layout3 (groups3 s xs ys zs)).
  Proof.
    unfold positions_3d. rewrite mesh_rows. cbv zeta. unfold ravel_c, nd_shift. cbn [data]. rewrite !map_map.
    repeat (rewrite columns_rows; cbn [bind]).
    rewrite groups3_cells. set (cs := cells3 xs ys zs).
    rewrite (stacked_rows _ (length cs) 3); [|discriminate|lia|].
    - unfold layout3, arr3. cbn [map mrows concat]. rewrite app_nil_r, <- !map_app, !map_map. reflexivity.
    - repeat (constructor; [match goal with |- wf_mat ?m /\ _ => match m with arr3 ?l => destruct (arr3_ok l) as (? & ? & ?) end end; rewrite !map_length in *; tauto|]). constructor.
  Qed.

  Lemma length_cells3 xs ys zs : length (cells3 xs ys zs) = length xs * (length ys * length zs).
  Proof. unfold cells3. induction xs as [|x xs IH]; [reflexivity|]. cbn [flat_map length]. rewrite app_length, IH, length_rows. reflexivity. Qed.

  Lemma nth_cells2 xs ys r c x y : nth_error ys r = Some y -> nth_error xs c = Some x -> nth_error (cells2 xs ys) (r * length xs + c) = Some (x, y).
  Proof. intros Hy Hx. exact (nth_rows (fun y x => (x, y)) ys xs r c y x Hy Hx). Qed.

  Lemma nth_cells3 xs ys zs i j k x y z : nth_error xs i = Some x -> nth_error ys j = Some y -> nth_error zs k = Some z ->
    nth_error (cells3 xs ys zs) (i * (length ys * length zs) + (j * length zs + k)) = Some (x, y, z).
  Proof.
    intros Hx Hy Hz. unfold cells3. rewrite flat_map_concat_map.
    assert (j < length ys) by (apply nth_error_Some; congruence). assert (k < length zs) by (apply nth_error_Some; congruence).
    rewrite (nth_concat _ (length ys * length zs) i (j * length zs + k) (flat_map (fun y => map (fun z => (x, y, z)) zs) ys)).
    - exact (nth_rows (fun y z => (x, y, z)) ys zs j k y z Hy Hz).
    - apply Forall_forall. intros l Hl. apply in_map_iff in Hl as (a & <- & _). apply (length_rows (fun y z => (a, y, z))).
    - rewrite nth_error_map, Hx. reflexivity.
    - nia.
  Qed.

  (** The image. *)
  Lemma image_rows {A} (xs ys : list T) (field : list A) : length field = length ys * length xs -> exists img, image_2d xs ys field = Ok img /\
    shape img = [length ys; length xs] /\
    forall r c, r < length ys -> c < length xs -> nd_get img [r; c] = get field (r * length xs + c).
  Proof.
    intro L. unfold image_2d. cbn [meshgrid_xy fst shape]. unfold reshape_c, nd_of_list. cbn [shape size data]. rewrite L, !Nat.mul_1_r, Nat.eqb_refl.
    eexists. split; [reflexivity|]. split; [reflexivity|]. intros r c Hr Hc. unfold nd_get. cbn [shape in_bounds c_ravel size data].
    rewrite (proj2 (Nat.ltb_lt _ _) Hr), (proj2 (Nat.ltb_lt _ _) Hc). cbn [andb]. rewrite !Nat.mul_1_r, Nat.add_0_r. reflexivity.
  Qed.
  Lemma image_rows3 {A} (xs ys zs : list T) (field : list A) : length field = length xs * (length ys * length zs) -> exists img, image_3d xs ys zs field = Ok img /\
    shape img = [length xs; length ys; length zs] /\
    forall i j k, i < length xs -> j < length ys -> k < length zs -> nd_get img [i; j; k] = get field (i * (length ys * length zs) + (j * length zs + k)).
  Proof.
    intro L. unfold image_3d. cbn [meshgrid_ij fst shape]. unfold reshape_c, nd_of_list. cbn [shape size data]. rewrite L, !Nat.mul_1_r, Nat.eqb_refl.
    eexists. split; [reflexivity|]. split; [reflexivity|]. intros i j k Hi Hj Hk. unfold nd_get. cbn [shape in_bounds c_ravel size data].
    rewrite (proj2 (Nat.ltb_lt _ _) Hi), (proj2 (Nat.ltb_lt _ _) Hj), (proj2 (Nat.ltb_lt _ _) Hk). cbn [andb]. rewrite !Nat.mul_1_r, Nat.add_0_r. reflexivity.
  Qed.
End Recipe.
