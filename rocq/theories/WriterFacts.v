(** Facts about output files. *)
From Coq Require Import Lia.
From Verif Require Import Base Num NdArray NdFacts Writers SpecWriters.

Lemma bounds_app s ix n k : in_bounds (s ++ [n]) (ix ++ [k]) = in_bounds s ix && (k <? n).
Proof.
  revert ix. induction s as [|m s IH]; intros [|i ix]; cbn.
  - rewrite andb_true_r. reflexivity.
  - destruct ix; cbn; rewrite ?andb_false_r; reflexivity.
  - destruct s; cbn; rewrite ?andb_false_r; reflexivity.
  - rewrite IH, andb_assoc. reflexivity.
Qed.
Lemma bounds_length s ix : in_bounds s ix = true -> length ix = length s.
Proof.
  revert ix. induction s as [|m s IH]; intros [|i ix]; cbn; try discriminate; [reflexivity|].
  rewrite andb_true_iff. intros [_ H]. f_equal. apply IH. exact H.
Qed.
Lemma ravel_app s ix n k : length ix = length s -> c_ravel (s ++ [n]) (ix ++ [k]) = c_ravel s ix * n + k.
Proof.
  revert ix. induction s as [|m s IH]; intros [|i ix]; cbn [length]; try discriminate; intro H.
  - cbn. lia.
  - cbn [app c_ravel]. rewrite IH by congruence.
    assert (E : size (s ++ [n]) = size s * n) by (clear; induction s as [|a s IH]; cbn in *; [lia|rewrite IH; lia]).
    rewrite E. lia.
Qed.

Lemma last_axis_ok {A} (a : nd A) s n k : wf_nd a -> shape a = s ++ [n] -> k < n ->
  exists b, last_axis a k = Ok b /\ shape b = s /\ wf_nd b /\
    forall ix, in_bounds s ix = true -> nd_get b ix = nd_get a (ix ++ [k]).
Proof.
  intros Hw Hs Hk. unfold last_axis. rewrite Hs, rev_app_distr. cbn [rev app]. rewrite rev_involutive.
  rewrite (proj2 (Nat.ltb_lt k n) Hk). apply nd_build_ok. intros ix Hix. apply nd_get_ok; [exact Hw|].
  rewrite Hs, bounds_app, Hix. apply Nat.ltb_lt. exact Hk.
Qed.
Lemma last_axis_out {A} (a : nd A) s n k : shape a = s ++ [n] -> n <= k -> last_axis a k = Err IndexError.
Proof.
  intros Hs Hk. unfold last_axis. rewrite Hs, rev_app_distr. cbn [rev app].
  rewrite (proj2 (Nat.ltb_ge k n) Hk). reflexivity.
Qed.

Section Facts.
  Context {T : Type} (O : ops T).

  Lemma coord_ex (c : mat T) r l : wf_mat c -> r < nrows c -> l < mcols c -> exists x, coord_of c r l x.
  Proof.
    intros Hw Hr Hl. unfold nrows in Hr. apply nth_error_Some in Hr. destruct (nth_error (mrows c) r) as [row|] eqn:E; [|congruence].
    pose proof (Forall_forall (fun r => length r = mcols c) (mrows c)) as [F _]. specialize (F Hw row (nth_error_In _ _ E)).
    assert (H : l < length row) by lia. apply nth_error_Some in H. destruct (nth_error row l) as [x|] eqn:Ex; [|congruence].
    exists x, row. auto.
  Qed.
  Lemma coord_fun (c : mat T) r l x y : coord_of c r l x -> coord_of c r l y -> x = y.
  Proof. intros (a & Ha & Hx) (b & Hb & Hy). congruence. Qed.
  Lemma coord_flat (c : mat T) r l x : wf_mat c -> l < mcols c -> coord_of c r l x ->
    nth_error (concat (mrows c)) (r * mcols c + l) = Some x.
  Proof. intros Hw Hl (row & Hr & Hx). rewrite (nth_concat _ (mcols c) r l row Hw Hr Hl). exact Hx. Qed.
  Lemma value_ex (f : list (xval T)) r : r < length f -> exists v, value_of f r v.
  Proof. intro H. apply nth_error_Some in H. unfold value_of. destruct (nth_error f r); [eauto|congruence]. Qed.

  (** The centroids in C order, one more axis for the coordinates. *)
  Lemma centroids_c (c : mat T) s : wf_mat c -> nrows c = size s ->
    exists a, reshape_c (nd_of_mat c) (s ++ [mcols c]) = Ok a /\ wf_nd a /\ shape a = s ++ [mcols c] /\
      forall ix l, in_bounds s ix = true -> l < mcols c -> exists x, nd_get a (ix ++ [l]) = Ok x /\ coord_of c (c_ravel s ix) l x.
  Proof.
    intros Hw Hn.
    assert (E : forall t n, size (t ++ [n]) = size t * n) by (intros t n; induction t as [|b t IH]; cbn in *; [lia|rewrite IH; lia]).
    destruct (reshape_c_ok (nd_of_mat c) (s ++ [mcols c]) (nd_of_mat_wf c Hw)) as [H1 H2].
    { cbn [nd_of_mat shape]. rewrite E, <- Hn. cbn. lia. }
    eexists. split; [exact H1|]. split; [exact H2|]. split; [reflexivity|]. intros ix l Hix Hl.
    destruct (coord_ex c (c_ravel s ix) l Hw) as [x Hx]; [rewrite Hn; apply c_ravel_lt; exact Hix|exact Hl|].
    exists x. split; [|exact Hx]. unfold nd_get. cbn [shape data]. rewrite bounds_app, Hix, (proj2 (Nat.ltb_lt _ _) Hl).
    cbn [andb]. rewrite ravel_app by (apply bounds_length; exact Hix). unfold get.
    cbn [nd_of_mat data]. rewrite (coord_flat c _ _ x Hw Hl Hx). reflexivity.
  Qed.

  Lemma values_c (f : list (xval T)) s : length f = size s ->
    exists a, reshape_c (nd_of_list f) s = Ok a /\ wf_nd a /\ shape a = s /\
      forall ix, in_bounds s ix = true -> exists v, nd_get a ix = Ok v /\ value_of f (c_ravel s ix) v.
  Proof.
    intro Hn. destruct (reshape_c_ok (nd_of_list f) s) as [H1 H2]; [unfold wf_nd; cbn; lia|cbn; lia|].
    eexists. split; [exact H1|]. split; [exact H2|]. split; [reflexivity|]. intros ix Hix.
    destruct (value_ex f (c_ravel s ix)) as [v Hv]; [rewrite Hn; apply c_ravel_lt; exact Hix|].
    exists v. split; [|exact Hv]. unfold nd_get. cbn [shape data]. rewrite Hix. unfold get. cbn. rewrite Hv. reflexivity.
  Qed.

  Lemma c_ravel_inj s ix iy : in_bounds s ix = true -> in_bounds s iy = true -> c_ravel s ix = c_ravel s iy -> ix = iy.
  Proof. intros Hx Hy E. apply nth_indices in Hx, Hy. congruence. Qed.
  Lemma c_numbers s : numbers s (size s) (c_ravel s).
  Proof.
    split; [intros; apply c_ravel_lt; assumption|]. intros r Hr. destruct (c_unravel_ex s r Hr) as (ix & Hb & E).
    exists ix. split; [exact Hb|]. split; [exact E|]. intros iy Hy Ey. apply (c_ravel_inj s); congruence.
  Qed.

  (* ---- C72 ---- *)
  Lemma dim_eq (st : @wstate T) d (c : mat T) : ready st d -> mcols c = d ->
    match w_dim st with None => mcols c | Some e => e end = d.
  Proof. intros [H | H]; rewrite H; auto. Qed.

  Lemma mat_arrays s N d f (c : mat T) : 2 <= d -> seeds N d f c -> size s = N ->
    exists F X Y Z,
      (let* f' := reshape_c (nd_of_list f) s in
       let* c' := reshape_c (nd_of_mat c) (s ++ [d]) in
       let* x := last_axis c' 0 in
       let* y := last_axis c' 1 in
       if d =? 3 then let* z := last_axis c' 2 in Ok (MatFile f' x y (Some z))
       else Ok (MatFile f' x y None)) = Ok (MatFile F X Y Z) /\ arrays_hold s N d f c F X Y Z (c_ravel s).
  Proof.
    intros Hd (Hw & Hc & Hf & Hn) Hs.
    destruct (values_c f s) as (F & -> & HFw & HFs & HF); [congruence|]. cbn [bind].
    destruct (centroids_c c s Hw) as (a & Ha & Haw & Has & HA); [congruence|]. rewrite Hc in Ha, Has, HA. rewrite Ha. cbn [bind].
    destruct (last_axis_ok a s d 0 Haw Has) as (X & -> & HXs & _ & HX); [lia|]. cbn [bind].
    destruct (last_axis_ok a s d 1 Haw Has) as (Y & -> & HYs & _ & HY); [lia|]. cbn [bind].
    assert (Hnum : numbers s N (c_ravel s)) by (rewrite <- Hs; apply c_numbers).
    assert (Hv : forall ix, in_bounds s ix = true ->
      (exists v, nd_get F ix = Ok v /\ value_of f (c_ravel s ix) v) /\
      (exists x, nd_get X ix = Ok x /\ coord_of c (c_ravel s ix) 0 x) /\
      (exists y, nd_get Y ix = Ok y /\ coord_of c (c_ravel s ix) 1 y)).
    { intros ix Hix. split; [apply HF; exact Hix|]. rewrite HX, HY by exact Hix. split; apply HA; (exact Hix || lia). }
    destruct (Nat.eqb_spec d 3) as [E|E].
    - destruct (last_axis_ok a s d 2 Haw Has) as (Z & -> & HZs & _ & HZ); [lia|]. cbn [bind].
      exists F, X, Y, (Some Z). split; [reflexivity|]. repeat split; try assumption; try apply Hnum; try (apply Hv; assumption).
      intros ix Hix. rewrite HZ by exact Hix. apply HA; [exact Hix|lia].
    - exists F, X, Y, None. split; [reflexivity|]. repeat split; try assumption; try apply Hnum; try (apply Hv; assumption).
  Qed.

  Lemma saved_put (st : @wstate T) dim path c : saved st (WState dim (put (w_files st) path c)) path c.
  Proof.
    split; cbn; unfold put; [rewrite String.eqb_refl; reflexivity|]. intros p Hp.
    destruct (String.eqb_spec p path); [contradiction|reflexivity].
  Qed.

  Lemma mat_grid dir g nx ny nz N d st name f (c : mat T) :
    (g = [nx; ny] /\ nz = 1 \/ g = [nx; ny; nz]) -> nx * ny * nz = N -> 2 <= d -> seeds N d f c -> ready st d ->
    let w := Writer Mat_format dir (Some g) in
    exists st' F X Y Z, write O w st name f c = (st', Ok tt) /\
      saved st st' (path_join dir (append name ".mat")) (MatFile F X Y Z) /\
      arrays_hold [nx; ny; nz] N d f c F X Y Z
        (fun ix => match ix with [i; j; k] => (i * ny + j) * nz + k | _ => 0 end).
  Proof.
    intros Hg HN Hd Hs Hr w. pose proof Hs as (Hw & Hc & Hf & Hn).
    destruct (mat_arrays [nx; ny; nz] N d f c Hd Hs) as (F & X & Y & Z & E & HA); [cbn; lia|].
    unfold write. cbn [w wr_format wr_shape]. rewrite (dim_eq st d c Hr Hc).
    assert (Em : mat_content (Some g) d f c = Ok (MatFile F X Y Z)).
    { unfold mat_content. destruct Hg as [[-> ->] | ->]; cbn [grid3 bind]; exact E. }
    rewrite Em. do 5 eexists. split; [reflexivity|]. split; [apply saved_put|].
    destruct HA as (H1 & H2 & H3 & H4 & H5 & H6).
    assert (R : forall ix, in_bounds [nx; ny; nz] ix = true ->
       c_ravel [nx; ny; nz] ix = match ix with [i; j; k] => (i * ny + j) * nz + k | _ => 0 end).
    { intros ix Hix. pose proof (bounds_length _ _ Hix) as Hl. destruct ix as [|i [|j [|k [|? ?]]]]; cbn in Hl; try discriminate. cbn. lia. }
    split; [exact H1|]. split; [exact H2|]. split; [exact H3|]. split.
    { destruct H4 as [N1 N2]. split; [intros ix Hix; rewrite <- R by exact Hix; apply N1; exact Hix|].
      intros r Hr'. destruct (N2 r Hr') as (ix & B1 & B2 & B3). exists ix. split; [exact B1|]. split; [rewrite <- R by exact B1; exact B2|].
      intros iy By Ey. apply B3; [exact By|]. rewrite R by exact By. exact Ey. }
    split; [intros ix Hix; rewrite <- R by exact Hix; apply H5; exact Hix|].
    destruct Z as [Z|]; [|exact H6]. destruct H6 as (Z1 & Z2 & Z3). split; [exact Z1|]. split; [exact Z2|].
    intros ix Hix. rewrite <- R by exact Hix. apply Z3. exact Hix.
  Qed.

  Lemma get_col_ok (c : mat T) l : wf_mat c -> l < mcols c -> exists xs, get_col c l = Ok xs /\ length xs = nrows c /\
    forall r x, nth_error xs r = Some x -> coord_of c r l x.
  Proof.
    intros Hw Hl. unfold get_col. rewrite (proj2 (Nat.ltb_lt _ _) Hl).
    destruct (mapr_total (fun r => get r l) (mrows c)) as [xs Hx].
    - intros row Hin. unfold get. pose proof (Forall_forall (fun r => length r = mcols c) (mrows c)) as [F _]. specialize (F Hw row Hin).
      assert (H : l < length row) by lia. apply nth_error_Some in H. destruct (nth_error row l); [eauto|congruence].
    - exists xs. split; [exact Hx|]. split; [apply mapr_len in Hx; exact Hx|]. intros r x Hr.
      assert (H : r < length (mrows c)) by (apply mapr_len in Hx; rewrite <- Hx; apply nth_error_Some; congruence).
      apply nth_error_Some in H. destruct (nth_error (mrows c) r) as [row|] eqn:Er; [|congruence].
      destruct (mapr_nth _ _ _ _ _ Hx Er) as (x' & Hx' & Eg). rewrite Hr in Hx'. injection Hx' as <-.
      exists row. split; [exact Er|]. unfold get in Eg. destruct (nth_error row l); congruence.
  Qed.

  Lemma get1 {A} (l : list A) r v : nth_error l r = Some v -> nd_get (nd_of_list l) [r] = Ok v.
  Proof.
    intro H. unfold nd_get, nd_of_list. cbn [shape data in_bounds c_ravel size].
    rewrite (proj2 (Nat.ltb_lt r (length l))) by (apply nth_error_Some; congruence). cbn [andb]. unfold get.
    rewrite Nat.mul_1_r, Nat.add_0_r, H. reflexivity.
  Qed.
  Lemma col_get xs r l (c : mat T) : length xs = nrows c -> (forall r x, nth_error xs r = Some x -> coord_of c r l x) ->
    r < nrows c -> exists x, nd_get (nd_of_list xs) [r] = Ok x /\ coord_of c r l x.
  Proof.
    intros Hl Hx Hr. rewrite <- Hl in Hr. pose proof Hr as H. apply nth_error_Some in H. destruct (nth_error xs r) as [x|] eqn:E; [|congruence].
    exists x. split; [|apply Hx; exact E]. apply get1. exact E.
  Qed.

  Lemma mat_points dir g N d st name f (c : mat T) : (g = None \/ g = Some []) -> 2 <= d -> seeds N d f c -> ready st d ->
    let w := Writer Mat_format dir g in
    exists st' F X Y Z, write O w st name f c = (st', Ok tt) /\
      saved st st' (path_join dir (append name ".mat")) (MatFile F X Y Z) /\
      arrays_hold [N] N d f c F X Y Z (fun ix => match ix with [r] => r | _ => 0 end).
  Proof.
    intros Hg Hd (Hw & Hc & Hf & Hn) Hr w. unfold write. cbn [w wr_format wr_shape]. rewrite (dim_eq st d c Hr Hc).
    destruct (get_col_ok c 0 Hw) as (xs & Ex & Lx & Px); [lia|]. destruct (get_col_ok c 1 Hw) as (ys & Ey & Ly & Py); [lia|].
    assert (Hnum : numbers [N] N (fun ix => match ix with [r] => r | _ => 0 end)).
    { split.
      - intros [|r [|? ?]]; cbn [in_bounds]; try discriminate; rewrite ?andb_false_r; try discriminate. rewrite andb_true_r. apply Nat.ltb_lt.
      - intros r Hr'. exists [r]. split; [cbn; rewrite andb_true_r; apply Nat.ltb_lt; exact Hr'|]. split; [reflexivity|].
        intros [|r' [|? ?]]; cbn [in_bounds]; try discriminate; rewrite ?andb_false_r; try discriminate. congruence. }
    assert (Hidx : forall (P : list nat -> Prop), (forall r, r < N -> P [r]) -> forall ix, in_bounds [N] ix = true -> P ix).
    { intros P HP [|r [|? ?]]; cbn [in_bounds]; try discriminate; rewrite ?andb_false_r; try discriminate. rewrite andb_true_r.
      intro B. apply HP. apply Nat.ltb_lt. exact B. }
    assert (Hv : forall ix, in_bounds [N] ix = true ->
      (exists v, nd_get (nd_of_list f) ix = Ok v /\ value_of f (match ix with [r] => r | _ => 0 end) v) /\
      (exists x, nd_get (nd_of_list xs) ix = Ok x /\ coord_of c (match ix with [r] => r | _ => 0 end) 0 x) /\
      (exists y, nd_get (nd_of_list ys) ix = Ok y /\ coord_of c (match ix with [r] => r | _ => 0 end) 1 y)).
    { apply Hidx. intros r Hr'. split; [|split; (apply col_get; [assumption|assumption|lia])].
      destruct (value_ex f r) as [v Ev]; [lia|]. exists v. split; [|exact Ev]. apply get1. exact Ev. }
    assert (Em : exists Z, mat_content g d f c = Ok (MatFile (nd_of_list f) (nd_of_list xs) (nd_of_list ys) Z) /\
      match Z with Some z => d = 3 /\ shape z = [N] /\ forall ix, in_bounds [N] ix = true ->
                exists c', nd_get z ix = Ok c' /\ coord_of c (match ix with [r] => r | _ => 0 end) 2 c'
      | None => d <> 3 end).
    { unfold mat_content. assert (G : match g with Some (n :: s) => False | _ => True end) by (destruct Hg as [-> | ->]; exact I).
      rewrite Ex, Ey. cbn [bind]. destruct (Nat.eqb_spec d 3) as [E3|E3].
      - destruct (get_col_ok c 2 Hw) as (zs & Ez & Lz & Pz); [lia|]. exists (Some (nd_of_list zs)).
        split; [destruct g as [[|]|]; try contradiction; rewrite Ez; reflexivity|].
        split; [exact E3|]. split; [cbn; congruence|]. apply Hidx. intros r Hr'. apply col_get; [assumption|assumption|lia].
      - exists None. split; [destruct g as [[|]|]; try contradiction; reflexivity|exact E3]. }
    destruct Em as (Z & Em & HZ). rewrite Em. do 5 eexists. split; [reflexivity|]. split; [apply saved_put|].
    split; [cbn; congruence|]. split; [cbn; congruence|]. split; [cbn; congruence|]. split; [exact Hnum|]. split; [exact Hv|exact HZ].
  Qed.
End Facts.
