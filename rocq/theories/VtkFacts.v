(** Facts about VTK output. *)
From Coq Require Import Lia.
From Verif Require Import Base Num NdArray NdFacts Writers SpecWriters WriterFacts.

Lemma f_ravel_app s ix n l : length ix = length s -> f_ravel (s ++ [n]) (ix ++ [l]) = f_ravel s ix + size s * l.
Proof.
  revert ix. induction s as [|m s IH]; intros [|i ix]; cbn [length]; try discriminate; intro H.
  - cbn. lia.
  - cbn [app f_ravel size]. rewrite IH by congruence. lia.
Qed.

Lemma ravel_f_ok {A} (a : nd A) : wf_nd a -> exists l, ravel_f a = Ok l /\ length l = size (shape a) /\
  forall ix v, in_bounds (shape a) ix = true -> nd_get a ix = Ok v -> nth_error l (f_ravel (shape a) ix) = Some v.
Proof.
  intro Hw. unfold ravel_f.
  destruct (mapr_total (fun k => nd_get a (f_unravel (shape a) k)) (seq 0 (size (shape a)))) as [l Hl].
  { intros k Hk. apply in_seq in Hk. apply nd_get_ok; [exact Hw|]. apply f_unravel_bounds. lia. }
  exists l. split; [exact Hl|]. split; [apply mapr_len in Hl; rewrite Hl; apply seq_length|]. intros ix v Hb Hv.
  pose proof (f_ravel_lt _ _ Hb) as Hk.
  assert (Hs : nth_error (seq 0 (size (shape a))) (f_ravel (shape a) ix) = Some (f_ravel (shape a) ix))
    by (rewrite (nth_error_nth' _ 0), seq_nth by (rewrite ?seq_length; lia); reflexivity).
  destruct (mapr_nth _ _ _ _ _ Hl Hs) as (v' & Hv' & E). rewrite f_unravel_ravel in E by exact Hb. congruence.
Qed.

Lemma nth_combine {A B} (l : list A) (m : list B) i a b : nth_error l i = Some a -> nth_error m i = Some b ->
  nth_error (combine l m) i = Some (a, b).
Proof.
  revert m i. induction l as [|x l IH]; intros [|y m] [|i]; cbn; try discriminate; [|apply IH].
  intros [= ->] [= ->]. reflexivity.
Qed.

Section Vtk.
  Context {T : Type} (O : ops T).

  Lemma centroids_f (c : mat T) s : wf_mat c -> nrows c = size s ->
    exists a, reshape_f (nd_of_mat c) (s ++ [mcols c]) = Ok a /\ wf_nd a /\ shape a = s ++ [mcols c] /\
      forall ix l, in_bounds s ix = true -> l < mcols c -> exists x, nd_get a (ix ++ [l]) = Ok x /\ coord_of c (f_ravel s ix) l x.
  Proof.
    intros Hw Hn.
    assert (E : forall t n, size (t ++ [n]) = size t * n) by (intros t n; induction t as [|b t IH]; cbn in *; [lia|rewrite IH; lia]).
    destruct (reshape_f_ok (nd_of_mat c) (s ++ [mcols c]) (nd_of_mat_wf c Hw)) as (b & H1 & H2 & H3 & H4).
    { cbn [nd_of_mat shape]. rewrite E, <- Hn. cbn. lia. }
    exists b. split; [exact H1|]. split; [exact H3|]. split; [exact H2|]. intros ix l Hix Hl.
    rewrite H4 by (rewrite bounds_app, Hix; apply Nat.ltb_lt; exact Hl).
    pose proof (f_ravel_lt _ _ Hix) as Hq.
    rewrite f_ravel_app by (apply bounds_length; exact Hix). cbn [nd_of_mat shape f_unravel]. rewrite Hn.
    replace (f_ravel s ix + size s * l) with (f_ravel s ix + l * size s) by lia.
    rewrite Nat.mod_add, Nat.div_add, (Nat.mod_small (f_ravel s ix)), (Nat.div_small (f_ravel s ix)) by lia.
    cbn [Nat.add]. rewrite (Nat.mod_small l) by exact Hl.
    destruct (coord_ex c (f_ravel s ix) l Hw) as [x Hx]; [lia|exact Hl|]. exists x. split; [|exact Hx].
    destruct Hx as (row & Hr & Hx). exact (nd_of_mat_get c _ _ row x Hw Hr Hx).
  Qed.

  Lemma grid_points_ok (x y z : nd T) s : wf_nd x -> wf_nd y -> wf_nd z -> shape x = s -> shape y = s -> shape z = s ->
    exists ps, grid_points x y z = Ok ps /\ length ps = size s /\
      forall ix a b c, in_bounds s ix = true -> nd_get x ix = Ok a -> nd_get y ix = Ok b -> nd_get z ix = Ok c ->
        nth_error ps (f_ravel s ix) = Some (a, b, c).
  Proof.
    intros Wx Wy Wz Sx Sy Sz. unfold grid_points.
    destruct (ravel_f_ok x Wx) as (xs & -> & Lx & Px). destruct (ravel_f_ok y Wy) as (ys & -> & Ly & Py).
    destruct (ravel_f_ok z Wz) as (zs & -> & Lz & Pz). cbn [bind]. eexists. split; [reflexivity|].
    rewrite Sx in *. rewrite Sy in *. rewrite Sz in *. split.
    - rewrite !combine_length. lia.
    - intros ix a b c Hb Ha Hbb Hc. apply nth_combine; [apply nth_combine|]; auto.
  Qed.

  (* ---- C73, plane grid ---- *)
  Lemma vtk_grid2 dir nx ny d st name f (c : mat T) : 2 <= d -> seeds (nx * ny) d f c -> ready st d ->
    exists st' points, write O (Writer Vtk_format dir (Some [nx; ny])) st name f c = (st', Ok tt) /\
      saved st st' (append (path_join dir name) ".vts") (VtsFile (nx, ny, 1) points true f) /\
      length points = nx * ny /\
      forall q, q < nx * ny -> exists x y, nth_error points q = Some (x, y, o_zero O) /\ coord_of c q 0 x /\ coord_of c q 1 y.
  Proof.
    intros Hd (Hw & Hc & Hf & Hn) Hr. unfold write. cbn [wr_format wr_shape]. rewrite (dim_eq st d c Hr Hc).
    unfold vtk_content. set (s := [nx; ny; 1]).
    assert (Hsz : size s = nx * ny) by (cbn; lia).
    destruct (centroids_f c s Hw) as (a & Ha & Haw & Has & HA); [congruence|]. rewrite Hc in Ha, Has, HA.
    change (s ++ [d]) with [nx; ny; 1; d] in Ha. rewrite Ha. cbn [bind].
    destruct (last_axis_ok a s d 0 Haw Has) as (X & -> & HXs & HXw & HX); [lia|]. cbn [bind].
    destruct (last_axis_ok a s d 1 Haw Has) as (Y & -> & HYs & HYw & HY); [lia|]. cbn [bind].
    set (Z := Nd (shape X) (map (fun _ => o_zero O) (data X))).
    assert (HZw : wf_nd Z) by (unfold wf_nd, Z; cbn [shape data]; rewrite map_length; exact HXw).
    assert (HZ : forall ix, in_bounds s ix = true -> nd_get Z ix = Ok (o_zero O)).
    { intros ix Hix. rewrite <- HXs in Hix. destruct (nd_get_ok X ix HXw Hix) as [v Hv]. unfold nd_get in *. cbn [Z shape data].
      rewrite Hix in *. unfold get in *. rewrite nth_error_map. destruct (nth_error (data X) (c_ravel (shape X) ix)); [reflexivity|discriminate]. }
    destruct (grid_points_ok X Y Z s HXw HYw HZw HXs HYs HXs) as (ps & -> & Lp & Pp). cbn [bind].
    unfold attach. rewrite (proj2 (Nat.eqb_eq (length f) (length ps))) by congruence. cbn [fst snd].
    do 2 eexists. split; [reflexivity|]. split; [apply saved_put|]. split; [congruence|].
    intros q Hq. rewrite <- Hsz in Hq. pose proof (f_unravel_bounds _ _ Hq) as Hb. pose proof (f_ravel_unravel _ _ Hq) as Er.
    destruct (HA _ 0 Hb) as (x & Ex & Cx); [lia|]. destruct (HA _ 1 Hb) as (y & Ey & Cy); [lia|].
    rewrite Er in Cx, Cy. exists x, y. split; [|split; assumption].
    rewrite <- Er at 1. apply Pp; [exact Hb| | |apply HZ; exact Hb].
    - rewrite HX by exact Hb. exact Ex.
    - rewrite HY by exact Hb. exact Ey.
  Qed.

  (* ---- C73, points ---- *)
  Lemma vtk_points dir d st name f (c : mat T) N : d = 2 \/ d = 3 -> seeds N d f c -> ready st d ->
    exists st' points, write O (Writer Vtk_format dir None) st name f c = (st', Ok tt) /\
      saved st st' (append (path_join dir name) ".vtp") (VtpFile points f) /\ length points = N /\
      forall q, q < N -> exists x y z, nth_error points q = Some [x; y; z] /\ is_centroid O c q (x, y, z).
  Proof.
    intros Hd (Hw & Hc & Hf & Hn) Hr. unfold write. cbn [wr_format wr_shape]. rewrite (dim_eq st d c Hr Hc).
    assert (HF : forall q row, nth_error (mrows c) q = Some row -> length row = d).
    { intros q row E. rewrite <- Hc. exact (proj1 (Forall_forall (fun r => length r = mcols c) (mrows c)) Hw row (nth_error_In _ _ E)). }
    assert (Hrow : forall q, q < N -> exists row, nth_error (mrows c) q = Some row).
    { intros q Hq. assert (H : q < length (mrows c)) by (unfold nrows in Hn; lia). apply nth_error_Some in H.
      destruct (nth_error (mrows c) q); [eauto|congruence]. }
    unfold vtk_content. destruct Hd as [-> | ->]; cbn [Nat.eqb].
    - cbn [mcols]. rewrite Hc. cbn [Nat.add Nat.eqb negb]. unfold nrows in *. cbn [mrows]. rewrite map_length. rewrite Hf, Hn, Nat.eqb_refl.
      do 2 eexists. split; [reflexivity|]. split; [apply saved_put|]. split; [rewrite map_length; exact Hn|].
      intros q Hq. destruct (Hrow q Hq) as [row Er]. pose proof (HF q row Er) as Hl.
      destruct row as [|x [|y [|? ?]]]; try discriminate. exists x, y, (o_zero O). rewrite nth_error_map, Er. split; [reflexivity|].
      split; [eexists; split; [exact Er|reflexivity]|]. split; [eexists; split; [exact Er|reflexivity]|]. split; [reflexivity|]. rewrite Hc. discriminate.
    - rewrite Hc. cbn [Nat.eqb negb]. rewrite Hf, Hn, Nat.eqb_refl.
      do 2 eexists. split; [reflexivity|]. split; [apply saved_put|]. split; [exact Hn|].
      intros q Hq. destruct (Hrow q Hq) as [row Er]. pose proof (HF q row Er) as Hl.
      destruct row as [|x [|y [|z [|? ?]]]]; try discriminate. exists x, y, z. split; [exact Er|].
      split; [eexists; split; [exact Er|reflexivity]|]. split; [eexists; split; [exact Er|reflexivity]|]. split; [rewrite Hc; discriminate|].
      intros _. eexists; split; [exact Er|reflexivity].
  Qed.

  (* ---- C74 ---- *)
  Lemma vtk_grid3 dir nx ny nz d st name f (c : mat T) : 3 <= d -> seeds (nx * ny * nz) d f c -> ready st d ->
    exists st' points values, write O (Writer Vtk_format dir (Some [nx; ny; nz])) st name f c = (st', Ok tt) /\
      saved st st' (append (path_join dir name) ".vts") (VtsFile (nx, ny, nz) points true values) /\
      length points = nx * ny * nz /\ length values = nx * ny * nz /\
      (forall i j k, i < nx -> j < ny -> k < nz -> exists x y z, nth_error points (i + nx * (j + ny * k)) = Some (x, y, z) /\
         let r := (i * ny + j) * nz + k in coord_of c r 0 x /\ coord_of c r 1 y /\ coord_of c r 2 z) /\
      (forall i j k, i < nx -> j < ny -> k < nz -> nth_error values (j + ny * (i + nx * k)) = nth_error f ((i * ny + j) * nz + k)).
  Proof.
    intros Hd (Hw & Hc & Hf & Hn) Hr. unfold write. cbn [wr_format wr_shape]. rewrite (dim_eq st d c Hr Hc).
    unfold vtk_content. set (s := [nx; ny; nz]).
    assert (Hsz : size s = nx * ny * nz) by (cbn; lia).
    destruct (centroids_c c s Hw) as (a & Ha & Haw & Has & HA); [congruence|]. rewrite Hc in Ha, Has, HA.
    change (s ++ [d]) with [nx; ny; nz; d] in Ha. rewrite Ha. cbn [bind].
    destruct (last_axis_ok a s d 0 Haw Has) as (X & -> & HXs & HXw & HX); [lia|]. cbn [bind].
    destruct (last_axis_ok a s d 1 Haw Has) as (Y & -> & HYs & HYw & HY); [lia|]. cbn [bind].
    destruct (last_axis_ok a s d 2 Haw Has) as (Z & -> & HZs & HZw & HZ); [lia|]. cbn [bind].
    destruct (grid_points_ok X Y Z s HXw HYw HZw HXs HYs HZs) as (ps & -> & Lp & Pp). cbn [bind].
    destruct (values_c f s) as (F & HF & HFw & HFs & HV); [congruence|]. rewrite HF. cbn [bind].
    destruct (transpose_102_ok F nx ny nz HFw HFs) as (t & -> & Ht & Htw & HT). cbn [bind].
    destruct (ravel_f_ok t Htw) as (vs & -> & Lv & Pv). cbn [bind]. rewrite Ht in Lv, Pv.
    assert (Lv' : length vs = nx * ny * nz) by (rewrite Lv; cbn; lia).
    unfold attach. rewrite (proj2 (Nat.eqb_eq (length vs) (length ps))) by congruence.
    do 3 eexists. split; [reflexivity|]. split; [apply saved_put|]. split; [congruence|]. split; [exact Lv'|]. split.
    - intros i j k Hi Hj Hk.
      assert (Hb : in_bounds s [i; j; k] = true).
      { unfold s; cbn [in_bounds]. apply Nat.ltb_lt in Hi, Hj, Hk. rewrite Hi, Hj, Hk. reflexivity. }
      destruct (HA _ 0 Hb) as (x & Ex & Cx); [lia|]. destruct (HA _ 1 Hb) as (y & Ey & Cy); [lia|]. destruct (HA _ 2 Hb) as (z & Ez & Cz); [lia|].
      replace (c_ravel s [i; j; k]) with ((i * ny + j) * nz + k) in Cx, Cy, Cz by (cbn; lia).
      exists x, y, z. split; [|repeat split; assumption].
      replace (i + nx * (j + ny * k)) with (f_ravel s [i; j; k]) by (cbn; lia).
      apply Pp; [exact Hb|rewrite HX by exact Hb; exact Ex|rewrite HY by exact Hb; exact Ey|rewrite HZ by exact Hb; exact Ez].
    - intros i j k Hi Hj Hk.
      assert (Hb : in_bounds s [i; j; k] = true).
      { unfold s; cbn [in_bounds]. apply Nat.ltb_lt in Hi, Hj, Hk. rewrite Hi, Hj, Hk. reflexivity. }
      assert (Hb' : in_bounds [ny; nx; nz] [j; i; k] = true).
      { cbn [in_bounds]. apply Nat.ltb_lt in Hi, Hj, Hk. rewrite Hi, Hj, Hk. reflexivity. }
      destruct (HV _ Hb) as (v & Ev & Cv). replace (c_ravel s [i; j; k]) with ((i * ny + j) * nz + k) in Cv by (cbn; lia).
      replace (j + ny * (i + nx * k)) with (f_ravel [ny; nx; nz] [j; i; k]) by (cbn; lia).
      rewrite Cv. apply Pv; [exact Hb'|]. rewrite HT by exact Hb'. exact Ev.
  Qed.

  Lemma write_det w st name f (c : mat T) st1 st2 p1 p2 cs1 cs2 :
    write O w st name f c = (st1, Ok tt) -> write O w st name f c = (st2, Ok tt) ->
    saved st st1 p1 cs1 -> saved st st2 p2 cs2 -> p1 = p2 -> cs1 = cs2.
  Proof. intros E1 E2 [S1 _] [S2 _] ->. rewrite E1 in E2. injection E2 as <-. congruence. Qed.

  (** The point with number 1 is seed ny*nz; its value is that of seed nz. *)
  Lemma vtk_grid3_wrong dir nx ny nz st name f (c : mat T) : 2 <= nx -> 2 <= ny -> 1 <= nz ->
    seeds (nx * ny * nz) 3 f c -> ready st 3 ->
    exists st' points values p v, write O (Writer Vtk_format dir (Some [nx; ny; nz])) st name f c = (st', Ok tt) /\
      saved st st' (append (path_join dir name) ".vts") (VtsFile (nx, ny, nz) points true values) /\
      nth_error points 1 = Some p /\ is_centroid O c (ny * nz) p /\
      nth_error values 1 = Some v /\ value_of f nz v /\ nz <> ny * nz.
  Proof.
    intros Hx Hy Hz Hs Hr. pose proof Hs as (Hw & Hc & Hf & Hn).
    destruct (vtk_grid3 dir nx ny nz 3 st name f c (le_n 3) Hs Hr) as (st' & ps & vs & E & S & Lp & Lv & HP & HV).
    destruct (HP 1 0 0) as (x & y & z & Ep & Cx & Cy & Cz); [lia..|].
    pose proof (HV 0 1 0 ltac:(lia) ltac:(lia) ltac:(lia)) as Ev.
    replace (1 + nx * (0 + ny * 0)) with 1 in Ep by lia. replace ((1 * ny + 0) * nz + 0) with (ny * nz) in Cx, Cy, Cz by lia.
    replace (1 + ny * (0 + nx * 0)) with 1 in Ev by lia. replace ((0 * ny + 1) * nz + 0) with nz in Ev by lia.
    destruct (value_ex f nz) as [v Hv]; [rewrite Hf; assert (4 <= nx * ny) by nia; nia|].
    exists st', ps, vs, (x, y, z), v. split; [exact E|]. split; [exact S|]. split; [exact Ep|]. split.
    { split; [exact Cx|]. split; [exact Cy|]. split; [rewrite Hc; discriminate|intros _; exact Cz]. }
    split; [rewrite Ev; exact Hv|]. split; [exact Hv|nia].
  Qed.

  (** A grid that is one node wide in x or y is written correctly. *)
  Lemma vtk_grid3_thin dir nx ny nz st name f (c : mat T) : nx = 1 \/ ny = 1 ->
    seeds (nx * ny * nz) 3 f c -> ready st 3 ->
    exists st' points values seed, write O (Writer Vtk_format dir (Some [nx; ny; nz])) st name f c = (st', Ok tt) /\
      saved st st' (append (path_join dir name) ".vts") (VtsFile (nx, ny, nz) points true values) /\
      length points = nx * ny * nz /\ numbers [nx * ny * nz] (nx * ny * nz) (fun ix => match ix with [q] => seed q | _ => 0 end) /\
      forall q, q < nx * ny * nz -> exists p v, nth_error points q = Some p /\ is_centroid O c (seed q) p /\
        nth_error values q = Some v /\ value_of f (seed q) v.
  Proof.
    intros H1 Hs Hr. pose proof Hs as (Hw & Hc & Hf & Hn).
    destruct (vtk_grid3 dir nx ny nz 3 st name f c (le_n 3) Hs Hr) as (st' & ps & vs & E & S & Lp & Lv & HP & HV).
    set (seed := fun q => c_ravel [nx; ny; nz] (f_unravel [nx; ny; nz] q)).
    exists st', ps, vs, seed. split; [exact E|]. split; [exact S|]. split; [exact Lp|].
    assert (Hsz : size [nx; ny; nz] = nx * ny * nz) by (cbn; lia). split.
    - split.
      + intros [|q [|? ?]]; cbn [in_bounds]; try discriminate; rewrite ?andb_false_r; try discriminate. rewrite andb_true_r.
        intro Hq. apply Nat.ltb_lt in Hq. unfold seed. rewrite <- Hsz in *. apply c_ravel_lt, f_unravel_bounds. exact Hq.
      + intros r Hlt. rewrite <- Hsz in Hlt. destruct (c_unravel_ex _ _ Hlt) as (ix & Hb & Er).
        exists [f_ravel [nx; ny; nz] ix]. split.
        { cbn [in_bounds]. rewrite andb_true_r. apply Nat.ltb_lt. rewrite <- Hsz. apply f_ravel_lt. exact Hb. }
        split; [unfold seed; rewrite f_unravel_ravel by exact Hb; exact Er|].
        intros [|q [|? ?]]; cbn [in_bounds]; try discriminate; rewrite ?andb_false_r; try discriminate. rewrite andb_true_r.
        intros Hq Eq. apply Nat.ltb_lt in Hq. rewrite <- Hsz in Hq. unfold seed in Eq.
        pose proof (f_unravel_bounds _ _ Hq) as Hb'. f_equal.
        rewrite <- (f_ravel_unravel _ _ Hq). f_equal. apply (c_ravel_inj [nx; ny; nz]); congruence.
    - intros q Hq. rewrite <- Hsz in Hq. pose proof (f_unravel_bounds _ _ Hq) as Hb. pose proof (f_ravel_unravel _ _ Hq) as Er.
      pose proof (bounds_length _ _ Hb) as Hl. unfold seed. set (ix := f_unravel [nx; ny; nz] q) in *.
      destruct ix as [|i [|j [|k [|? ?]]]]; try discriminate.
      cbn [in_bounds] in Hb. rewrite !andb_true_iff, !Nat.ltb_lt in Hb. destruct Hb as (Hi & Hj & Hk & _).
      destruct (HP i j k Hi Hj Hk) as (x & y & z & Ep & Cx & Cy & Cz). pose proof (HV i j k Hi Hj Hk) as Ev.
      assert (Eq : i + nx * (j + ny * k) = q) by (rewrite <- Er; cbn; lia).
      assert (Eq' : j + ny * (i + nx * k) = q) by (rewrite <- Eq; destruct H1; subst; nia).
      rewrite Eq in Ep. rewrite Eq' in Ev.
      replace (c_ravel [nx; ny; nz] [i; j; k]) with ((i * ny + j) * nz + k) by (cbn; lia).
      destruct (value_ex f ((i * ny + j) * nz + k)) as [v Hv]; [rewrite Hf; assert (i * ny + j < nx * ny) by nia; nia|].
      exists (x, y, z), v. split; [exact Ep|]. split.
      { split; [exact Cx|]. split; [exact Cy|]. split; [rewrite Hc; discriminate|intros _; exact Cz]. }
      split; [rewrite Ev; exact Hv|exact Hv].
  Qed.
End Vtk.
