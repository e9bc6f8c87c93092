(** Sizes, reuse and agreement of the writers. *)
From Coq Require Import Lia.
From Verif Require Import Base Num NdArray NdFacts Writers SpecWriters WriterFacts VtkFacts.

Section Main.
  Context {T : Type} (O : ops T).

  Lemma reshape_c_bad {A} (a : nd A) s : size (shape a) <> size s -> reshape_c a s = Err ValueError.
  Proof. intro H. unfold reshape_c. rewrite (proj2 (Nat.eqb_neq _ _) H). reflexivity. Qed.
  Lemma reshape_f_bad {A} (a : nd A) s : size (shape a) <> size s -> reshape_f a s = Err ValueError.
  Proof. intro H. unfold reshape_f. rewrite (proj2 (Nat.eqb_neq _ _) H). reflexivity. Qed.

  (* ---- every write: one file or none ---- *)
  Lemma write_one w st name f (c : mat T) st' r : write O w st name f c = (st', r) ->
    (exists e, r = Err e /\ nothing_saved st st') \/ (r = Ok tt /\ exists cs, saved st st' (output_path w name) cs).
  Proof.
    unfold write. match goal with |- context [match ?x with Ok _ => _ | Err _ => _ end] => destruct x as [cs|e] end; intros [= <- <-].
    - right. split; [reflexivity|]. exists cs. apply saved_put.
    - left. exists e. split; [reflexivity|]. intro p. reflexivity.
  Qed.
  Lemma write_dim w st name f (c : mat T) st' r : write O w st name f c = (st', r) ->
    w_dim st' = Some (match w_dim st with None => mcols c | Some d => d end).
  Proof.
    unfold write. match goal with |- context [match ?x with Ok _ => _ | Err _ => _ end] => destruct x as [cs|e] end; intros [= <- <-]; reflexivity.
  Qed.

  (* ---- C75 ---- *)
  Lemma content_err w st name f (c : mat T) e d : match w_dim st with None => mcols c | Some d => d end = d ->
    match wr_format w with Mat_format => mat_content (wr_shape w) d f c | Vtk_format => vtk_content O (wr_shape w) d f c end = Err e ->
    exists st', write O w st name f c = (st', Err e) /\ nothing_saved st st'.
  Proof. intros Hd H. unfold write. rewrite Hd, H. eexists. split; [reflexivity|]. intro. reflexivity. Qed.

  Lemma wrong_size w st name f (c : mat T) N d nx ny nz : d = 2 \/ d = 3 -> seeds N d f c -> ready st d ->
    (wr_shape w = Some [nx; ny] /\ nz = 1 \/ wr_shape w = Some [nx; ny; nz]) -> nx * ny * nz <> N ->
    exists st', write O w st name f c = (st', Err ValueError) /\ nothing_saved st st'.
  Proof.
    intros Hd (Hw & Hc & Hf & Hn) Hr Hg HN. apply (content_err _ _ _ _ _ _ d); [apply dim_eq; assumption|].
    assert (Hm : size (shape (nd_of_mat c)) <> nx * ny * nz * d) by (cbn; rewrite Hn, Hc; destruct Hd; subst d; lia).
    destruct (wr_format w).
    - unfold mat_content. assert (B : reshape_c (nd_of_list f) [nx; ny; nz] = Err ValueError) by (apply reshape_c_bad; cbn; lia).
      destruct Hg as [[-> ->] | ->]; cbn [grid3 bind]; rewrite B; reflexivity.
    - unfold vtk_content. destruct Hg as [[-> ->] | ->].
      + rewrite reshape_f_bad; [reflexivity|]. intro E. apply Hm. rewrite E. cbn. lia.
      + rewrite reshape_c_bad; [reflexivity|]. intro E. apply Hm. rewrite E. cbn. lia.
  Qed.

  Lemma wrong_rank w st name f (c : mat T) g : wr_shape w = Some g -> length g <> 2 -> length g <> 3 ->
    (wr_format w = Mat_format -> g <> []) ->
    exists st', write O w st name f c = (st', Err ValueError) /\ nothing_saved st st'.
  Proof.
    intros Hg H2 H3 Hm. eapply content_err; [reflexivity|]. rewrite Hg. destruct (wr_format w).
    - specialize (Hm eq_refl). destruct g as [|n [|n' [|n'' [|n''' g]]]]; cbn in H2, H3; try congruence; reflexivity.
    - destruct g as [|n [|n' [|n'' [|n''' g]]]]; cbn in H2, H3; try congruence; reflexivity.
  Qed.

  Lemma empty_shape dir N d st name f (c : mat T) : d = 2 \/ d = 3 -> seeds N d f c -> ready st d ->
    exists st' F X Y Z, write O (Writer Mat_format dir (Some [])) st name f c = (st', Ok tt) /\
      saved st st' (path_join dir (append name ".mat")) (MatFile F X Y Z).
  Proof.
    intros Hd Hs Hr. destruct (mat_points O dir (Some []) N d st name f c) as (st' & F & X & Y & Z & E & S & _); auto; [lia|].
    exists st', F, X, Y, Z. auto.
  Qed.

  Lemma cell_data dir st name f (c : mat T) : seeds 24 3 f c -> w_dim st = Some 2 ->
    exists st' points, write O (Writer Vtk_format dir (Some [4; 9])) st name f c = (st', Ok tt) /\
      saved st st' (append (path_join dir name) ".vts") (VtsFile (4, 9, 1) points false f).
  Proof.
    intros (Hw & Hc & Hf & Hn) Hd. unfold write. rewrite Hd. cbn [wr_format wr_shape]. unfold vtk_content.
    set (s := [4; 9; 1]). change [4; 9; 1; 2] with (s ++ [2]).
    destruct (reshape_f_ok (nd_of_mat c) (s ++ [2]) (nd_of_mat_wf c Hw)) as (a & -> & Has & Haw & _).
    { cbn [nd_of_mat shape]. rewrite Hc, Hn. reflexivity. }
    cbn [bind].
    destruct (last_axis_ok a s 2 0 Haw Has) as (X & -> & HXs & HXw & HX); [lia|]. cbn [bind].
    destruct (last_axis_ok a s 2 1 Haw Has) as (Y & -> & HYs & HYw & HY); [lia|]. cbn [bind].
    set (Z := Nd (shape X) (map (fun _ => o_zero O) (data X))).
    assert (HZw : wf_nd Z) by (unfold wf_nd, Z; cbn [shape data]; rewrite map_length; exact HXw).
    destruct (grid_points_ok X Y Z s HXw HYw HZw HXs HYs HXs) as (ps & -> & Lp & _). cbn [bind].
    unfold attach. rewrite Lp, Hf. cbn -[saved put output_path]. do 2 eexists. split; [reflexivity|]. apply saved_put.
  Qed.

  (* ---- C76 ---- *)
  Lemma z_lost w st name f (c : mat T) N st' r : seeds N 3 f c -> w_dim st = Some 2 -> 1 <= N ->
    match wr_shape w with None => True | Some g => size g = N end ->
    write O w st name f c = (st', r) ->
    (exists e, r = Err e /\ nothing_saved st st') \/
    (exists F X Y, r = Ok tt /\ saved st st' (output_path w name) (MatFile F X Y None)).
  Proof.
    intros (Hw & Hc & Hf & Hn) Hd HN Hg E. unfold write in E. rewrite Hd in E.
    assert (Hm : size (shape (nd_of_mat c)) <> N * 2) by (cbn; rewrite Hn, Hc; lia).
    assert (G : (exists e, match wr_format w with Mat_format => mat_content (wr_shape w) 2 f c | Vtk_format => vtk_content O (wr_shape w) 2 f c end = Err e) \/
                exists F X Y, match wr_format w with Mat_format => mat_content (wr_shape w) 2 f c | Vtk_format => vtk_content O (wr_shape w) 2 f c end = Ok (MatFile F X Y None)).
    { destruct (wr_format w).
      - unfold mat_content. cbn [Nat.eqb].
        assert (U : (exists e, (let* x := get_col c 0 in let* y := get_col c 1 in
            Ok (MatFile (nd_of_list f) (nd_of_list x) (nd_of_list y) None)) = Err e) \/
          exists F X Y, (let* x := get_col c 0 in let* y := get_col c 1 in
            Ok (MatFile (nd_of_list f) (nd_of_list x) (nd_of_list y) None)) = Ok (MatFile F X Y None)).
        { destruct (get_col c 0); [|left; eexists; reflexivity]. destruct (get_col c 1); [|left; eexists; reflexivity].
          right. do 3 eexists. reflexivity. }
        destruct (wr_shape w) as [[|n g]|]; [exact U| |exact U]. left.
        assert (V : forall nx ny nz, nx * ny * nz = N -> exists e, (let* f' := reshape_c (nd_of_list f) [nx; ny; nz] in
          let* c' := reshape_c (nd_of_mat c) [nx; ny; nz; 2] in let* x := last_axis c' 0 in let* y := last_axis c' 1 in
          Ok (MatFile f' x y None)) = Err e).
        { intros nx ny nz HE. destruct (reshape_c (nd_of_list f) [nx; ny; nz]); [|eexists; reflexivity]. cbn [bind].
          rewrite reshape_c_bad; [eexists; reflexivity|]. intro H. apply Hm. rewrite H. cbn. lia. }
        destruct g as [|n' [|n'' [|? ?]]]; cbn [grid3 bind]; try (eexists; reflexivity); apply V; cbn in Hg; lia.
      - left. unfold vtk_content. destruct (wr_shape w) as [[|n [|n' [|n'' [|? ?]]]]|]; try (eexists; reflexivity).
        + rewrite reshape_f_bad; [eexists; reflexivity|]. intro H. apply Hm. rewrite H. cbn in *. lia.
        + rewrite reshape_c_bad; [eexists; reflexivity|]. intro H. apply Hm. rewrite H. cbn in *. lia.
        + cbn [Nat.eqb mcols]. rewrite Hc. eexists. reflexivity. }
    destruct G as [(e & G) | (F & X & Y & G)]; rewrite G in E; injection E as <- <-.
    - left. exists e. split; [reflexivity|]. intro. reflexivity.
    - right. exists F, X, Y. split; [reflexivity|]. apply saved_put.
  Qed.

  Lemma reuse_same w st name f (c : mat T) : w_dim st = Some (mcols c) ->
    write O w st name f c = write O w (WState None (w_files st)) name f c.
  Proof. intro H. unfold write. rewrite H. reflexivity. Qed.

  (* ---- MAT and VTK ---- *)
  Lemma disagree dir nx ny st st2 name f (c : mat T) : 2 <= nx -> 2 <= ny -> seeds (nx * ny) 2 f c -> ready st 2 -> ready st2 2 ->
    exists s1 s2 F X Y Z points, write O (Writer Mat_format dir (Some [nx; ny])) st name f c = (s1, Ok tt) /\
      saved st s1 (path_join dir (append name ".mat")) (MatFile F X Y Z) /\
      write O (Writer Vtk_format dir (Some [nx; ny])) st2 name f c = (s2, Ok tt) /\
      saved st2 s2 (append (path_join dir name) ".vts") (VtsFile (nx, ny, 1) points true f) /\
      (exists v, nd_get F [1; 0; 0] = Ok v /\ value_of f ny v) /\
      (exists v, nth_error f (1 + nx * 0) = Some v /\ value_of f 1 v) /\ ny <> 1.
  Proof.
    intros Hx Hy Hs H1 H2. pose proof Hs as (Hw & Hc & Hf & Hn).
    destruct (mat_grid O dir [nx; ny] nx ny 1 (nx * ny) 2 st name f c) as (s1 & F & X & Y & Z & E1 & S1 & HA);
      [left; auto|lia|lia|exact Hs|exact H1|].
    destruct (vtk_grid2 O dir nx ny 2 st2 name f c) as (s2 & ps & E2 & S2 & _); [lia|exact Hs|exact H2|].
    exists s1, s2, F, X, Y, Z, ps. split; [exact E1|]. split; [exact S1|]. split; [exact E2|]. split; [exact S2|].
    destruct HA as (_ & _ & _ & _ & HA & _).
    assert (Hb : in_bounds [nx; ny; 1] [1; 0; 0] = true).
    { cbn [in_bounds]. rewrite (proj2 (Nat.ltb_lt 1 nx)), (proj2 (Nat.ltb_lt 0 ny)) by lia. reflexivity. }
    destruct (HA _ Hb) as (HV & _). split; [|split].
    - replace ((1 * ny + 0) * 1 + 0) with ny in HV by lia. exact HV.
    - replace (1 + nx * 0) with 1 by lia. destruct (value_ex f 1) as [v Hv]; [rewrite Hf; nia|]. exists v. split; exact Hv.
    - lia.
  Qed.

  Lemma agree3 dir nx ny nz st st2 name f (c : mat T) : seeds (nx * ny * nz) 3 f c -> ready st 3 -> ready st2 3 ->
    exists s1 s2 F X Y Z points values, write O (Writer Mat_format dir (Some [nx; ny; nz])) st name f c = (s1, Ok tt) /\
      saved st s1 (path_join dir (append name ".mat")) (MatFile F X Y (Some Z)) /\
      write O (Writer Vtk_format dir (Some [nx; ny; nz])) st2 name f c = (s2, Ok tt) /\
      saved st2 s2 (append (path_join dir name) ".vts") (VtsFile (nx, ny, nz) points true values) /\
      forall i j k, i < nx -> j < ny -> k < nz -> exists x y z,
        nd_get X [i; j; k] = Ok x /\ nd_get Y [i; j; k] = Ok y /\ nd_get Z [i; j; k] = Ok z /\
        nth_error points (i + nx * (j + ny * k)) = Some (x, y, z).
  Proof.
    intros Hs H1 H2.
    destruct (mat_grid O dir [nx; ny; nz] nx ny nz (nx * ny * nz) 3 st name f c) as (s1 & F & X & Y & Z & E1 & S1 & HA);
      [right; auto|lia|lia|exact Hs|exact H1|].
    destruct (vtk_grid3 O dir nx ny nz 3 st2 name f c) as (s2 & ps & vs & E2 & S2 & _ & _ & HP & _); [lia|exact Hs|exact H2|].
    destruct HA as (_ & _ & _ & _ & HA & HZ). destruct Z as [Z|]; [|lia]. destruct HZ as (_ & _ & HZ).
    exists s1, s2, F, X, Y, Z, ps, vs. split; [exact E1|]. split; [exact S1|]. split; [exact E2|]. split; [exact S2|].
    intros i j k Hi Hj Hk. destruct (HP i j k Hi Hj Hk) as (x & y & z & Ep & Cx & Cy & Cz).
    assert (Hb : in_bounds [nx; ny; nz] [i; j; k] = true).
    { cbn [in_bounds]. apply Nat.ltb_lt in Hi, Hj, Hk. rewrite Hi, Hj, Hk. reflexivity. }
    destruct (HA _ Hb) as (_ & (x' & Ex & Cx') & (y' & Ey & Cy')). destruct (HZ _ Hb) as (z' & Ez & Cz').
    exists x, y, z. rewrite (coord_fun c _ _ _ _ Cx Cx'), (coord_fun c _ _ _ _ Cy Cy'), (coord_fun c _ _ _ _ Cz Cz') in *.
    auto.
  Qed.

  Lemma flattened dir nx ny st name f (c : mat T) q z : seeds (nx * ny) 3 f c -> ready st 3 -> q < nx * ny ->
    coord_of c q 2 z -> z <> o_zero O ->
    exists st' points p, write O (Writer Vtk_format dir (Some [nx; ny])) st name f c = (st', Ok tt) /\
      saved st st' (append (path_join dir name) ".vts") (VtsFile (nx, ny, 1) points true f) /\
      nth_error points q = Some p /\ snd p = o_zero O /\ ~ is_centroid O c q p.
  Proof.
    intros Hs Hr Hq Cz Hz. destruct (vtk_grid2 O dir nx ny 3 st name f c) as (s2 & ps & E2 & S2 & _ & HP); [lia|exact Hs|exact Hr|].
    destruct (HP q Hq) as (x & y & Ep & _). exists s2, ps, (x, y, o_zero O). split; [exact E2|]. split; [exact S2|]. split; [exact Ep|].
    split; [reflexivity|]. intros (_ & _ & _ & H). destruct Hs as (_ & Hc & _). apply Hz. exact (coord_fun c _ _ _ _ Cz (H Hc)).
  Qed.

  Lemma factory fmt dir g w : create_writer fmt dir g = Ok w <->
    wr_path w = dir /\ wr_shape w = g /\
    (fmt = "mat"%string /\ wr_format w = Mat_format \/ fmt = "vtk"%string /\ wr_format w = Vtk_format).
  Proof.
    unfold create_writer. destruct w as [fm d s]. cbn.
    destruct (String.eqb_spec fmt "mat") as [->|H1]; [|destruct (String.eqb_spec fmt "vtk") as [->|H2]].
    - split; [intros [= <- <- <-]; auto|]. intros (<- & <- & [[_ ->] | [H _]]); [reflexivity|discriminate].
    - split; [intros [= <- <- <-]; auto|]. intros (<- & <- & [[H _] | [_ ->]]); [discriminate|reflexivity].
    - split; [discriminate|]. intros (_ & _ & [[H _] | [H _]]); congruence.
  Qed.
  Lemma factory_err fmt dir g : fmt <> "mat"%string -> fmt <> "vtk"%string -> create_writer fmt dir g = Err ValueError.
  Proof. intros H1 H2. unfold create_writer. rewrite (proj2 (String.eqb_neq _ _) H1), (proj2 (String.eqb_neq _ _) H2). reflexivity. Qed.
End Main.
