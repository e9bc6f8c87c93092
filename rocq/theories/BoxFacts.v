(** Lemmas for C120: the structured interpolators use nothing of the points but their bounding box. *)
From Coq Require Import Reals Lra Lia Sorted.
From Verif Require Import Base Num NdArray Integrate GridInterp Interpolate SpecIntegrate SpecInterp SpecGrid SpecBox
  HighPerfReal GridPlace ScipyFacts.
Local Open Scope R_scope.

Lemma least (l : list R) : l <> [] -> exists m, In m l /\ forall x, In x l -> m <= x.
Proof.
  induction l as [|a l IH]; [congruence|]. intros _. destruct l as [|b l].
  - exists a. split; [left; reflexivity|]. intros x [->|[]]. lra.
  - destruct IH as (m & Hm & H); [congruence|]. destruct (Rle_dec a m).
    + exists a. split; [left; reflexivity|]. intros x [->|Hx]; [lra|]. specialize (H x Hx). lra.
    + exists m. split; [right; exact Hm|]. intros x [->|Hx]; [lra|]. exact (H x Hx).
Qed.

Lemma greatest (l : list R) : l <> [] -> exists m, In m l /\ forall x, In x l -> x <= m.
Proof.
  intros H. destruct (least (map Ropp l)) as (m & Hm & Hl); [destruct l; cbn; congruence|].
  apply in_map_iff in Hm. destruct Hm as (y & <- & Hy). exists y. split; [exact Hy|].
  intros x Hx. specialize (Hl (- x) (in_map Ropp _ _ Hx)). lra.
Qed.

Lemma box_axis r s n : (forall a b, between_all a b r <-> between_all a b s) -> grid_axis Rops r n = grid_axis Rops s n.
Proof.
  intros H. destruct r as [|x r].
  - destruct s as [|y s]; [reflexivity|]. exfalso.
    assert (B : between_all (y + 1) y (y :: s)) by (apply H; intros z []). specialize (B y (or_introl eq_refl)). lra.
  - destruct s as [|y s].
    { exfalso. assert (B : between_all (x + 1) x (x :: r)) by (apply H; intros z []). specialize (B x (or_introl eq_refl)). lra. }
    remember (x :: r) as l. remember (y :: s) as l'.
    destruct (least l) as (m & Im & Hm); [subst; congruence|]. destruct (greatest l) as (M & IM & HM); [subst; congruence|].
    destruct (least l') as (m' & Im' & Hm'); [subst; congruence|]. destruct (greatest l') as (M' & IM' & HM'); [subst; congruence|].
    assert (B : between_all m M l') by (apply H; intros z Hz; split; auto).
    assert (B' : between_all m' M' l) by (apply H; intros z Hz; split; auto).
    assert (m = m') by (pose proof (B _ Im'); pose proof (B' _ Im); lra).
    assert (M = M') by (pose proof (B _ IM'); pose proof (B' _ IM); lra). subst m' M'.
    unfold grid_axis. rewrite (np_min_R l m Im Hm), (np_max_R l M IM HM), (np_min_R l' m Im' Hm'), (np_max_R l' M IM' HM'). reflexivity.
Qed.

Lemma Forall2_nth {A B} (P : A -> B -> Prop) l m k : Forall2 P l m ->
  match nth_error l k, nth_error m k with Some a, Some b => P a b | None, None => True | _, _ => False end.
Proof. intros H. revert k. induction H as [|x y l m Hxy H IH]; intros [|k]; cbn; try exact I; [exact Hxy|exact (IH k)]. Qed.

Lemma box_points p q a n : same_box p q -> points_axis Rops p a n = points_axis Rops q a n.
Proof.
  intros (_ & _ & _ & F). unfold points_axis, get. pose proof (Forall2_nth _ _ _ a F) as H.
  destruct (nth_error (mrows p) a), (nth_error (mrows q) a); cbn; try contradiction; [|reflexivity]. apply box_axis. exact H.
Qed.

Lemma box_rows p q : same_box p q -> nrows p = nrows q.
Proof. intros (_ & _ & _ & F). unfold nrows. induction F; cbn; congruence. Qed.

Lemma box_coordinates p q gs a : same_box p q -> length gs = nrows p -> (1 <= nrows p)%nat -> (nrows p * mcols p = length gs * size gs)%nat ->
  coordinate_axis Rops (Nd (length gs :: gs) (concat (mrows p))) gs a = coordinate_axis Rops (Nd (length gs :: gs) (concat (mrows q))) gs a.
Proof.
  intros H Hg Hr Hs. pose proof (box_rows _ _ H) as Hn. destruct H as (Wp & Wq & Hc & F).
  assert (E : size gs = mcols p) by nia.
  unfold coordinate_axis, subarray. cbn [shape data]. destruct (a <? length gs)%nat eqn:La; [|reflexivity]. cbn [bind data].
  apply Nat.ltb_lt in La. pose proof (Forall2_nth _ _ _ a F) as Hx. unfold nrows in *.
  destruct (nth_error (mrows p) a) as [r|] eqn:Er; [|apply nth_error_None in Er; lia].
  destruct (nth_error (mrows q) a) as [s|] eqn:Es; [|contradiction].
  rewrite E. rewrite (coord_row _ _ _ _ _ Wp Er eq_refl). rewrite Hc. rewrite (coord_row _ _ _ _ _ Wq Es eq_refl).
  destruct (get gs a); [|reflexivity]. cbn [bind]. apply box_axis. exact Hx.
Qed.

Definition sim_high (o o' : highperf R) : Prop :=
  h_shape o' = h_shape o /\ h_velocities o' = h_velocities o /\ h_u o' = h_u o /\ h_v o' = h_v o /\ h_w o' = h_w o /\
  h_x o' = h_x o /\ h_y o' = h_y o /\ h_z o' = h_z o.
Definition sim_points (p p' : option (mat R)) : Prop :=
  p = p' \/ exists q q', p = Some q /\ p' = Some q' /\ same_box q q'.
Definition sim_grid (o o' : gridinterp R) : Prop :=
  g_method o' = g_method o /\ g_shape o' = g_shape o /\ g_velocities o' = g_velocities o /\ g_ndim o' = g_ndim o /\
  g_x o' = g_x o /\ g_y o' = g_y o /\ g_z o' = g_z o /\ sim_points (g_points o) (g_points o').
Definition sim {scp : scipy R} (i i' : interp scp) : Prop :=
  match i, i' with IHigh o, IHigh o' => sim_high o o' | IGrid o, IGrid o' => sim_grid o o' | _, _ => False end.

Definition same {S A} (P : S -> S -> Prop) (x y : S * A) : Prop := P (fst x) (fst y) /\ snd x = snd y.

Lemma sim_high_init o o' p p' : sim_high o o' -> h_points o = Some p -> h_points o' = Some p' -> same_box p p' -> length (h_shape o) = nrows p ->
  same sim_high (highperf_init Rops o) (highperf_init Rops o').
Proof.
  destruct o as [gs v q bu bv bw x y z], o' as [gs' v' q' bu' bv' bw' x' y' z']. unfold sim_high. cbn.
  intros (-> & -> & -> & -> & -> & -> & -> & ->) -> -> B Hl. pose proof (box_rows _ _ B) as Hn.
  destruct v as [v|]; [|cbn; repeat split].
  unfold highperf_init. cbn [h_velocities h_points h_shape].
  unfold reshape_c at 1 3. cbn [shape nd_of_mat]. rewrite <- Hn, <- (proj1 (proj2 (proj2 B))).
  destruct (size [nrows p; mcols p] =? size (length gs :: gs))%nat eqn:E; [|cbn; repeat split].
  cbn [bind data nd_of_mat]. apply Nat.eqb_eq in E.
  destruct gs as [|nx [|ny [|nz [|]]]]; try (cbn; repeat split; fail).
  - rewrite <- (box_coordinates p p' [nx; ny] 0 B Hl ltac:(cbn in *; lia)) by (cbn in *; lia).
    rewrite <- (box_coordinates p p' [nx; ny] 1 B Hl ltac:(cbn in *; lia)) by (cbn in *; lia).
    match goal with |- same _ (match ?X with _ => _ end) (match ?Y with _ => _ end) => idtac end.
    destruct (reshape_f (nd_of_mat v) (length [nx; ny] :: [nx; ny])) as [vel|]; cbn [bind]; [|cbn; repeat split].
    destruct (coordinate_axis Rops _ [nx; ny] 0) as [gx|]; cbn [bind]; [|cbn; repeat split].
    destruct (coordinate_axis Rops _ [nx; ny] 1) as [gy|]; cbn [bind]; [|cbn; repeat split].
    destruct (subarray vel 0) as [v0|]; cbn [bind]; [|cbn; repeat split].
    destruct (mk_interp2d Rops v0 gx gy) as [i0|]; cbn [bind]; [|cbn; repeat split].
    destruct (subarray vel 1) as [v1|]; cbn [bind]; [|cbn; repeat split].
    destruct (mk_interp2d Rops v1 gx gy) as [i1|]; cbn [bind]; cbn; repeat split.
  - rewrite <- (box_coordinates p p' [nx; ny; nz] 0 B Hl ltac:(cbn in *; lia)) by (cbn in *; lia).
    rewrite <- (box_coordinates p p' [nx; ny; nz] 1 B Hl ltac:(cbn in *; lia)) by (cbn in *; lia).
    rewrite <- (box_coordinates p p' [nx; ny; nz] 2 B Hl ltac:(cbn in *; lia)) by (cbn in *; lia).
    destruct (reshape_c (nd_of_mat v) (length [nx; ny; nz] :: [nx; ny; nz])) as [vel0|]; cbn [bind]; [|cbn; repeat split].
    destruct (transpose_0213 vel0) as [vel|]; cbn [bind]; [|cbn; repeat split].
    destruct (coordinate_axis Rops _ [nx; ny; nz] 0) as [gx|]; cbn [bind]; [|cbn; repeat split].
    destruct (coordinate_axis Rops _ [nx; ny; nz] 1) as [gy|]; cbn [bind]; [|cbn; repeat split].
    destruct (coordinate_axis Rops _ [nx; ny; nz] 2) as [gz|]; cbn [bind]; [|cbn; repeat split].
    destruct (subarray vel 0) as [v0|]; cbn [bind]; [|cbn; repeat split].
    destruct (mk_interp3d Rops v0 gx gy gz) as [i0|]; cbn [bind]; [|cbn; repeat split].
    destruct (subarray vel 1) as [v1|]; cbn [bind]; [|cbn; repeat split].
    destruct (mk_interp3d Rops v1 gx gy gz) as [i1|]; cbn [bind]; [|cbn; repeat split].
    destruct (subarray vel 2) as [v2|]; cbn [bind]; [|cbn; repeat split].
    destruct (mk_interp3d Rops v2 gx gy gz) as [i2|]; cbn [bind]; cbn; repeat split.
Qed.

Lemma sim_high_same o o' : sim_high o o' -> h_points o = h_points o' -> o = o'.
Proof. destruct o, o'. unfold sim_high. cbn. intros (-> & -> & -> & -> & -> & -> & -> & ->) ->. reflexivity. Qed.

Lemma sim_high_refl o : sim_high o o. Proof. repeat split. Qed.

Lemma sim_high_update o o' v p : sim_high o o' -> same sim_high (highperf_update Rops o v p) (highperf_update Rops o' v p).
Proof.
  intros H. destruct p as [p|].
  - cbn. destruct H as (-> & H2 & -> & -> & -> & -> & -> & ->). split; [apply sim_high_refl|reflexivity].
  - destruct o as [gs v0 q bu bv bw x y z], o' as [gs' v' q' bu' bv' bw' x' y' z']. unfold sim_high in H. cbn in H.
    destruct H as (-> & -> & -> & -> & -> & -> & -> & ->). cbn.
    destruct x as [x|]; [|repeat split]. destruct y as [y|]; [|repeat split].
    destruct (get (mrows v) 0); [|repeat split]. destruct (get (mrows v) 1); [|repeat split].
    destruct z as [z|]; [|repeat split]. destruct (get (mrows v) 2); repeat split.
Qed.

Ltac sim_fields H := destruct H as (? & ? & ? & ? & ? & ? & ? & ?).

Lemma sim_ensure mem o o' n d : sim_high o o' -> sim_high (ensure_buffers mem o n d) (ensure_buffers mem o' n d).
Proof.
  destruct o as [gs v0 q bu bv bw x y z], o' as [gs' v' q' bu' bv' bw' x' y' z']. unfold sim_high. cbn.
  intros (-> & -> & -> & -> & -> & -> & -> & ->). unfold ensure_buffers. cbn. destruct bu as [b|]; [|cbn; repeat split].
  destruct (length b =? n)%nat; cbn; repeat split.
Qed.

Lemma sim_run_x mem o o' c q : sim_high o o' -> same sim_high (run_x Rops mem o c q) (run_x Rops mem o' c q).
Proof.
  intros (E1 & E2 & E3 & E4 & E5 & E6 & E7 & E8). unfold run_x. rewrite E3. destruct (call_component Rops _ c q (h_u o)) as [c' [b|e]];
    (split; [unfold sim_high; cbn; repeat split; assumption|reflexivity]).
Qed.
Lemma sim_run_y mem o o' c q : sim_high o o' -> same sim_high (run_y Rops mem o c q) (run_y Rops mem o' c q).
Proof.
  intros (E1 & E2 & E3 & E4 & E5 & E6 & E7 & E8). unfold run_y. rewrite E4. destruct (call_component Rops _ c q (h_v o)) as [c' [b|e]];
    (split; [unfold sim_high; cbn; repeat split; assumption|reflexivity]).
Qed.
Lemma sim_run_z mem o o' c q : sim_high o o' -> same sim_high (run_z Rops mem o c q) (run_z Rops mem o' c q).
Proof.
  intros (E1 & E2 & E3 & E4 & E5 & E6 & E7 & E8). unfold run_z. rewrite E5. destruct (call_component Rops _ c q (h_w o)) as [c' [b|e]];
    (split; [unfold sim_high; cbn; repeat split; assumption|reflexivity]).
Qed.

Lemma sim_high_interpolate mem o o' q : sim_high o o' -> same sim_high (highperf_interpolate Rops mem o q) (highperf_interpolate Rops mem o' q).
Proof.
  intros H. unfold highperf_interpolate. pose proof (sim_ensure mem o o' (nrows q) (mcols q) H) as S0.
  set (o0 := ensure_buffers mem o _ _) in *. set (o0' := ensure_buffers mem o' _ _) in *. clearbody o0 o0'. clear H.
  assert (E : h_x o0' = h_x o0 /\ h_y o0' = h_y o0 /\ h_z o0' = h_z o0) by (destruct S0 as (_ & _ & _ & _ & _ & ? & ? & ?); auto).
  destruct E as (-> & -> & ->).
  destruct (mcols q) as [|[|[|[|]]]]; try (split; [exact S0|reflexivity]).
  - destruct (h_x o0) as [cx|]; [|split; [exact S0|reflexivity]]. destruct (h_y o0) as [cy|]; [|split; [exact S0|reflexivity]].
    pose proof (sim_run_x mem o0 o0' cx q S0) as [S1 R1].
    destruct (run_x Rops mem o0 cx q) as [o1 [bu|e]], (run_x Rops mem o0' cx q) as [o1' [bu'|e']]; cbn in S1, R1; try discriminate;
      [|split; [exact S1|cbn; congruence]]. injection R1 as <-.
    pose proof (sim_run_y mem o1 o1' cy q S1) as [S2 R2].
    destruct (run_y Rops mem o1 cy q) as [o2 [bv|e]], (run_y Rops mem o1' cy q) as [o2' [bv'|e']]; cbn in S2, R2; try discriminate;
      [|split; [exact S2|cbn; congruence]]. injection R2 as <-. split; [exact S2|reflexivity].
  - destruct (h_x o0) as [cx|]; [|split; [exact S0|reflexivity]]. destruct (h_y o0) as [cy|]; [|split; [exact S0|reflexivity]].
    destruct (h_z o0) as [cz|]; [|split; [exact S0|reflexivity]].
    pose proof (sim_run_x mem o0 o0' cx q S0) as [S1 R1].
    destruct (run_x Rops mem o0 cx q) as [o1 [bu|e]], (run_x Rops mem o0' cx q) as [o1' [bu'|e']]; cbn in S1, R1; try discriminate;
      [|split; [exact S1|cbn; congruence]]. injection R1 as <-.
    pose proof (sim_run_y mem o1 o1' cy q S1) as [S2 R2].
    destruct (run_y Rops mem o1 cy q) as [o2 [bv|e]], (run_y Rops mem o1' cy q) as [o2' [bv'|e']]; cbn in S2, R2; try discriminate;
      [|split; [exact S2|cbn; congruence]]. injection R2 as <-.
    pose proof (sim_run_z mem o2 o2' cz q S2) as [S3 R3].
    destruct (run_z Rops mem o2 cz q) as [o3 [bw|e]], (run_z Rops mem o2' cz q) as [o3' [bw'|e']]; cbn in S3, R3; try discriminate;
      [|split; [exact S3|cbn; congruence]]. injection R3 as <-. split; [exact S3|reflexivity].
Qed.

Section Structured.
  Variable scp : scipy R.

  Lemma sim_grid_init o o' : sim_grid o o' -> same sim_grid (gridinterp_init Rops scp o) (gridinterp_init Rops scp o').
  Proof.
    destruct o as [m gs v q n x y z], o' as [m' gs' v' q' n' x' y' z']. unfold sim_grid. cbn.
    intros (-> & -> & -> & -> & -> & -> & -> & S). destruct S as [<-|(p & p' & -> & -> & B)].
    { split; [|reflexivity]. unfold sim_grid. repeat split. left. reflexivity. }
    assert (SP : sim_points (Some p) (Some p')) by (right; eauto).
    unfold gridinterp_init. cbn [g_velocities g_points g_shape g_method g_x g_y g_z].
    destruct v as [v|]; [|split; [unfold sim_grid; cbn; repeat split; assumption|reflexivity]].
    rewrite <- (box_rows _ _ B), <- (proj1 (proj2 (proj2 B))).
    destruct (negb (size gs =? mcols p))%nat; [split; [unfold sim_grid; cbn; repeat split; assumption|reflexivity]|].
    destruct (negb ((nrows p =? 2) || (nrows p =? 3)))%nat; [split; [unfold sim_grid; cbn; repeat split; assumption|reflexivity]|].
    match goal with |- same _ (match ?X with _ => _ end) (match ?Y with _ => _ end) => assert (EX : X = Y) end.
    { destruct (nrows p =? 2)%nat.
      - destruct gs as [|a [|b [|]]]; try reflexivity. rewrite !(box_points p p' _ _ B). reflexivity.
      - destruct gs as [|a [|b [|c [|]]]]; try reflexivity. rewrite !(box_points p p' _ _ B). reflexivity. }
    rewrite <- EX. clear EX.
    match goal with |- same _ (match ?X with _ => _ end) _ => destruct X as [axes|e] end;
      [|split; [unfold sim_grid; cbn; repeat split; assumption|reflexivity]].
    destruct (mk_rgi scp m axes v 0 gs); [|split; [unfold sim_grid; cbn; repeat split; assumption|reflexivity]].
    destruct (mk_rgi scp m axes v 1 gs); [|split; [unfold sim_grid; cbn; repeat split; assumption|reflexivity]].
    destruct (nrows p =? 2)%nat; [split; [unfold sim_grid; cbn; repeat split; assumption|reflexivity]|].
    destruct (mk_rgi scp m axes v 2 gs); (split; [unfold sim_grid; cbn; repeat split; assumption|reflexivity]).
  Qed.

  Lemma sim_grid_refl o : sim_grid o o. Proof. repeat split. left. reflexivity. Qed.

  Lemma sim_grid_update o o' v p p' : sim_grid o o' -> sim_points p p' -> same sim_grid (gridinterp_update Rops scp o v p) (gridinterp_update Rops scp o' v p').
  Proof.
    destruct o as [m gs v0 q n x y z], o' as [m' gs' v0' q' n' x' y' z']. unfold sim_grid at 1. cbn.
    intros (-> & -> & -> & -> & -> & -> & -> & S) Sp.
    assert (SI : sim_points (match p with Some _ => p | None => q end) (match p' with Some _ => p' | None => q' end)).
    { destruct Sp as [<-|(a & b & -> & -> & B)]; [destruct p; [left; reflexivity|exact S]|right; eauto]. }
    assert (G : same sim_grid (gridinterp_init Rops scp (GridI m gs (Some v) (match p with Some _ => p | None => q end) n x y z))
                              (gridinterp_init Rops scp (GridI m gs (Some v) (match p' with Some _ => p' | None => q' end) n x y z))).
    { apply sim_grid_init. unfold sim_grid. cbn. repeat split. exact SI. }
    unfold gridinterp_update. cbn [g_x g_y g_z g_ndim g_method g_shape g_velocities g_points].
    destruct x as [x|]; [|exact G].
    assert (Dp : (p = None /\ p' = None) \/ (exists a b, p = Some a /\ p' = Some b)).
    { destruct Sp as [<-|(a & b & -> & -> & B)]; [destruct p; eauto|right; eauto]. }
    destruct Dp as [(-> & ->)|(a & b & -> & ->)]; [|exact G].
    destruct n as [n|]; [|exact G]. clear G.
    match goal with |- same _ (match ?X with _ => _ end) _ => destruct X as [field|e] end;
      [|split; [unfold sim_grid; cbn; repeat split; assumption|reflexivity]].
    destruct (set_values (Some x) field 0); [|split; [unfold sim_grid; cbn; repeat split; assumption|reflexivity]].
    destruct (set_values y field 1); [|split; [unfold sim_grid; cbn; repeat split; assumption|reflexivity]].
    destruct (n =? 2)%nat; [split; [unfold sim_grid; cbn; repeat split; assumption|reflexivity]|].
    destruct (set_values z field 2); (split; [unfold sim_grid; cbn; repeat split; assumption|reflexivity]).
  Qed.

  Lemma sim_grid_interpolate junk o o' q : sim_grid o o' -> gridinterp_interpolate scp junk o q = gridinterp_interpolate scp junk o' q.
  Proof.
    intros (E1 & E2 & E3 & E4 & E5 & E6 & E7 & _). unfold gridinterp_interpolate. rewrite E1, E4, E5, E6, E7. reflexivity.
  Qed.

  Lemma sim_update (i i' : interp scp) v p : sim i i' -> same sim (update Rops scp i v p) (update Rops scp i' v p).
  Proof.
    destruct i as [| | |o|o|], i' as [| | |o'|o'|]; cbn [sim]; try contradiction; intros H; cbn [update].
    - pose proof (sim_grid_update o o' v p p H (or_introl eq_refl)) as [S R].
      destruct (gridinterp_update Rops scp o v p), (gridinterp_update Rops scp o' v p). split; [exact S|exact R].
    - pose proof (sim_high_update o o' v p H) as [S R].
      destruct (highperf_update Rops o v p), (highperf_update Rops o' v p). split; [exact S|exact R].
  Qed.

  Lemma sim_interpolate (i i' : interp scp) mem q : sim i i' -> same sim (interpolate Rops scp mem i q) (interpolate Rops scp mem i' q).
  Proof.
    destruct i as [| | |o|o|], i' as [| | |o'|o'|]; cbn [sim]; try contradiction; intros H; cbn [interpolate].
    - split; [exact H|]. cbn. apply sim_grid_interpolate. exact H.
    - pose proof (sim_high_interpolate mem o o' q H) as [S R].
      destruct (highperf_interpolate Rops mem o q), (highperf_interpolate Rops mem o' q). split; [exact S|exact R].
  Qed.

  Lemma sim_after (i i' : interp scp) hist : sim i i' -> sim (after Rops scp i hist) (after Rops scp i' hist).
  Proof.
    revert i i'. induction hist as [|[v p|mem q] hist IH]; intros i i' H; cbn; [exact H| |]; apply IH;
      [apply (sim_update i i' v p H)|apply (sim_interpolate i i' mem q H)].
  Qed.
End Structured.
