(** Statements of the interpolation properties at the level of the public calls. *)
From Coq Require Import Reals Lra Lia Sorted.
From Verif Require Import Base Num NdArray Integrate GridInterp Interpolate SpecSeeds SpecGrid SpecKernel SpecIntegrate SpecInterp
  NdFacts GridInterpFacts HighPerfFacts HighPerfReal HighPerfHist IntegrateMisc GridPlace ScipyFacts StructFacts StructMain.

(** C27 *)
Lemma kernel3_refuted {T} (O : ops T) :
  exists (v : nd T) (x : T), wf_nd v /\
    (forall z, o_floor O (o_zero O) = Some z -> z = 0%Z -> c_fits O (Some (o_zero O))) /\
    interp3d_vec_inplace O v (Mat 3 [[Some (o_zero O); Some (o_zero O); Some (o_zero O)]]) [x] = Err UndefinedBehaviour.
Proof.
  set (s := [1; Z.to_nat 65536; Z.to_nat 32768]).
  exists (Nd s (repeat (o_zero O) (size s))), (o_zero O). split; [|split].
  - unfold wf_nd. cbn [data shape]. apply repeat_length.
  - intros z H ->. exists (o_zero O), 0%Z. repeat split; [exact H|unfold INT_MIN; lia..].
  - apply (kernel3_overflow O _ 1 (Z.to_nat 65536) (Z.to_nat 32768)); [reflexivity|..|reflexivity];
      rewrite !Z2Nat.id by lia; unfold INT_MAX; lia.
Qed.

(** C29 *)
Lemma outside2 v sx sy V pts out :
  shape v = [sx; sy] -> (Z.of_nat sx <= INT_MAX)%Z -> (Z.of_nat sy <= INT_MAX)%Z ->
  (forall i j, i < sx -> j < sy -> nd_get v [i; j] = Ok (V i j)) ->
  length out = length pts -> Forall fits2 pts ->
  exists vals, interp2d_vec_inplace Rops v (q2 pts) out = Ok vals /\
    Forall2 (fun p val => outside sx (fst p) \/ outside sy (snd p) -> val = 0%R) pts vals.
Proof.
  intros Hs Bx By HV Hl Hf. destruct (kernel2_sampled v sx sy V pts out Hs Bx By HV Hl Hf) as [vals [E F]].
  exists vals. split; [exact E|]. revert F. apply Forall2_imp. intros p val [_ [H _]] [D|D]; apply H; [left|right];
    destruct D as [D|D]; [left|right|left|right]; lra.
Qed.

Lemma outside3 v sx sy sz V pts out :
  shape v = [sx; sy; sz] -> (Z.of_nat sx <= INT_MAX)%Z -> (Z.of_nat sy <= INT_MAX)%Z ->
  (Z.of_nat sz <= INT_MAX)%Z -> (Z.of_nat sy * Z.of_nat sz <= INT_MAX)%Z ->
  (forall i j k, i < sx -> j < sy -> k < sz -> nd_get v [i; j; k] = Ok (V i j k)) ->
  length out = length pts -> Forall fits3 pts ->
  exists vals, interp3d_vec_inplace Rops v (q3 pts) out = Ok vals /\
    Forall2 (fun p val => outside sx (fst (fst p)) \/ outside sy (snd (fst p)) \/ outside sz (snd p) -> val = 0%R) pts vals.
Proof.
  intros Hs Bx By Bz Byz HV Hl Hf.
  destruct (kernel3_sampled v sx sy sz V pts out Hs Bx By Bz Byz HV Hl Hf) as [vals [E F]].
  exists vals. split; [exact E|]. revert F. apply Forall2_imp.
  intros p val [_ [H _]] [D|[D|D]]; apply H; [left|right; left|right; right];
    destruct D as [D|D]; [left|right|left|right|left|right]; lra.
Qed.

Section Api.
  Context {T : Type} (O : ops T) (scp : scipy T).

  (** C35 *)
  Lemma created_unstructured name fn i : unstructured_name name ->
    create_interpolator O scp name None fn = Ok i -> is_unstructured i.
  Proof.
    intros N C. destruct (create_spec O scp name None fn) as (_ & _ & Hc & Hl & Hn & _).
    destruct N as [N|[N|N]]; [rewrite (Hc N) in C|rewrite (Hl N) in C|rewrite (Hn N) in C]; injection C as <-; exact I.
  Qed.

  Lemma update_kind (i : interp scp) v p : is_unstructured i -> is_unstructured (fst (update O scp i v p)).
  Proof.
    destruct i; intros H; try contradiction; cbn [update].
    - destruct (base_update scp (cubic_init scp) o v p); exact I.
    - destruct (base_update scp (linear_init scp) o v p); exact I.
    - destruct (base_update scp (nearest_init scp) o v p); exact I.
  Qed.

  Lemma after_kind hist (i : interp scp) : is_unstructured i -> is_unstructured (after O scp i hist).
  Proof.
    revert i. induction hist as [|[v p|mem q] hist IH]; intros i H; [exact H| |]; cbn [after]; apply IH.
    - apply update_kind, H.
    - destruct i; try contradiction; exact I.
  Qed.

  Lemma only_history name fn i0 hist v1 v2 p : unstructured_name name ->
    create_interpolator O scp name None fn = Ok i0 ->
    let i := after O scp i0 hist in
    let i1 := fst (update O scp i v1 (Some p)) in
    snd (update O scp i1 v2 None) = snd (update O scp i v2 (Some p)) /\
    (snd (update O scp i v2 (Some p)) = Ok tt ->
     forall mem q, snd (interpolate O scp mem (fst (update O scp i1 v2 None)) q) =
                   snd (interpolate O scp mem (fst (update O scp i v2 (Some p))) q)).
  Proof.
    intros N C i i1. pose proof (after_kind hist i0 (created_unstructured name fn i0 N C)) as K. fold i in K.
    destruct (update O scp i v1 (Some p)) as [i1' r] eqn:E.
    destruct (only_unstructured O scp i i1' v1 v2 p r K E) as [A B].
    subst i1. cbn [fst]. split; [exact A|]. intros S mem q. rewrite (B S). reflexivity.
  Qed.

  (** C36, C37 *)
  Lemma created_lin name fn i : linear_or_nearest name ->
    create_interpolator O scp name None fn = Ok i -> is_linear_or_nearest i.
  Proof.
    intros N C. destruct (create_spec O scp name None fn) as (_ & _ & _ & Hl & Hn & _).
    destruct N as [N|N]; [rewrite (Hl N) in C|rewrite (Hn N) in C]; injection C as <-; reflexivity.
  Qed.

  Lemma w_junk name fn i i1 v p pts mem out : linear_or_nearest name ->
    create_interpolator O scp name None fn = Ok i -> update O scp i v (Some p) = (i1, Ok tt) -> length pts <> 3 ->
    snd (interpolate O scp mem i1 (arr3 pts)) = Ok out ->
    exists uv, length uv = length pts /\ forall mem',
      interpolate O scp mem' i1 (arr3 pts) =
        (i1, Ok (arr3 (zip_with (fun k c => (fst c, snd c, mem' 0 k 2)) (seq 0 (length pts)) uv))).
  Proof. intros N C. exact (w_is_junk O scp i i1 v p pts mem out (created_lin name fn i N C)). Qed.

  Lemma w_three name fn i i1 v p pts mem out : linear_or_nearest name ->
    create_interpolator O scp name None fn = Ok i -> update O scp i v (Some p) = (i1, Ok tt) -> length pts = 3 ->
    snd (interpolate O scp mem i1 (arr3 pts)) = Ok out ->
    forall mem', interpolate O scp mem' i1 (arr3 pts) = (i1, Ok out).
  Proof. intros N C. exact (w_with_three O scp i i1 v p pts mem out (created_lin name fn i N C)). Qed.

  Lemma two_d_three name fn i i1 v p pts : linear_or_nearest name ->
    create_interpolator O scp name None fn = Ok i -> update O scp i v (Some p) = (i1, Ok tt) ->
    nrows p = 2 -> length pts = 3 ->
    forall mem out, snd (interpolate O scp mem i1 (arr2 pts)) <> Ok out.
  Proof. intros N C. exact (three_points_2d O scp i i1 v p pts (created_lin name fn i N C)). Qed.

  Lemma two_d_other name fn i i1 v p pts mem m : linear_or_nearest name ->
    create_interpolator O scp name None fn = Ok i -> update O scp i v (Some p) = (i1, Ok tt) -> length pts <> 3 ->
    snd (interpolate O scp mem i1 (arr2 pts)) = Ok m ->
    exists uv, length uv = length pts /\ m = arr2 uv /\
      forall mem', interpolate O scp mem' i1 (arr2 pts) = (i1, Ok (arr2 uv)).
  Proof. intros N C. exact (other_points_2d O scp i i1 v p pts mem m (created_lin name fn i N C)). Qed.

  (** C34 in 3-D. *)
  Lemma created_struct3 name method gs fn i : structured_name name method ->
    create_interpolator O scp name (Some gs) fn = Ok i ->
    i = IGrid (GridI method gs None None None None None None).
  Proof. intros N C. rewrite (create_structured O scp name method gs fn N) in C. congruence. Qed.

  Lemma struct3_only name method nx ny nz fn i i1 i2 v1 v2 p : structured_name name method ->
    create_interpolator O scp name (Some [nx; ny; nz]) fn = Ok i ->
    nrows p = 3 -> wf_mat v2 -> nrows v2 = 3 ->
    update O scp i v1 (Some p) = (i1, Ok tt) -> update O scp i v2 (Some p) = (i2, Ok tt) ->
    exists i1', update O scp i1 v2 None = (i1', Ok tt) /\
      (evaluates_current scp method ->
       forall mem q, snd (interpolate O scp mem i1' q) = snd (interpolate O scp mem i2 q)).
  Proof.
    intros N C Hp Wv Nv U1 U2. rewrite (created_struct3 name method _ fn i N C) in *. clear C. cbn [update] in *.
    set (g := GridI method _ None None None None None None) in *.
    destruct (gridinterp_update O scp g v1 (Some p)) as [g1 r1] eqn:E1. injection U1 as <- ->.
    destruct (gridinterp_update O scp g v2 (Some p)) as [g2 r2] eqn:E2. injection U2 as <- ->.
    destruct (only_grid3 O scp g v1 v2 p g1 g2 nx ny nz eq_refl Hp Wv Nv E1 E2) as [g1' [E A]].
    exists (IGrid g1'). cbn [update]. rewrite E. split; [reflexivity|]. intros Cur mem q. cbn [interpolate snd].
    apply A, Cur.
  Qed.

  (** Spline methods keep answering with the first velocities. *)
  Lemma spline_stale name method gs fn i i1 i1' v1 v2 p : structured_name name method ->
    create_interpolator O scp name (Some gs) fn = Ok i -> (length gs = 2 \/ length gs = 3) -> nrows p = length gs ->
    update O scp i v1 (Some p) = (i1, Ok tt) -> update O scp i1 v2 None = (i1', Ok tt) ->
    evaluates_built scp method ->
    forall mem q, snd (interpolate O scp mem i1' q) = snd (interpolate O scp mem i1 q).
  Proof.
    intros N C L Hp U1 U2 B mem q. rewrite (created_struct3 name method _ fn i N C) in *. clear C. cbn [update] in *.
    set (g := GridI method _ None None None None None None) in *.
    destruct (gridinterp_update O scp g v1 (Some p)) as [g1 r1] eqn:E1. injection U1 as <- ->. cbn [update] in U2.
    destruct (gridinterp_update O scp g1 v2 None) as [g2 r2] eqn:E2. injection U2 as <- ->. cbn [interpolate snd].
    destruct gs as [|nx [|ny [|nz [|]]]]; cbn in L; try lia.
    - exact (only_spline2 O scp g v1 v2 p g1 g2 nx ny eq_refl Hp E1 E2 B (mem 0) q).
    - exact (only_spline3 O scp g v1 v2 p g1 g2 nx ny nz eq_refl Hp E1 E2 B (mem 0) q).
  Qed.

  (** C38 *)
  Lemma grid_read_only name gs fn i hist q mem mem' : case_variant name "grid" ->
    create_interpolator O scp name (Some gs) fn = Ok i -> (length gs = 2 \/ length gs = 3) ->
    queries_have (length gs) hist -> wf_mat q -> mcols q = length gs ->
    snd (interpolate O scp mem (after O scp i hist) q) =
    snd (interpolate O scp mem' (after O scp i (filter is_update hist)) q).
  Proof.
    intros N C L Hq Hw Hc. rewrite create_grid in C by exact N. injection C as <-.
    destruct gs as [|nx [|ny [|nz [|]]]]; cbn [length] in *; try lia.
    - apply read_only_2d; assumption.
    - apply read_only_3d; assumption.
  Qed.

  Lemma other_read_only name gs fn i hist mem q : data_driven name -> (case_variant name "grid" -> False) ->
    create_interpolator O scp name gs fn = Ok i ->
    fst (interpolate O scp mem (after O scp i hist) q) = after O scp i hist /\
    after O scp i hist = after O scp i (filter is_update hist).
  Proof.
    intros D N C.
    assert (K : forall o, i <> IHigh o).
    { intros o ->. apply N. clear N. destruct (create_spec O scp name gs fn) as (_ & Hg & Hc & Hl & Hn & _).
      destruct D as [D|[D|[D|D]]]; [rewrite (Hc D) in C|rewrite (Hl D) in C|rewrite (Hn D) in C|exact D];
        destruct gs; discriminate. }
    assert (U : forall i0 : interp scp, (forall o, i0 <> IHigh o) -> forall v p o, fst (update O scp i0 v p) <> IHigh o).
    { intros i0 K0 v p o. destruct i0; cbn [update].
      - destruct (base_update scp (cubic_init scp) o0 v p); discriminate.
      - destruct (base_update scp (linear_init scp) o0 v p); discriminate.
      - destruct (base_update scp (nearest_init scp) o0 v p); discriminate.
      - destruct (gridinterp_update O scp o0 v p); discriminate.
      - exfalso. exact (K0 o0 eq_refl).
      - discriminate. }
    clear C. revert i K. induction hist as [|[v p|m0 q0] hist IH]; intros i K.
    - cbn. split; [apply read_only_other, K|reflexivity].
    - cbn [after filter is_update]. apply IH. intros o. apply U, K.
    - cbn [after filter is_update]. rewrite (read_only_other O scp m0 i q0 K). apply IH, K.
  Qed.

  Lemma grid_pointwise2 name nx ny fn i hist mem pts m : case_variant name "grid" ->
    create_interpolator O scp name (Some [nx; ny]) fn = Ok i -> queries_have 2 hist ->
    snd (interpolate O scp mem (after O scp i hist) (arr2 pts)) = Ok m ->
    exists out, m = arr2 out /\
      Forall2 (fun p o => forall mem', snd (interpolate O scp mem' (after O scp i hist) (arr2 [p])) = Ok (arr2 [o])) pts out.
  Proof.
    intros N C. rewrite create_grid in C by exact N. injection C as <-. intros Hq. apply pointwise_2d. exact Hq.
  Qed.

  Lemma grid_pointwise3 name nx ny nz fn i hist mem pts m : case_variant name "grid" ->
    create_interpolator O scp name (Some [nx; ny; nz]) fn = Ok i -> queries_have 3 hist ->
    snd (interpolate O scp mem (after O scp i hist) (arr3 pts)) = Ok m ->
    exists out, m = arr3 out /\
      Forall2 (fun p o => forall mem', snd (interpolate O scp mem' (after O scp i hist) (arr3 [p])) = Ok (arr3 [o])) pts out.
  Proof.
    intros N C. rewrite create_grid in C by exact N. injection C as <-. intros Hq. apply pointwise_3d. exact Hq.
  Qed.
End Api.

Local Open Scope R_scope.

(** Poisoned buffers: a rejected 2-column query makes a 3-D field unusable for that number of
    points. *)
Lemma poison_refuted (scp : scipy R) nx ny nz x0 y0 z0 dx dy dz name fn u w t pts2 pts3 :
  case_variant name "grid" -> (2 <= nx)%nat -> (2 <= ny)%nat -> (2 <= nz)%nat -> 0 < dx -> 0 < dy -> 0 < dz ->
  length pts2 = length pts3 ->
  exists i0 i1,
    create_interpolator Rops scp name (Some [nx; ny; nz]) fn = Ok i0 /\
    update Rops scp i0 (samples3 (nx * ny * nz) u w t) (Some (grid_points3 nx ny nz x0 y0 z0 dx dy dz)) = (i1, Ok tt) /\
    forall mem mem',
      snd (interpolate Rops scp mem i1 (arr2 pts2)) = Err IndexError /\
      snd (interpolate Rops scp mem' (fst (interpolate Rops scp mem i1 (arr2 pts2))) (arr3 pts3)) = Err IndexError.
Proof.
  intros N Hx Hy Hz Dx Dy Dz Hl.
  destruct (place3 nx ny nz x0 y0 z0 dx dy dz Hx Hy Hz Dx Dy Dz (highperf_new [nx; ny; nz]) u w t eq_refl I)
    as (o' & vx & vy & vz & ax & ay & az & Eu & S' & [Hu Hc] & Hh & _).
  exists (IHigh (highperf_new [nx; ny; nz])), (IHigh o'). split; [apply create_grid, N|].
  split; [cbn [update]; rewrite Eu; reflexivity|]. intros mem mem'. cbn [interpolate].
  pose proof (poison Rops o' vx vy vz ax ay az pts2 pts3 mem mem' Hu Hc Hh Hl) as P.
  destruct (highperf_interpolate Rops mem o' (arr2 pts2)) as [o2 r]. destruct P as [-> P]. cbn [snd fst interpolate]. split; [reflexivity|].
  destruct (highperf_interpolate Rops mem' o2 (arr3 pts3)). exact P.
Qed.

(** C36: for every supposed third component there is a memory for which the answer differs. *)
Lemma w_refuted (scp : scipy R) name fn i i1 v p pts mem out (w : nat -> R) : linear_or_nearest name ->
  create_interpolator Rops scp name None fn = Ok i -> update Rops scp i v (Some p) = (i1, Ok tt) ->
  length pts <> 3%nat -> pts <> [] ->
  snd (interpolate Rops scp mem i1 (arr3 pts)) = Ok out ->
  exists mem' out' u0 v0 w0, snd (interpolate Rops scp mem' i1 (arr3 pts)) = Ok (arr3 out') /\
    nth_error out' 0 = Some (u0, v0, w0) /\ w0 <> w 0%nat.
Proof.
  intros N C U L NE H. destruct (w_junk Rops scp name fn i i1 v p pts mem out N C U L H) as [uv [Luv A]].
  exists (fun _ _ _ => w 0%nat + 1). rewrite A. destruct pts as [|q pts]; [congruence|].
  destruct uv as [|c uv]; [discriminate|]. cbn [length seq zip_with].
  eexists. eexists. eexists. eexists. split; [reflexivity|]. split; [reflexivity|]. lra.
Qed.

(** C36, C37, C39: concrete uses of the unstructured interpolators. *)
Definition pts4 : mat R := Mat 4 [[0; 1; 0; 1]; [0; 0; 1; 1]].
Definition vel4 : mat R := Mat 4 [[1; 2; 3; 4]; [5; 6; 7; 8]].
Definition pts4_3d : mat R := Mat 4 [[0; 1; 0; 0]; [0; 0; 1; 0]; [0; 0; 0; 1]].
Definition vel4_3d : mat R := Mat 4 [[1; 2; 3; 4]; [5; 6; 7; 8]; [9; 10; 11; 12]].

Lemma linear_3d_use : exists i i1,
  create_interpolator Rops node_scipy "linear" None None = Ok i /\
  update Rops node_scipy i vel4_3d (Some pts4_3d) = (i1, Ok tt) /\
  exists out, snd (interpolate Rops node_scipy (fun _ _ _ => 0) i1 (arr3 [(0, 0, 0); (0, 0, 0)])) = Ok out.
Proof. eexists. eexists. split; [reflexivity|]. split; [reflexivity|]. eexists. reflexivity. Qed.

Lemma three_points_refuted : exists (scp : scipy R) i i1 (v p : mat R), nrows p = 2%nat /\
  create_interpolator Rops scp "linear" None None = Ok i /\
  update Rops scp i v (Some p) = (i1, Ok tt) /\
  (forall mem, snd (interpolate Rops scp mem i1 (arr2 [(0, 0); (1, 1); (0, 1)])) = Err AttributeError) /\
  (forall mem, exists m, snd (interpolate Rops scp mem i1 (arr2 [(0, 0); (1, 1)])) = Ok m) /\
  (forall mem, exists m, snd (interpolate Rops scp mem i1 (arr2 [(0, 0); (1, 1); (0, 1); (1, 0)])) = Ok m).
Proof.
  exists node_scipy. eexists. eexists. exists vel4, pts4. split; [reflexivity|]. split; [reflexivity|]. split; [reflexivity|].
  split; [reflexivity|]. split; intros mem; eexists; reflexivity.
Qed.

(** C39: 'linear' whose only update failed answers queries. *)
Lemma failed_update_refuted : exists (scp : scipy R) i i1 v p,
  create_interpolator Rops scp "linear" None None = Ok i /\
  update Rops scp i v (Some p) = (i1, Err IndexError) /\
  forall mem, exists m, snd (interpolate Rops scp mem i1 (arr3 [(0, 0, 0)])) = Ok m.
Proof.
  exists node_scipy. eexists. eexists. exists vel4, pts4_3d. split; [reflexivity|]. split; [reflexivity|].
  intros mem. eexists. reflexivity.
Qed.

Lemma grid_silent_refuted : forall (scp : scipy R) name gs fn v, case_variant name "grid" -> exists i i1,
  create_interpolator Rops scp name (Some gs) fn = Ok i /\ update Rops scp i v None = (i1, Ok tt).
Proof.
  intros scp name gs fn v N. exists (IHigh (highperf_new gs)). eexists. split; [apply create_grid, N|]. reflexivity.
Qed.

(** C86 against the layout with x fastest, and against 'grid'. *)
Lemma struct2_misplaced (scp : scipy R) name name' method m nx ny x0 y0 dx dy fn :
  structured_name name method -> case_variant name' "grid" -> reproduces_nodes scp method m ->
  (3 <= nx)%nat -> (3 <= ny)%nat -> (m <= nx)%nat -> (m <= ny)%nat -> 0 < dx -> 0 < dy ->
  (Z.of_nat nx <= INT_MAX)%Z -> (Z.of_nat ny <= INT_MAX)%Z ->
  exists i0 i1 j0 j1, let v := samples2 (nx * ny) INR INR in let p := grid_points2 nx ny x0 y0 dx dy in
    create_interpolator Rops scp name (Some [nx; ny]) fn = Ok i0 /\ update Rops scp i0 v (Some p) = (i1, Ok tt) /\
    create_interpolator Rops scp name' (Some [nx; ny]) fn = Ok j0 /\ update Rops scp j0 v (Some p) = (j1, Ok tt) /\
    forall mem,
      snd (interpolate Rops scp mem i1 (arr2 [(x0, y0 + dy)])) = Ok (arr2 [(1, 1)]) /\
      snd (interpolate Rops scp mem j1 (arr2 [(x0, y0 + dy)])) = Ok (arr2 [(INR nx, INR nx)]).
Proof.
  intros N N' RN Hx Hy Mx My Dx Dy Bx By.
  destruct (struct2 scp nx ny m x0 y0 dx dy name method fn ltac:(lia) ltac:(lia) Mx My Dx Dy N RN INR INR) as (i0 & i1 & C & U & Q & _).
  destruct (grid2d nx ny x0 y0 dx dy ltac:(lia) ltac:(lia) Dx Dy Bx By scp name' fn INR INR N') as (j0 & j1 & C' & U' & Q').
  exists i0, i1, j0, j1. cbn zeta. repeat (split; [assumption|]). intros mem. split.
  - replace (x0, y0 + dy) with (x0 + INR 0 * dx, y0 + INR 1 * dy) by (f_equal; cbn; ring).
    rewrite Q by lia. cbn [snd]. replace (0 * ny + 1)%nat with 1%nat by lia. reflexivity.
  - assert (E : index2 x0 y0 dx dy (x0, y0 + dy) = (INR 0, INR 1)).
    { unfold index2. cbn [fst snd INR]. f_equal; field; lra. }
    destruct (Q' mem [(x0, y0 + dy)]) as (j2 & out & E2 & F).
    { constructor; [|constructor]. rewrite E. unfold fits2, fits. cbn. lra. }
    rewrite E2. cbn [snd]. inversion F as [|q o l l' H1 H2]; subst. inversion H2; subst. rewrite E in H1.
    destruct o as [a b]. destruct H1 as [[_ [_ H1]] [_ [_ H3]]]. cbn [fst snd] in *.
    rewrite (H1 0%nat 1%nat), (H3 0%nat 1%nat) by (try reflexivity; lia). unfold lattice2, sample2.
    replace (0 + nx * 1)%nat with nx by lia. reflexivity.
Qed.

(** C27: the shape checks of the compiled kernels. *)
Lemma kernel2_shapes {T} (O : ops T) (v : nd T) points out :
  length (shape v) <> 2%nat \/ mcols points <> 2%nat \/ length out <> length (mrows points) ->
  interp2d_vec_inplace O v points out = Err RuntimeError.
Proof.
  intro H. unfold interp2d_vec_inplace. destruct (shape v) as [|sx [|sy [|]]]; try reflexivity.
  destruct (Nat.eqb_spec (mcols points) 2) as [E|E]; [|reflexivity]. cbn [negb]. unfold nrows.
  destruct (Nat.eqb_spec (length out) (length (mrows points))) as [E'|E']; [|reflexivity].
  exfalso. destruct H as [H|[H|H]]; [apply H; reflexivity|exact (H E)|exact (H E')].
Qed.
Lemma kernel3_shapes {T} (O : ops T) (v : nd T) points out :
  length (shape v) <> 3%nat \/ mcols points <> 3%nat \/ length out <> length (mrows points) ->
  interp3d_vec_inplace O v points out = Err RuntimeError.
Proof.
  intro H. unfold interp3d_vec_inplace. destruct (shape v) as [|sx [|sy [|sz [|]]]]; try reflexivity.
  destruct (Nat.eqb_spec (mcols points) 3) as [E|E]; [|reflexivity]. cbn [negb]. unfold nrows.
  destruct (Nat.eqb_spec (length out) (length (mrows points))) as [E'|E']; [|reflexivity].
  exfalso. destruct H as [H|[H|H]]; [apply H; reflexivity|exact (H E)|exact (H E')].
Qed.

(** The constructor of the structured interpolator. *)
Lemma grid_methods (T : Type) (shape : list nat) (method : string) :
  (In method ["linear"; "nearest"; "slinear"; "cubic"; "quintic"]%string ->
     gridinterp_new shape method = Ok (@GridI T method shape None None None None None None)) /\
  (~ In method ["linear"; "nearest"; "slinear"; "cubic"; "quintic"]%string ->
     @gridinterp_new T shape method = Err ValueError).
Proof.
  unfold gridinterp_new. destruct (existsb _ _) eqn:E; split; intros H; try reflexivity.
  - apply existsb_exists in E. destruct E as (x & Hx & E). apply String.eqb_eq in E. subst. tauto.
  - rewrite <- not_true_iff_false in E. exfalso. apply E. apply existsb_exists.
    exists method. split; [exact H|apply String.eqb_refl].
Qed.
