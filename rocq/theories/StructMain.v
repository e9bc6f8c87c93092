(** C34, C86: main lemmas about structured SciPy interpolators, and example SciPys. *)
From Coq Require Import Reals Lra Lia Sorted.
From Verif Require Import Base Num NdArray Integrate GridInterp Interpolate SpecSeeds SpecGrid SpecKernel SpecIntegrate SpecInterp
  NdFacts GridInterpFacts HighPerfFacts HighPerfReal IntegrateMisc GridPlace ScipyFacts StructFacts.
Local Open Scope R_scope.

Lemma create_structured {T} (O : ops T) (scp : scipy T) name method gs fn : structured_name name method ->
  create_interpolator O scp name (Some gs) fn = Ok (IGrid (GridI method gs None None None None None None)).
Proof.
  intros [C M]. destruct (create_spec O scp name (Some gs) fn) as (_ & _ & Hc & Hl & Hn & _).
  destruct M as [-> | [-> | ->] ]; auto.
Qed.

Lemma row_get {A} (u : nat -> A) nx ny i j : (i < nx)%nat -> (j < ny)%nat ->
  nd_get (Nd [nx; ny] (map u (seq 0 (nx * ny)))) [i; j] = Ok (u (i * ny + j)%nat).
Proof.
  intros Hi Hj. unfold nd_get. cbn [shape data in_bounds].
  rewrite (proj2 (Nat.ltb_lt _ _) Hi), (proj2 (Nat.ltb_lt _ _) Hj). cbn [andb c_ravel size].
  rewrite get_seq by nia. do 2 f_equal. lia.
Qed.

Lemma fortran_rows {A} (u w : nat -> A) nx ny : exists f fx fy,
  reshape_f (nd_of_mat (samples2 (nx * ny) u w)) [2; nx; ny]%nat = Ok f /\
  subarray f 0 = Ok fx /\ subarray f 1 = Ok fy /\ shape fx = [nx; ny] /\ shape fy = [nx; ny] /\
  forall i j, (i < nx)%nat -> (j < ny)%nat ->
    nd_get fx [i; j] = Ok (u (i + nx * j)%nat) /\ nd_get fy [i; j] = Ok (w (i + nx * j)%nat).
Proof.
  set (V := samples2 (nx * ny) u w). assert (WV : wf_mat V) by apply samples2_wf.
  destruct (reshape_f_ok (nd_of_mat V) [2; nx; ny]%nat (nd_of_mat_wf _ WV)) as [vel [E2 [Sv [Wv Gv]]]]; [cbn; lia|].
  destruct (subarray_ok vel 2 [nx; ny] 0 Wv Sv ltac:(lia)) as [vx [E3 [Sx [Wx Gx]]]].
  destruct (subarray_ok vel 2 [nx; ny] 1 Wv Sv ltac:(lia)) as [vy [E4 [Sy [Wy Gy]]]].
  exists vel, vx, vy. repeat (split; [assumption|]).
  intros i j Hi Hj. assert (B : in_bounds [nx; ny] [i; j] = true).
  { cbn [in_bounds]. rewrite (proj2 (Nat.ltb_lt _ _) Hi), (proj2 (Nat.ltb_lt _ _) Hj). reflexivity. }
  set (s := (i + nx * j)%nat). assert (Q : (s < nx * ny)%nat) by (unfold s; nia).
  assert (F : forall c, (c < 2)%nat ->
    f_unravel [2; nx * ny]%nat (f_ravel [2; nx; ny]%nat [c; i; j]) = [c; s]).
  { intros c Hc. replace (f_ravel [2; nx; ny]%nat [c; i; j]) with (f_ravel [2; nx * ny]%nat [c; s])
      by (cbn [f_ravel]; unfold s; lia).
    apply f_unravel_ravel. cbn [in_bounds]. rewrite (proj2 (Nat.ltb_lt _ _) Hc), (proj2 (Nat.ltb_lt _ _) Q).
    reflexivity. }
  rewrite (Gx _ B), (Gy _ B).
  rewrite !Gv by (cbn [in_bounds] in *; rewrite B; reflexivity).
  change (shape (nd_of_mat V)) with [2; nx * ny]%nat. rewrite !F by lia.
  rewrite (nd_of_mat_get V 0 _ (map u (seq 0 (nx * ny))) (u s) WV eq_refl) by (apply nth_seq, Q).
  rewrite (nd_of_mat_get V 1 _ (map w (seq 0 (nx * ny))) (w s) WV eq_refl) by (apply nth_seq, Q). auto.
Qed.

Section Main.
  Variables (scp : scipy R) (nx ny m : nat) (x0 y0 dx dy : R) (name method : string).
  Variable fn : option (R -> mat R -> res (mat R)).
  Hypothesis Hnx : (2 <= nx)%nat. Hypothesis Hny : (2 <= ny)%nat.
  Hypothesis Mx : (m <= nx)%nat. Hypothesis My : (m <= ny)%nat.
  Hypothesis Hdx : 0 < dx. Hypothesis Hdy : 0 < dy.
  Hypothesis Hname : structured_name name method.
  Hypothesis RN : reproduces_nodes scp method m.

  Lemma struct2 u w : exists i0 i1,
    create_interpolator Rops scp name (Some [nx; ny]) fn = Ok i0 /\
    update Rops scp i0 (samples2 (nx * ny) u w) (Some (grid_points2 nx ny x0 y0 dx dy)) = (i1, Ok tt) /\
    (forall mem i j, (i < nx)%nat -> (j < ny)%nat ->
      interpolate Rops scp mem i1 (arr2 [(x0 + INR i * dx, y0 + INR j * dy)]) =
        (i1, Ok (arr2 [(u (i * ny + j)%nat, w (i * ny + j)%nat)]))) /\
    (forall u' w', evaluates_current scp method -> exists i2,
       update Rops scp i1 (samples2 (nx * ny) u' w') None = (i2, Ok tt) /\
       forall mem i j, (i < nx)%nat -> (j < ny)%nat ->
         interpolate Rops scp mem i2 (arr2 [(x0 + INR i * dx, y0 + INR j * dy)]) =
           (i2, Ok (arr2 [(u' (i + nx * j)%nat, w' (i + nx * j)%nat)]))).
  Proof.
    eexists. eexists. split; [apply create_structured, Hname|].
    split; [cbn [update]; rewrite (init_grid2 scp nx ny x0 y0 dx dy Hnx Hny Hdx Hdy method m RN Mx My) by reflexivity; reflexivity|].
    split.
    - intros mem i j Hi Hj. cbn [interpolate].
      rewrite (query_node scp nx ny x0 y0 dx dy Hdx Hdy method m RN _
        (Nd [nx; ny] (map u (seq 0 (nx * ny)))) (Nd [nx; ny] (map w (seq 0 (nx * ny))))
        (Nd [nx; ny] (map u (seq 0 (nx * ny)))) (Nd [nx; ny] (map w (seq 0 (nx * ny)))) (mem 0%nat) i j
        (u (i * ny + j)%nat) (w (i * ny + j)%nat)); try reflexivity; try assumption; apply row_get; assumption.
    - intros u' w' Cur. destruct (fortran_rows u' w' nx ny) as (f & fx & fy & Ef & Ex & Ey & Sx & Sy & G).
      cbn [update]. unfold gridinterp_update. cbn [g_x g_ndim g_method g_shape g_y g_z g_velocities g_points Nat.eqb].
      rewrite Ef. unfold set_values. rewrite Ex, Ey. cbn [bind]. eexists. split; [reflexivity|].
      intros mem i j Hi Hj. cbn [interpolate]. destruct (G i j Hi Hj) as [Gx Gy].
      rewrite (query_node scp nx ny x0 y0 dx dy Hdx Hdy method m RN _
        (Nd [nx; ny] (map u (seq 0 (nx * ny)))) (Nd [nx; ny] (map w (seq 0 (nx * ny)))) fx fy (mem 0%nat) i j
        (u' (i + nx * j)%nat) (w' (i + nx * j)%nat)); try reflexivity; try assumption; intros q; apply Cur.
  Qed.
End Main.

(* ------------------------------------------------------------------ *)
(** A SciPy: nearest answers by search among the nodes.  Evaluates the current values. *)
Fixpoint find_index (x : R) (l : list R) : option nat :=
  match l with
  | [] => None
  | a :: l' => if Req_EM_T a x then Some 0%nat else option_map S (find_index x l')
  end.

Lemma find_index_nth l i x : StronglySorted Rlt l -> nth_error l i = Some x -> find_index x l = Some i.
Proof.
  intros S. revert i. induction S as [|a l S IH F]; intros [|i] H; cbn in *; try discriminate.
  - injection H as ->. destruct (Req_EM_T x x); [reflexivity|congruence].
  - destruct (Req_EM_T a x) as [->|N].
    + rewrite Forall_forall in F. apply nth_error_In in H. apply F in H. lra.
    + rewrite (IH _ H). reflexivity.
Qed.

Fixpoint find_indices (x : list R) (axes : list (list R)) : option (list nat) :=
  match x, axes with
  | [], [] => Some []
  | a :: x', ax :: axes' =>
      match find_index a ax, find_indices x' axes' with Some i, Some ix => Some (i :: ix) | _, _ => None end
  | _, _ => None
  end.

Definition node_scipy : scipy R :=
  Scipy R (mat R) (fun p => Ok p)
    (fun _ c q => Ok (map (fun _ => hd (0, 0) c) (mrows q))) (fun _ c q => Ok (map (fun _ => hd (0, 0) c) (mrows q)))
    (fun _ w q => Ok (map (fun _ => hd 0 w) (mrows q)))
    (fun _ => Ok tt) (fun _ c q => Ok (map (fun _ => hd (0, 0) c) (mrows q))) (fun _ w q => Ok (map (fun _ => hd 0 w) (mrows q)))
    (fun _ _ _ => Ok tt)
    (fun _ axes _ c q => mapr (fun r => match find_indices r axes with Some ix => nd_get c ix | None => Err ValueError end) (mrows q)).

Lemma find_indices_nth axes ix x : Forall (StronglySorted Rlt) axes -> length ix = length x ->
  Forall2 (fun ax p => nth_error ax (fst p) = Some (snd p)) axes (combine ix x) -> find_indices x axes = Some ix.
Proof.
  intros S. revert ix x. induction S as [|ax axes Sa S IH]; intros [|i ix] [|y x] L F; cbn in *; try discriminate;
    try (inversion F; fail); [reflexivity|].
  inversion F; subst. cbn [fst snd] in *. rewrite (find_index_nth _ _ _ Sa H2), (IH ix x); [reflexivity|lia|assumption].
Qed.

Lemma node_scipy_nodes method : reproduces_nodes node_scipy method 0.
Proof.
  split; [reflexivity|]. intros axes c ix x a S Sh L F G. cbn. rewrite (find_indices_nth axes ix x S L F), G. reflexivity.
Qed.

Lemma node_scipy_current method : evaluates_current node_scipy method.
Proof. intros axes b b' c q. reflexivity. Qed.

Lemma case_refl t : case_variant t t.
Proof. induction t as [|c t IH]; cbn; [exact I|]. split; [left; reflexivity|exact IH]. Qed.

(** C34 in 2-D: velocity-only and full updates disagree. *)
Lemma struct2_only_refuted (scp : scipy R) name method m nx ny x0 y0 dx dy fn :
  structured_name name method -> reproduces_nodes scp method m -> evaluates_current scp method ->
  (2 <= nx)%nat -> (2 <= ny)%nat -> (m <= nx)%nat -> (m <= ny)%nat -> 0 < dx -> 0 < dy ->
  exists i0 (u : nat -> R) i1 i1' i2, let v := samples2 (nx * ny) u u in let p := grid_points2 nx ny x0 y0 dx dy in
    create_interpolator Rops scp name (Some [nx; ny]) fn = Ok i0 /\
    update Rops scp i0 v (Some p) = (i1, Ok tt) /\
    update Rops scp i1 v None = (i1', Ok tt) /\
    update Rops scp i1 v (Some p) = (i2, Ok tt) /\
    forall mem,
      snd (interpolate Rops scp mem i1' (arr2 [(x0, y0 + dy)])) = Ok (arr2 [(INR nx, INR nx)]) /\
      snd (interpolate Rops scp mem i2 (arr2 [(x0, y0 + dy)])) = Ok (arr2 [(1, 1)]).
Proof.
  intros Hn RN Cur Hx Hy Mx My Dx Dy.
  destruct (struct2 scp nx ny m x0 y0 dx dy name method fn Hx Hy Mx My Dx Dy Hn RN INR INR) as (i0 & i1 & C & U & Q & V).
  destruct (V INR INR Cur) as (i1' & U' & Q').
  assert (R2 : update Rops scp i1 (samples2 (nx * ny) INR INR) (Some (grid_points2 nx ny x0 y0 dx dy)) = (i1, Ok tt)).
  { rewrite create_structured with (method := method) in C by exact Hn. injection C as <-. cbn [update] in U.
    rewrite (init_grid2 scp nx ny x0 y0 dx dy Hx Hy Dx Dy method m RN Mx My) in U by reflexivity. injection U as <-.
    cbn [update]. rewrite (init_grid2 scp nx ny x0 y0 dx dy Hx Hy Dx Dy method m RN Mx My) by reflexivity. reflexivity. }
  exists i0, INR, i1, i1', i1. cbn zeta. repeat (split; [assumption|]).
  intros mem. replace (x0, y0 + dy) with (x0 + INR 0 * dx, y0 + INR 1 * dy) by (f_equal; cbn; ring).
  rewrite Q', Q by lia. cbn [snd]. split; do 3 f_equal.
  f_equal; f_equal; lia.
Qed.

(** Three dimensions: first update. *)
Lemma row_get3 {A} (u : nat -> A) nx ny nz i j k : (i < nx)%nat -> (j < ny)%nat -> (k < nz)%nat ->
  nd_get (Nd [nx; ny; nz] (map u (seq 0 (nx * ny * nz)))) [i; j; k] = Ok (u ((i * ny + j) * nz + k)%nat).
Proof.
  intros Hi Hj Hk. unfold nd_get. cbn [shape data in_bounds].
  rewrite (proj2 (Nat.ltb_lt _ _) Hi), (proj2 (Nat.ltb_lt _ _) Hj), (proj2 (Nat.ltb_lt _ _) Hk). cbn [andb c_ravel size].
  rewrite get_seq.
  - do 2 f_equal. lia.
  - assert (i * ny + j < nx * ny)%nat by nia.
    replace (i * (ny * (nz * 1)) + (j * (nz * 1) + (k * 1 + 0)))%nat with ((i * ny + j) * nz + k)%nat by lia.
    set (a := (i * ny + j)%nat) in *. set (b := (nx * ny)%nat) in *. clearbody a b. nia.
Qed.

Lemma struct3 (scp : scipy R) nx ny nz m x0 y0 z0 dx dy dz name method fn :
  (2 <= nx)%nat -> (2 <= ny)%nat -> (2 <= nz)%nat -> (m <= nx)%nat -> (m <= ny)%nat -> (m <= nz)%nat ->
  0 < dx -> 0 < dy -> 0 < dz -> structured_name name method -> reproduces_nodes scp method m ->
  forall u w t, exists i0 i1,
    create_interpolator Rops scp name (Some [nx; ny; nz]) fn = Ok i0 /\
    update Rops scp i0 (samples3 (nx * ny * nz) u w t) (Some (grid_points3 nx ny nz x0 y0 z0 dx dy dz)) = (i1, Ok tt) /\
    forall mem i j k, (i < nx)%nat -> (j < ny)%nat -> (k < nz)%nat ->
      let s := ((i * ny + j) * nz + k)%nat in
      interpolate Rops scp mem i1 (arr3 [(x0 + INR i * dx, y0 + INR j * dy, z0 + INR k * dz)]) =
        (i1, Ok (arr3 [(u s, w s, t s)])).
Proof.
  intros Hnx Hny Hnz Mx My Mz Hdx Hdy Hdz Hname RN u w t. eexists. eexists. split; [apply create_structured, Hname|].
  split; [cbn [update]; rewrite (init_grid3 scp nx ny nz x0 y0 z0 dx dy dz Hnx Hny Hnz Hdx Hdy Hdz method m RN Mx My Mz) by reflexivity; reflexivity|].
  intros mem i j k Hi Hj Hk s. cbn [interpolate].
  rewrite (query_node3 scp nx ny nz x0 y0 z0 dx dy dz Hdx Hdy Hdz method m RN _
      (Nd [nx; ny; nz] (map u (seq 0 (nx * ny * nz)))) (Nd [nx; ny; nz] (map w (seq 0 (nx * ny * nz))))
      (Nd [nx; ny; nz] (map t (seq 0 (nx * ny * nz)))) (mem 0%nat) i j k (u s) (w s) (t s));
    try reflexivity; try assumption; apply row_get3; assumption.
Qed.
