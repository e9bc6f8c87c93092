(** C28-C33: from kernels and stored fields to what the interpolator answers. *)
From Coq Require Import Reals Lra Lia.
From Verif Require Import Base Num NdArray Integrate GridInterp Interpolate SpecSeeds SpecGrid SpecKernel SpecIntegrate
  NdFacts GridInterpFacts HighPerfFacts HighPerfReal IntegrateMisc.
Local Open Scope R_scope.

(** A multilinear function through given corner values exists: the specification is not vacuous. *)
Lemma multilinear2_exists (V : nat -> nat -> R) i j : exists f, multilinear2 f /\
  forall di dj, (di <= 1)%nat -> (dj <= 1)%nat ->
    f (INR (i + di)) (INR (j + dj)) = V (i + di)%nat (j + dj)%nat.
Proof.
  set (p := V i j). set (q := V (i + 1)%nat j). set (r := V i (j + 1)%nat). set (s := V (i + 1)%nat (j + 1)%nat).
  set (X := INR i). set (Y := INR j).
  exists (fun x y => p * (1 - (x - X)) * (1 - (y - Y)) + q * (x - X) * (1 - (y - Y))
             + r * (1 - (x - X)) * (y - Y) + s * (x - X) * (y - Y)). split.
  - exists (p * (1 + X) * (1 + Y) - q * X * (1 + Y) - r * (1 + X) * Y + s * X * Y),
      (- p * (1 + Y) + q * (1 + Y) + r * Y - s * Y), (- p * (1 + X) + q * X + r * (1 + X) - s * X),
      (p - q - r + s). intros x y. ring.
  - intros [|[|di]] [|[|dj]] H1 H2; try lia; rewrite ?Nat.add_0_r, ?plus_INR; cbn [INR];
      fold p q r s; unfold X, Y; ring.
Qed.

Lemma multilinear3_exists (V : nat -> nat -> nat -> R) i j k : exists f, multilinear3 f /\
  forall di dj dk, (di <= 1)%nat -> (dj <= 1)%nat -> (dk <= 1)%nat ->
    f (INR (i + di)) (INR (j + dj)) (INR (k + dk)) = V (i + di)%nat (j + dj)%nat (k + dk)%nat.
Proof.
  destruct (multilinear2_exists (fun a b => V a b k) i j) as [f [[a [b [c [d Hf]]]] Cf]].
  destruct (multilinear2_exists (fun a b => V a b (k + 1)%nat) i j) as [g [[a' [b' [c' [d' Hg]]]] Cg]].
  exists (fun x y z => f x y * (1 - (z - INR k)) + g x y * (z - INR k)). split.
  - exists (a * (1 + INR k) - a' * INR k), (b * (1 + INR k) - b' * INR k), (c * (1 + INR k) - c' * INR k),
      (a' - a), (d * (1 + INR k) - d' * INR k), (b' - b), (c' - c), (d' - d).
    intros x y z. rewrite Hf, Hg. ring.
  - intros di dj [|[|dk]] H1 H2 H3; try lia; rewrite Cf, Cg by assumption; rewrite ?Nat.add_0_r, ?plus_INR;
      cbn [INR]; ring.
Qed.

Lemma inside_node n i : (i + 1 < n)%nat -> inside n (INR i).
Proof.
  intros H. split; [apply pos_INR|]. apply lt_INR in H. rewrite plus_INR in H. cbn in H. lra.
Qed.

Lemma bilinear_node V i j val : bilinear_at V (INR i) (INR j) val -> val = V i j.
Proof.
  intros H. destruct (multilinear2_exists V i j) as [f [Mf Cf]].
  rewrite (H i j f Mf ltac:(lra) ltac:(lra) Cf).
  pose proof (Cf 0%nat 0%nat ltac:(lia) ltac:(lia)) as E. rewrite !Nat.add_0_r in E. exact E.
Qed.

Lemma trilinear_node V i j k val : trilinear_at V (INR i) (INR j) (INR k) val -> val = V i j k.
Proof.
  intros H. destruct (multilinear3_exists V i j k) as [f [Mf Cf]].
  rewrite (H i j k f Mf ltac:(lra) ltac:(lra) ltac:(lra) Cf).
  pose proof (Cf 0%nat 0%nat 0%nat ltac:(lia) ltac:(lia) ltac:(lia)) as E. rewrite !Nat.add_0_r in E. exact E.
Qed.

(** The kernels answer like the ideal sampler. *)
Lemma Forall2_imp {A B} (P Q : A -> B -> Prop) l m :
  (forall a b, P a b -> Q a b) -> Forall2 P l m -> Forall2 Q l m.
Proof. intros H F. induction F; constructor; auto. Qed.

Lemma kernel2_sampled v sx sy V pts out :
  shape v = [sx; sy] -> (Z.of_nat sx <= INT_MAX)%Z -> (Z.of_nat sy <= INT_MAX)%Z ->
  (forall i j, (i < sx)%nat -> (j < sy)%nat -> nd_get v [i; j] = Ok (V i j)) ->
  length out = length pts -> Forall fits2 pts ->
  exists vals, interp2d_vec_inplace Rops v (q2 pts) out = Ok vals /\ Forall2 (sampled2 sx sy V) pts vals.
Proof.
  intros Hs Bx By HV Hl Hf. destruct (kernel2_values v sx sy V pts out Hs Bx By HV Hl Hf) as [vals [E F]].
  exists vals. split; [exact E|]. revert F. apply Forall2_imp. intros [x y] val [H1 H2]. cbn [fst snd] in *.
  split; [exact H1|]. split; [exact H2|]. intros i j Hi Hj Eq. injection Eq as -> ->.
  apply bilinear_node, H1. split; apply inside_node; assumption.
Qed.

Lemma kernel3_sampled v sx sy sz V pts out :
  shape v = [sx; sy; sz] -> (Z.of_nat sx <= INT_MAX)%Z -> (Z.of_nat sy <= INT_MAX)%Z ->
  (Z.of_nat sz <= INT_MAX)%Z -> (Z.of_nat sy * Z.of_nat sz <= INT_MAX)%Z ->
  (forall i j k, (i < sx)%nat -> (j < sy)%nat -> (k < sz)%nat -> nd_get v [i; j; k] = Ok (V i j k)) ->
  length out = length pts -> Forall fits3 pts ->
  exists vals, interp3d_vec_inplace Rops v (q3 pts) out = Ok vals /\ Forall2 (sampled3 sx sy sz V) pts vals.
Proof.
  intros Hs Bx By Bz Byz HV Hl Hf.
  destruct (kernel3_values v sx sy sz V pts out Hs Bx By Bz Byz HV Hl Hf) as [vals [E F]].
  exists vals. split; [exact E|]. revert F. apply Forall2_imp. intros [[x y] z] val [H1 H2]. cbn [fst snd] in *.
  split; [exact H1|]. split; [exact H2|]. intros i j k Hi Hj Hk Eq. injection Eq as -> -> ->.
  apply trilinear_node, H1. split; [|split]; apply inside_node; assumption.
Qed.

(** C30 fails on the last lines. *)
Lemma last_line_2d v sx sy i j : (1 <= sx)%nat -> (1 <= sy)%nat ->
  shape v = [sx; sy] -> (Z.of_nat sx <= INT_MAX)%Z -> (Z.of_nat sy <= INT_MAX)%Z ->
  (i < sx)%nat -> (j < sy)%nat -> i = (sx - 1)%nat \/ j = (sy - 1)%nat ->
  interp2d_vec_inplace Rops v (q2 [(INR i, INR j)]) [0] = Ok [0].
Proof.
  intros Px Py Hs Bx By Hi Hj Hl. rewrite (kernel2_map v sx sy [(INR i, INR j)] [0] Hs Bx By eq_refl). cbn [mapr fst snd].
  assert (F : forall k n, (k < n)%nat -> (Z.of_nat n <= INT_MAX)%Z -> fits (INR k)).
  { intros k n H B. unfold fits. pose proof (pos_INR k). split; [lra|].
    rewrite INR_IZR_INZ. apply IZR_lt. unfold INT_MAX in B. lia. }
  rewrite point2_beyond; [reflexivity|eauto|eauto|].
  assert (G : forall k n, (1 <= n)%nat -> k = (n - 1)%nat -> beyond n (INR k)).
  { intros k n P ->. right. rewrite minus_INR by exact P. cbn. lra. }
  destruct Hl as [E|E]; [left|right]; eauto.
Qed.

Lemma last_line_refuted : exists (v : nd R) i j,
  wf_nd v /\ shape v = [2; 2]%nat /\ in_bounds (shape v) [i; j] = true /\
  exists val got, nd_get v [i; j] = Ok val /\
    interp2d_vec_inplace Rops v (q2 [(INR i, INR j)]) [0] = Ok [got] /\ got <> val.
Proof.
  exists (Nd [2; 2]%nat [1; 1; 1; 1]), 1%nat, 0%nat. repeat split. exists 1, 0. repeat split; [|lra].
  apply (last_line_2d (Nd [2; 2]%nat [1; 1; 1; 1]) 2 2 1 0); try reflexivity; try lia; unfold INT_MAX; try lia.
Qed.

(* ------------------------------------------------------------------ *)
(** Fresh 'grid' interpolators. *)
Lemma no_upper_grid : no_upper "grid". Proof. cbn. lia. Qed.

Lemma create_grid {T} (O : ops T) (scp : scipy T) name gs fn : case_variant name "grid" ->
  create_interpolator O scp name (Some gs) fn = Ok (IHigh (highperf_new gs)).
Proof.
  intros H. apply (lower_spec _ _ no_upper_grid) in H. unfold create_interpolator. rewrite H. reflexivity.
Qed.

Lemma node2_fst0 nx ny : (2 <= nx)%nat -> (2 <= ny)%nat ->
  exists k, (k < nx * ny)%nat /\ fst (node2 nx k) = 0%nat.
Proof. intros. exists (sample2 nx 0 0). rewrite node2_sample by lia. split; [unfold sample2; nia|reflexivity]. Qed.

Section Place2.
  Variables (nx ny : nat) (x0 y0 dx dy : R).
  Hypotheses (Hnx : (2 <= nx)%nat) (Hny : (2 <= ny)%nat) (Hdx : 0 < dx) (Hdy : 0 < dy).

  Lemma place2 (o : highperf R) (u w : nat -> R) :
    h_shape o = [nx; ny] -> outs_ok 2 o ->
    exists o' vx vy ax ay,
      highperf_update Rops o (samples2 (nx * ny) u w) (Some (grid_points2 nx ny x0 y0 dx dy)) = (o', Ok tt) /\
      h_shape o' = [nx; ny] /\ holds2 o' vx vy ax ay /\
      (forall x, to_grid Rops ax x = Some ((x - x0) / dx)) /\ (forall y, to_grid Rops ay y = Some ((y - y0) / dy)) /\
      shape vx = [nx; ny] /\ shape vy = [nx; ny] /\
      forall i j, (i < nx)%nat -> (j < ny)%nat ->
        nd_get vx [i; j] = Ok (lattice2 nx u i j) /\ nd_get vy [i; j] = Ok (lattice2 nx w i j).
  Proof.
    intros Hs Ho.
    set (px := map (fun k => x0 + INR (fst (node2 nx k)) * dx) (seq 0 (nx * ny))).
    set (py := map (fun k => y0 + INR (snd (node2 nx k)) * dy) (seq 0 (nx * ny))).
    assert (E : forall i j, (i < nx)%nat -> (j < ny)%nat ->
      exists k, (k < nx * ny)%nat /\ fst (node2 nx k) = i /\ snd (node2 nx k) = j).
    { intros i j Hi Hj. exists (sample2 nx i j). rewrite node2_sample by exact Hi.
      split; [unfold sample2; nia|]. split; reflexivity. }
    assert (Bx : forall k, (k < nx * ny)%nat -> (fst (node2 nx k) < nx)%nat) by (intros k Hk; apply (node2_ok nx ny k Hk)).
    assert (By : forall k, (k < nx * ny)%nat -> (snd (node2 nx k) < ny)%nat) by (intros k Hk; apply (node2_ok nx ny k Hk)).
    assert (Mx0 : np_min Rops px = Ok x0).
    { apply (coord_min _ nx (fun k => fst (node2 nx k))); [exact Hdx|exact Bx|].
      destruct (E 0%nat 0%nat) as [k [Hk [Ek _]]]; try lia. eauto. }
    assert (Mx1 : np_max Rops px = Ok (x0 + (INR nx - 1) * dx)).
    { apply (coord_max _ nx (fun k => fst (node2 nx k))); [exact Hdx|lia|exact Bx|].
      destruct (E (nx - 1)%nat 0%nat) as [k [Hk [Ek _]]]; try lia. eauto. }
    assert (My0 : np_min Rops py = Ok y0).
    { apply (coord_min _ ny (fun k => snd (node2 nx k))); [exact Hdy|exact By|].
      destruct (E 0%nat 0%nat) as [k [Hk [_ Ek]]]; try lia. eauto. }
    assert (My1 : np_max Rops py = Ok (y0 + (INR ny - 1) * dy)).
    { apply (coord_max _ ny (fun k => snd (node2 nx k))); [exact Hdy|lia|exact By|].
      destruct (E 0%nat (ny - 1)%nat) as [k [Hk [_ Ek]]]; try lia. eauto. }
    assert (L : forall A (f : nat -> A), length (map f (seq 0 (nx * ny))) = (nx * ny)%nat).
    { intros. rewrite map_length. apply seq_length. }
    destruct (update2_holds Rops o nx ny (map u (seq 0 (nx * ny))) (map w (seq 0 (nx * ny))) px py _ _ _ _
                Hs Ho ltac:(lia) ltac:(lia) Mx0 Mx1 My0 My1 (L _ u) (L _ w) (L _ _) (L _ _))
      as (o' & vx & vy & ax & ay & U & S' & Hh & Ax & Ay & _ & _ & Sx & Sy & G).
    exists o', vx, vy, ax, ay. split; [exact U|]. split; [exact S'|]. split; [exact Hh|].
    split; [exact (axis_R _ _ _ _ Hnx Hdx Ax)|]. split; [exact (axis_R _ _ _ _ Hny Hdy Ay)|].
    split; [exact Sx|]. split; [exact Sy|].
    intros i j Hi Hj. destruct (G i j Hi Hj) as [G1 G2]. rewrite G1, G2.
    rewrite !get_seq by (unfold sample2; nia). split; reflexivity.
  Qed.

  Hypotheses (Bnx : (Z.of_nat nx <= INT_MAX)%Z) (Bny : (Z.of_nat ny <= INT_MAX)%Z).

  Lemma Forall2_map_l {A B C} (f : A -> B) (P : B -> C -> Prop) l m :
    Forall2 P (map f l) m <-> Forall2 (fun a c => P (f a) c) l m.
  Proof.
    split.
    - revert m; induction l; cbn; intros m H; inversion H; subst; constructor; auto.
    - intros H; induction H; cbn; constructor; auto.
  Qed.

  Lemma Forall2_combine {A B C} (P : A -> B -> Prop) (Q : A -> C -> Prop) l m n :
    Forall2 P l m -> Forall2 Q l n -> Forall2 (fun a o => P a (fst o) /\ Q a (snd o)) l (combine m n).
  Proof.
    intros H. revert n. induction H; intros n H2; inversion H2; subst; cbn; constructor; auto.
  Qed.

  Lemma answer2 mem (o : highperf R) vx vy ax ay U W pts :
    holds2 o vx vy ax ay -> shape vx = [nx; ny] -> shape vy = [nx; ny] ->
    (forall x, to_grid Rops ax x = Some ((x - x0) / dx)) -> (forall y, to_grid Rops ay y = Some ((y - y0) / dy)) ->
    (forall i j, (i < nx)%nat -> (j < ny)%nat -> nd_get vx [i; j] = Ok (U i j) /\ nd_get vy [i; j] = Ok (W i j)) ->
    Forall (fun p => fits2 (index2 x0 y0 dx dy p)) pts ->
    exists o' out, holds2 o' vx vy ax ay /\
      highperf_interpolate Rops mem o (arr2 pts) = (o', Ok (arr2 out)) /\
      Forall2 (fun p v => field2 nx ny U W (index2 x0 y0 dx dy p) v) pts out.
  Proof.
    intros Hh Sx Sy Gx Gy G Hf.
    destruct (interpolate2_eq Rops mem o vx vy ax ay pts Hh) as [o' [Hh' E]].
    rewrite E. rewrite !(eval2_R _ nx ny ax ay x0 y0 dx dy pts) by assumption.
    assert (Hf' : Forall fits2 (map (index2 x0 y0 dx dy) pts)) by (apply Forall_map; exact Hf).
    destruct (kernel2_sampled vx nx ny U (map (index2 x0 y0 dx dy) pts) (map fst pts) Sx Bnx Bny) as [us [Eu Fu]];
      [intros; apply G; assumption|rewrite !map_length; reflexivity|exact Hf'|].
    destruct (kernel2_sampled vy nx ny W (map (index2 x0 y0 dx dy) pts) (map fst pts) Sy Bnx Bny) as [ws [Ew Fw]];
      [intros; apply G; assumption|rewrite !map_length; reflexivity|exact Hf'|].
    rewrite Eu, Ew. cbn [bind]. exists o', (combine us ws). split; [exact Hh'|]. split; [reflexivity|].
    apply (Forall2_map_l (index2 x0 y0 dx dy) (field2 nx ny U W)). exact (Forall2_combine _ _ _ _ _ Fu Fw).
  Qed.

  Lemma grid2d (scp : scipy R) name fn u w : case_variant name "grid" ->
    exists i0 i1,
      create_interpolator Rops scp name (Some [nx; ny]) fn = Ok i0 /\
      update Rops scp i0 (samples2 (nx * ny) u w) (Some (grid_points2 nx ny x0 y0 dx dy)) = (i1, Ok tt) /\
      forall mem pts, Forall (fun p => fits2 (index2 x0 y0 dx dy p)) pts ->
      exists i2 out, interpolate Rops scp mem i1 (arr2 pts) = (i2, Ok (arr2 out)) /\
        Forall2 (fun p v => field2 nx ny (lattice2 nx u) (lattice2 nx w) (index2 x0 y0 dx dy p) v) pts out.
  Proof.
    intros Hn. exists (IHigh (highperf_new [nx; ny])).
    destruct (place2 (highperf_new [nx; ny]) u w eq_refl I)
      as (o' & vx & vy & ax & ay & Eu & S' & Hh & Gx & Gy & Sx & Sy & G).
    exists (IHigh o'). split; [apply create_grid; exact Hn|].
    split; [cbn [update]; rewrite Eu; reflexivity|].
    intros mem pts Hf. destruct (answer2 mem o' vx vy ax ay _ _ pts Hh Sx Sy Gx Gy G Hf) as (o2 & out & _ & E & F).
    exists (IHigh o2), out. split; [|exact F]. cbn [interpolate]. rewrite E. reflexivity.
  Qed.
End Place2.

Section Place3.
  Variables (nx ny nz : nat) (x0 y0 z0 dx dy dz : R).
  Hypotheses (Hnx : (2 <= nx)%nat) (Hny : (2 <= ny)%nat) (Hnz : (2 <= nz)%nat)
    (Hdx : 0 < dx) (Hdy : 0 < dy) (Hdz : 0 < dz).
  Let N := (nx * ny * nz)%nat.

  (** The stored arrays have shape (ny, nx, nz). *)
  Lemma place3 (o : highperf R) (u w t : nat -> R) :
    h_shape o = [nx; ny; nz] -> outs_ok 3 o ->
    exists o' vx vy vz ax ay az,
      highperf_update Rops o (samples3 N u w t) (Some (grid_points3 nx ny nz x0 y0 z0 dx dy dz)) = (o', Ok tt) /\
      h_shape o' = [nx; ny; nz] /\
      (h_u o' = h_u o /\ h_x o' = Some (C3 (Interp3D vx ax ay az None))) /\
      holds3 o' vx vy vz ax ay az /\
      (forall x, to_grid Rops ax x = Some ((x - x0) / dx)) /\ (forall y, to_grid Rops ay y = Some ((y - y0) / dy)) /\
      (forall z, to_grid Rops az z = Some ((z - z0) / dz)) /\
      shape vx = [ny; nx; nz] /\ shape vy = [ny; nx; nz] /\ shape vz = [ny; nx; nz] /\
      forall i j k, (i < ny)%nat -> (j < nx)%nat -> (k < nz)%nat ->
        nd_get vx [i; j; k] = Ok (lattice3 ny nz u i j k) /\
        nd_get vy [i; j; k] = Ok (lattice3 ny nz w i j k) /\
        nd_get vz [i; j; k] = Ok (lattice3 ny nz t i j k).
  Proof.
    intros Hs Ho.
    set (px := map (fun k => x0 + INR (fst (fst (node3 nx nz k))) * dx) (seq 0 N)).
    set (py := map (fun k => y0 + INR (snd (fst (node3 nx nz k))) * dy) (seq 0 N)).
    set (pz := map (fun k => z0 + INR (snd (node3 nx nz k)) * dz) (seq 0 N)).
    assert (Q : forall i j k, (i < nx)%nat -> (j < ny)%nat -> (k < nz)%nat -> (sample3 nx nz i j k < N)%nat).
    { intros i j k Hi Hj Hk. unfold sample3, N. assert (j * nx + i < nx * ny)%nat by nia. nia. }
    assert (Q' : forall i j k, (i < ny)%nat -> (j < nx)%nat -> (k < nz)%nat -> (sample3 ny nz i j k < N)%nat).
    { intros i j k Hi Hj Hk. unfold sample3, N. assert (j * ny + i < nx * ny)%nat by nia. nia. }
    assert (E : forall i j k, (i < nx)%nat -> (j < ny)%nat -> (k < nz)%nat ->
      exists m, (m < N)%nat /\ node3 nx nz m = (i, j, k)).
    { intros i j k Hi Hj Hk. exists (sample3 nx nz i j k). rewrite node3_sample by assumption. auto. }
    assert (B : forall m, (m < N)%nat -> (fst (fst (node3 nx nz m)) < nx)%nat /\
      (snd (fst (node3 nx nz m)) < ny)%nat /\ (snd (node3 nx nz m) < nz)%nat).
    { intros m Hm. apply (node3_ok nx ny nz m Hm). }
    destruct (E 0%nat 0%nat 0%nat) as [m0 [L0 E0]]; try lia.
    destruct (E (nx - 1)%nat 0%nat 0%nat) as [m1 [L1 E1]]; try lia.
    destruct (E 0%nat (ny - 1)%nat 0%nat) as [m2 [L2 E2]]; try lia.
    destruct (E 0%nat 0%nat (nz - 1)%nat) as [m3 [L3 E3]]; try lia.
    assert (Mx0 : np_min Rops px = Ok x0).
    { apply (coord_min _ nx (fun k => fst (fst (node3 nx nz k)))); [exact Hdx|apply B|].
      exists m0. rewrite E0. auto. }
    assert (Mx1 : np_max Rops px = Ok (x0 + (INR nx - 1) * dx)).
    { apply (coord_max _ nx (fun k => fst (fst (node3 nx nz k)))); [exact Hdx|lia|apply B|].
      exists m1. rewrite E1. auto. }
    assert (My0 : np_min Rops py = Ok y0).
    { apply (coord_min _ ny (fun k => snd (fst (node3 nx nz k)))); [exact Hdy|apply B|].
      exists m0. rewrite E0. auto. }
    assert (My1 : np_max Rops py = Ok (y0 + (INR ny - 1) * dy)).
    { apply (coord_max _ ny (fun k => snd (fst (node3 nx nz k)))); [exact Hdy|lia|apply B|].
      exists m2. rewrite E2. auto. }
    assert (Mz0 : np_min Rops pz = Ok z0).
    { apply (coord_min _ nz (fun k => snd (node3 nx nz k))); [exact Hdz|apply B|].
      exists m0. rewrite E0. auto. }
    assert (Mz1 : np_max Rops pz = Ok (z0 + (INR nz - 1) * dz)).
    { apply (coord_max _ nz (fun k => snd (node3 nx nz k))); [exact Hdz|lia|apply B|].
      exists m3. rewrite E3. auto. }
    assert (L : forall A (f : nat -> A), length (map f (seq 0 N)) = N).
    { intros. rewrite map_length. apply seq_length. }
    destruct (update3_holds Rops o nx ny nz (map u (seq 0 N)) (map w (seq 0 N)) (map t (seq 0 N)) px py pz _ _ _ _ _ _
                Hs Ho ltac:(lia) ltac:(lia) ltac:(lia) Mx0 Mx1 My0 My1 Mz0 Mz1 (L _ u) (L _ w) (L _ t) (L _ _) (L _ _) (L _ _))
      as (o' & vx & vy & vz & ax & ay & az & U & S' & Fr & Hh & Ax & Ay & Az & _ & _ & _ & Sx & Sy & Sz & G).
    exists o', vx, vy, vz, ax, ay, az. split; [exact U|]. split; [exact S'|]. split; [exact Fr|]. split; [exact Hh|].
    split; [exact (axis_R _ _ _ _ Hnx Hdx Ax)|]. split; [exact (axis_R _ _ _ _ Hny Hdy Ay)|].
    split; [exact (axis_R _ _ _ _ Hnz Hdz Az)|].
    split; [exact Sx|]. split; [exact Sy|]. split; [exact Sz|].
    intros i j k Hi Hj Hk. destruct (G i j k Hi Hj Hk) as [G1 [G2 G3]]. rewrite G1, G2, G3.
    pose proof (Q' i j k Hi Hj Hk) as P. unfold sample3 in P. rewrite !get_seq by exact P.
    repeat split.
  Qed.

  Hypotheses (Bnx : (Z.of_nat nx <= INT_MAX)%Z) (Bny : (Z.of_nat ny <= INT_MAX)%Z)
    (Bnz : (Z.of_nat nz <= INT_MAX)%Z) (Bxz : (Z.of_nat nx * Z.of_nat nz <= INT_MAX)%Z).

  Lemma Forall2_combine3 {A B C D} (P : A -> B -> Prop) (Q : A -> C -> Prop) (S : A -> D -> Prop) l m n p :
    Forall2 P l m -> Forall2 Q l n -> Forall2 S l p ->
    Forall2 (fun a o => P a (fst (fst o)) /\ Q a (snd (fst o)) /\ S a (snd o)) l (combine (combine m n) p).
  Proof.
    intros H. revert n p. induction H; intros n p H2 H3; inversion H2; subst; inversion H3; subst; cbn; constructor; auto.
  Qed.

  (** The answer is that of the array of shape (ny, nx, nz) read as a lattice. *)
  Lemma answer3 mem (o : highperf R) vx vy vz ax ay az U W Q pts :
    holds3 o vx vy vz ax ay az -> shape vx = [ny; nx; nz] -> shape vy = [ny; nx; nz] -> shape vz = [ny; nx; nz] ->
    (forall x, to_grid Rops ax x = Some ((x - x0) / dx)) -> (forall y, to_grid Rops ay y = Some ((y - y0) / dy)) ->
    (forall z, to_grid Rops az z = Some ((z - z0) / dz)) ->
    (forall i j k, (i < ny)%nat -> (j < nx)%nat -> (k < nz)%nat ->
      nd_get vx [i; j; k] = Ok (U i j k) /\ nd_get vy [i; j; k] = Ok (W i j k) /\ nd_get vz [i; j; k] = Ok (Q i j k)) ->
    Forall (fun p => fits3 (index3 x0 y0 z0 dx dy dz p)) pts ->
    exists o' out, holds3 o' vx vy vz ax ay az /\
      highperf_interpolate Rops mem o (arr3 pts) = (o', Ok (arr3 out)) /\
      Forall2 (fun p v => field3 ny nx nz U W Q (index3 x0 y0 z0 dx dy dz p) v) pts out.
  Proof.
    intros Hh Sx Sy Sz Gx Gy Gz G Hf.
    destruct (interpolate3_eq Rops mem o vx vy vz ax ay az pts Hh) as [o' [Hh' E]].
    rewrite E. rewrite !(eval3_R _ ny nx nz ax ay az x0 y0 z0 dx dy dz pts) by assumption.
    set (ix := index3 x0 y0 z0 dx dy dz) in *.
    assert (Hf' : Forall fits3 (map ix pts)) by (apply Forall_map; exact Hf).
    destruct (kernel3_sampled vx ny nx nz U (map ix pts) (map snd pts) Sx Bny Bnx Bnz Bxz) as [us [Eu Fu]];
      [intros; apply G; assumption|rewrite !map_length; reflexivity|exact Hf'|].
    destruct (kernel3_sampled vy ny nx nz W (map ix pts) (map snd pts) Sy Bny Bnx Bnz Bxz) as [ws [Ew Fw]];
      [intros; apply G; assumption|rewrite !map_length; reflexivity|exact Hf'|].
    destruct (kernel3_sampled vz ny nx nz Q (map ix pts) (map snd pts) Sz Bny Bnx Bnz Bxz) as [ts [Et Ft]];
      [intros; apply G; assumption|rewrite !map_length; reflexivity|exact Hf'|].
    rewrite Eu, Ew, Et. cbn [bind]. exists o', (combine (combine us ws) ts). split; [exact Hh'|]. split; [reflexivity|].
    apply (Forall2_map_l ix (field3 ny nx nz U W Q)). exact (Forall2_combine3 _ _ _ _ _ _ _ Fu Fw Ft).
  Qed.

  Lemma grid3d (scp : scipy R) name fn u w t : case_variant name "grid" ->
    exists i0 i1,
      create_interpolator Rops scp name (Some [nx; ny; nz]) fn = Ok i0 /\
      update Rops scp i0 (samples3 N u w t) (Some (grid_points3 nx ny nz x0 y0 z0 dx dy dz)) = (i1, Ok tt) /\
      forall mem pts, Forall (fun p => fits3 (index3 x0 y0 z0 dx dy dz p)) pts ->
      exists i2 out, interpolate Rops scp mem i1 (arr3 pts) = (i2, Ok (arr3 out)) /\
        Forall2 (fun p v => field3 ny nx nz (lattice3 ny nz u) (lattice3 ny nz w) (lattice3 ny nz t)
                              (index3 x0 y0 z0 dx dy dz p) v) pts out.
  Proof.
    intros Hn. exists (IHigh (highperf_new [nx; ny; nz])).
    destruct (place3 (highperf_new [nx; ny; nz]) u w t eq_refl I)
      as (o' & vx & vy & vz & ax & ay & az & Eu & S' & _ & Hh & Gx & Gy & Gz & Sx & Sy & Sz & G).
    exists (IHigh o'). split; [apply create_grid; exact Hn|].
    split; [cbn [update]; fold N; rewrite Eu; reflexivity|].
    intros mem pts Hf.
    destruct (answer3 mem o' vx vy vz ax ay az _ _ _ pts Hh Sx Sy Sz Gx Gy Gz G Hf) as (o2 & out & _ & E & F).
    exists (IHigh o2), out. split; [|exact F]. cbn [interpolate]. rewrite E. reflexivity.
  Qed.

  (** C32 fails whenever nx <> ny: a node below the last lines answers 0 for the field that is
      1 everywhere, whatever the order of the samples. *)
  Lemma grid3d_wrong (scp : scipy R) name fn : case_variant name "grid" -> nx <> ny ->
    exists i0 i1 i j,
      create_interpolator Rops scp name (Some [nx; ny; nz]) fn = Ok i0 /\
      update Rops scp i0 (samples3 N (fun _ => 1) (fun _ => 1) (fun _ => 1))
        (Some (grid_points3 nx ny nz x0 y0 z0 dx dy dz)) = (i1, Ok tt) /\
      (i + 1 < nx)%nat /\ (j + 1 < ny)%nat /\
      forall mem, exists i2, interpolate Rops scp mem i1 (arr3 [(x0 + INR i * dx, y0 + INR j * dy, z0)]) =
        (i2, Ok (arr3 [(0, 0, 0)])).
  Proof.
    intros Hn Hne. destruct (grid3d scp name fn (fun _ => 1) (fun _ => 1) (fun _ => 1) Hn) as (i0 & i1 & C & U & A).
    pose (i := if (ny <? nx)%nat then (ny - 1)%nat else 0%nat).
    pose (j := if (ny <? nx)%nat then 0%nat else (nx - 1)%nat).
    assert (Hi : (i + 1 < nx)%nat) by (unfold i; destruct (Nat.ltb_spec ny nx); lia).
    assert (Hj : (j + 1 < ny)%nat) by (unfold j; destruct (Nat.ltb_spec ny nx); lia).
    exists i0, i1, i, j. split; [exact C|]. split; [exact U|]. split; [exact Hi|]. split; [exact Hj|]. intros mem.
    assert (IX : index3 x0 y0 z0 dx dy dz (x0 + INR i * dx, y0 + INR j * dy, z0) = (INR i, INR j, 0)).
    { unfold index3. cbn [fst snd]. f_equal; [f_equal|]; field; lra. }
    assert (FI : forall k n, (k < n)%nat -> (Z.of_nat n <= INT_MAX)%Z -> fits (INR k)).
    { intros k n H B. unfold fits. pose proof (pos_INR k). split; [lra|].
      rewrite INR_IZR_INZ. apply IZR_lt. unfold INT_MAX in B. lia. }
    destruct (A mem [(x0 + INR i * dx, y0 + INR j * dy, z0)]) as (i2 & out & E & F).
    { constructor; [|constructor]. rewrite IX. unfold fits3. cbn [fst snd].
      split; [apply (FI i nx); [lia|assumption]|]. split; [apply (FI j ny); [lia|assumption]|].
      unfold fits. lra. }
    exists i2. rewrite E. inversion F as [|a [[o1 o2] o3] l m H F']; subst. inversion F'; subst.
    rewrite IX in H. destruct H as ((_ & H1 & _) & (_ & H2 & _) & (_ & H3 & _)). cbn [fst snd] in *.
    assert (Bd : beyond ny (INR i) \/ beyond nx (INR j) \/ beyond nz 0).
    { unfold i, j. destruct (Nat.ltb_spec ny nx) as [L|L].
      - left. right. rewrite minus_INR by lia. cbn. lra.
      - right. left. right. rewrite minus_INR by lia. cbn. lra. }
    rewrite H1, H2, H3 by exact Bd. reflexivity.
  Qed.
End Place3.

(** C33: after update(v1, points), update(v2) is accepted and every query fails. *)
Lemma only2_broken (scp : scipy R) nx ny x0 y0 dx dy name fn u w u' w' :
  case_variant name "grid" -> (2 <= nx)%nat -> (2 <= ny)%nat -> 0 < dx -> 0 < dy ->
  exists i0 i1 i2,
    create_interpolator Rops scp name (Some [nx; ny]) fn = Ok i0 /\
    update Rops scp i0 (samples2 (nx * ny) u w) (Some (grid_points2 nx ny x0 y0 dx dy)) = (i1, Ok tt) /\
    update Rops scp i1 (samples2 (nx * ny) u' w') None = (i2, Ok tt) /\
    forall mem pts, snd (interpolate Rops scp mem i2 (arr2 pts)) = Err RuntimeError.
Proof.
  intros Hn Hx Hy Dx Dy.
  destruct (place2 nx ny x0 y0 dx dy Hx Hy Dx Dy (highperf_new [nx; ny]) u w eq_refl I)
    as (o' & vx & vy & ax & ay & Eu & S' & Hh & _).
  destruct (update_only2 Rops o' vx vy ax ay (nx * ny) (map u' (seq 0 (nx * ny))) (map w' (seq 0 (nx * ny))) Hh)
    as (o2 & E2 & H2 & _).
  exists (IHigh (highperf_new [nx; ny])), (IHigh o'), (IHigh o2).
  split; [apply create_grid; exact Hn|]. split; [cbn [update]; rewrite Eu; reflexivity|].
  split; [cbn [update]; unfold samples2; rewrite E2; reflexivity|].
  intros mem pts. cbn [interpolate].
  destruct (interpolate2_eq Rops mem o2 _ _ ax ay pts H2) as [o3 [_ E]]. rewrite E. reflexivity.
Qed.

Lemma only3_broken (scp : scipy R) nx ny nz x0 y0 z0 dx dy dz name fn u w t u' w' t' :
  case_variant name "grid" -> (2 <= nx)%nat -> (2 <= ny)%nat -> (2 <= nz)%nat -> 0 < dx -> 0 < dy -> 0 < dz ->
  exists i0 i1 i2,
    create_interpolator Rops scp name (Some [nx; ny; nz]) fn = Ok i0 /\
    update Rops scp i0 (samples3 (nx * ny * nz) u w t) (Some (grid_points3 nx ny nz x0 y0 z0 dx dy dz)) = (i1, Ok tt) /\
    update Rops scp i1 (samples3 (nx * ny * nz) u' w' t') None = (i2, Ok tt) /\
    forall mem pts, snd (interpolate Rops scp mem i2 (arr3 pts)) = Err RuntimeError.
Proof.
  intros Hn Hx Hy Hz Dx Dy Dz.
  destruct (place3 nx ny nz x0 y0 z0 dx dy dz Hx Hy Hz Dx Dy Dz (highperf_new [nx; ny; nz]) u w t eq_refl I)
    as (o' & vx & vy & vz & ax & ay & az & Eu & S' & _ & Hh & _).
  destruct (update_only3 Rops o' vx vy vz ax ay az (nx * ny * nz) (map u' (seq 0 (nx * ny * nz)))
    (map w' (seq 0 (nx * ny * nz))) (map t' (seq 0 (nx * ny * nz))) Hh) as (o2 & E2 & H2 & _).
  exists (IHigh (highperf_new [nx; ny; nz])), (IHigh o'), (IHigh o2).
  split; [apply create_grid; exact Hn|]. split; [cbn [update]; rewrite Eu; reflexivity|].
  split; [cbn [update]; unfold samples3; rewrite E2; reflexivity|].
  intros mem pts. cbn [interpolate].
  destruct (interpolate3_eq Rops mem o2 _ _ _ ax ay az pts H2) as [o3 [_ E]]. rewrite E. reflexivity.
Qed.
