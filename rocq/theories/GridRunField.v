(** The grid interpolator in binary64 as a field, and its distance from the velocity that was sampled. *)
From Coq Require Import Reals Lia Lra Psatz Floats.
From Flocq Require Import Core BinarySingleNaN PrimFloat.
From Verif Require Import Base Num NdArray Particles Integrate GridInterp Interpolate Readers DataSource Solver FileRun SpecSeeds SpecInterp SpecGrid SpecFiles SpecIntegrate SpecOrder
  SpecFloat64 SpecFloatGrid SpecRounding SpecGridRun GridInterpFacts HighPerfFacts HighPerfReal OrderFacts FloatArith FloatKernel FloatAxis FloatPlace FloatFtleRun.
Local Open Scope R_scope.

(* ---- the interpolant is close to a Lipschitz field ---- *)
Lemma cell_of t n : inside n t -> exists i, (i + 1 < n)%nat /\ INR i <= t < INR i + 1.
Proof.
  intros [H0 H1]. destruct (archimed t) as [A1 A2]. exists (Z.to_nat (up t - 1)).
  assert (Z0 : (0 <= up t - 1)%Z) by (assert (0 < up t)%Z by (apply lt_IZR; lra); lia).
  assert (E : INR (Z.to_nat (up t - 1)) = IZR (up t) - 1) by (rewrite INR_IZR_INZ, Z2Nat.id, minus_IZR by exact Z0; reflexivity).
  rewrite E. split; [|lra]. apply INR_lt. rewrite plus_INR, E. change (INR 1) with 1. lra.
Qed.

Lemma line_position n lo hi i X : (2 <= n)%nat -> lo < hi -> INR i <= position n lo hi X < INR i + 1 ->
  forall d, (d <= 1)%nat -> Rabs (line n lo hi (i + d) - X) <= spacing n lo hi.
Proof.
  intros Hn Hlt Hi d Hd. assert (N1 : 1 <= INR n - 1) by (assert (2 <= INR n) by (change 2 with (INR 2); apply le_INR; exact Hn); lra).
  assert (S0 : 0 < spacing n lo hi) by (apply Rdiv_lt_0_compat; lra).
  assert (EX : X = lo + position n lo hi X * spacing n lo hi) by (unfold position, spacing; field; lra).
  assert (DD : INR (i + d) = INR i \/ INR (i + d) = INR i + 1).
  { destruct d as [|[|d]]; [left; f_equal; lia|right; rewrite plus_INR; reflexivity|lia]. }
  set (p := position n lo hi X) in *. clearbody p. subst X. unfold line.
  replace (lo + INR (i + d) * spacing n lo hi - (lo + p * spacing n lo hi)) with ((INR (i + d) - p) * spacing n lo hi) by ring.
  rewrite Rabs_mult, (Rabs_pos_eq (spacing n lo hi)) by lra.
  rewrite <- (Rmult_1_l (spacing n lo hi)) at 2. apply Rmult_le_compat_r; [lra|]. apply Rabs_le. destruct DD as [-> | ->]; lra.
Qed.

Lemma interpolant_near nx ny x0 x1 y0 y1 L eps v U c q r : (2 <= nx)%nat -> (2 <= ny)%nat -> x0 < x1 -> y0 < y1 ->
  lipschitz_field 2 L (fun _ => v) ->
  (forall i j, (i < nx)%nat -> (j < ny)%nat -> Rabs (U (sample2 nx i j) - coord c (v [line nx x0 x1 i; line ny y0 y1 j])) <= eps) ->
  inside nx (position nx x0 x1 (fst q)) -> inside ny (position ny y0 y1 (snd q)) ->
  sampled2 nx ny (lattice2 nx U) (position nx x0 x1 (fst q), position ny y0 y1 (snd q)) r ->
  Rabs (r - coord c (v (row2 q))) <= eps + L * Rmax (spacing nx x0 x1) (spacing ny y0 y1).
Proof.
  intros Hnx Hny Lx Ly [_ HL] HU Ix Iy [Hs _]. destruct (Hs (conj Ix Iy)) as [_ Hb].
  destruct (cell_of _ _ Ix) as (i & Bi & Hi). destruct (cell_of _ _ Iy) as (j & Bj & Hj).
  set (e := eps + L * Rmax (spacing nx x0 x1) (spacing ny y0 y1)).
  assert (C : coord c (v (row2 q)) - e <= r <= coord c (v (row2 q)) + e).
  { apply (Hb i j); [exact Hi|exact Hj|]. intros di dj Hdi Hdj.
    assert (Bi' : (i + di < nx)%nat) by lia. assert (Bj' : (j + dj < ny)%nat) by lia.
    pose proof (HU (i + di)%nat (j + dj)%nat Bi' Bj') as H1. unfold lattice2.
    assert (N : near (Rmax (spacing nx x0 x1) (spacing ny y0 y1)) [line nx x0 x1 (i + di); line ny y0 y1 (j + dj)] (row2 q)).
    { pose proof (line_position nx x0 x1 i (fst q) Hnx Lx Hi di Hdi) as A1. pose proof (line_position ny y0 y1 j (snd q) Hny Ly Hj dj Hdj) as A2.
      pose proof (Rmax_l (spacing nx x0 x1) (spacing ny y0 y1)). pose proof (Rmax_r (spacing nx x0 x1) (spacing ny y0 y1)).
      pose proof (Rabs_pos (line nx x0 x1 (i + di) - fst q)).
      destruct q as [qx qy]. split; [reflexivity|]. intros [|[|k]]; cbn [coord nth row2 fst snd] in *; [lra|lra|].
      unfold coord. destruct k; cbn [nth]; rewrite Rminus_diag_eq, Rabs_R0 by reflexivity; lra. }
    assert (H2 : Rabs (coord c (v [line nx x0 x1 (i + di); line ny y0 y1 (j + dj)]) - coord c (v (row2 q))) <= L * Rmax (spacing nx x0 x1) (spacing ny y0 y1)).
    { apply (HL 0); [reflexivity|destruct q; reflexivity|exact N]. }
    apply Rabs_le_inv in H1. apply Rabs_le_inv in H2. unfold e. lra. }
  apply Rabs_le. lra.
Qed.

(* ---- the interpolator as a field on rows ---- *)
Section Field.
  Context (lnF : PrimFloat.float -> PrimFloat.float) (scp : scipy PrimFloat.float) (imems : nat -> memory (T := PrimFloat.float)).
  Local Notation O := (Fops lnF).
  Variables (nx ny : nat) (x0 x1 y0 y1 : R).

  (** Points on the grid, below the margin at its last lines. *)
  Definition on_grid (x : list PrimFloat.float) : Prop :=
    exists q, stands x (row2 q) /\ well_inside nx (position nx x0 x1 (fst q)) /\ well_inside ny (position ny y0 y1 (snd q)).

  Definition grid_field (vx vy : nd PrimFloat.float) (ax ay : axis PrimFloat.float) (x : list PrimFloat.float) : list PrimFloat.float :=
    match x with
    | [a; b] => match eval2 O vx ax ay [(a, b)], eval2 O vy ax ay [(a, b)] with
                | Ok [r], Ok [s] => [r; s]
                | _, _ => x
                end
    | _ => x
    end.

  Definition answers (v : nd PrimFloat.float) (ax ay : axis PrimFloat.float) : Prop :=
    shape v = [nx; ny] /\ forall a b, on_grid [a; b] -> exists r, eval2 O v ax ay [(a, b)] = Ok [r].

  Definition knows (f : list PrimFloat.float -> list PrimFloat.float) (s : istate scp) : Prop :=
    exists o vx vy ax ay, fst s = IHigh o /\ h_shape o = [nx; ny] /\ holds2 o vx vy ax ay /\ answers vx ax ay /\ answers vy ax ay /\
      f = grid_field vx vy ax ay.
  Definition shaped (s : istate scp) : Prop := exists o, fst s = IHigh o /\ h_shape o = [nx; ny] /\ outs_ok 2 o.

  Lemma knows_shaped f s : knows f s -> shaped s.
  Proof. intros (o & vx & vy & ax & ay & E & Hs & (_ & Ho & _) & _). exists o. auto. Qed.

  Lemma eval2_cons v ax ay p pts r rs : eval2 O v ax ay [p] = Ok [r] -> eval2 O v ax ay pts = Ok rs -> eval2 O v ax ay (p :: pts) = Ok (r :: rs).
  Proof.
    unfold eval2. destruct (shape v) as [|sx [|sy [|]]]; try discriminate. cbn [mapr].
    destruct (interp2d_point _ _ _ _ _ _) as [a|]; [|discriminate]. cbn [bind]. intros [= ->] ->. reflexivity.
  Qed.
  Lemma eval2_nil v ax ay sx sy : shape v = [sx; sy] -> eval2 O v ax ay [] = Ok [].
  Proof. unfold eval2. intros ->. reflexivity. Qed.

  Lemma interpolate_shape mem (o : highperf PrimFloat.float) q : h_shape (fst (highperf_interpolate O mem o q)) = h_shape o.
  Proof.
    assert (E : forall n d, h_shape (ensure_buffers mem o n d) = h_shape o).
    { intros n d. unfold ensure_buffers. destruct (h_u o); [destruct (_ =? _)%nat|]; reflexivity. }
    assert (X : forall o c, h_shape (fst (run_x O mem o c q)) = h_shape o).
    { intros o1 c. unfold run_x. destruct (call_component _ _ _ _ _) as [? [?|?]]; reflexivity. }
    assert (Y : forall o c, h_shape (fst (run_y O mem o c q)) = h_shape o).
    { intros o1 c. unfold run_y. destruct (call_component _ _ _ _ _) as [? [?|?]]; reflexivity. }
    assert (Z : forall o c, h_shape (fst (run_z O mem o c q)) = h_shape o).
    { intros o1 c. unfold run_z. destruct (call_component _ _ _ _ _) as [? [?|?]]; reflexivity. }
    unfold highperf_interpolate. rewrite <- (E (nrows q) (mcols q)). set (o0 := ensure_buffers _ _ _ _). clearbody o0. clear E.
    destruct (mcols q) as [|[|[|[|?]]]]; try reflexivity.
    - destruct (h_x o0) as [cx|]; [|reflexivity]. destruct (h_y o0) as [cy|]; [|reflexivity].
      pose proof (X o0 cx) as X1. destruct (run_x _ _ o0 cx q) as [o1 [bu|?]]; [|exact X1].
      pose proof (Y o1 cy) as Y1. destruct (run_y _ _ o1 cy q) as [o2 [bv|?]]; cbn [fst] in *; congruence.
    - destruct (h_x o0) as [cx|]; [|reflexivity]. destruct (h_y o0) as [cy|]; [|reflexivity]. destruct (h_z o0) as [cz|]; [|reflexivity].
      pose proof (X o0 cx) as X1. destruct (run_x _ _ o0 cx q) as [o1 [bu|?]]; [|exact X1].
      pose proof (Y o1 cy) as Y1. destruct (run_y _ _ o1 cy q) as [o2 [bv|?]]; cbn [fst] in *; [|congruence].
      pose proof (Z o2 cz) as Z1. destruct (run_z _ _ o2 cz q) as [o3 [bw|?]]; cbn [fst] in *; congruence.
  Qed.

  Lemma rows_points (rows : list (list PrimFloat.float)) : Forall on_grid rows -> exists pts, rows = map row2 pts /\ Forall (fun p => on_grid (row2 p)) pts.
  Proof.
    induction 1 as [|x rows Hx _ IH]; [exists []; split; [reflexivity|constructor]|].
    destruct IH as (pts & -> & Hp). pose proof Hx as ([a b] & Sx & _). inversion Sx as [|p ? ? ? _ S2]; subst. inversion S2 as [|p' ? ? ? _ S3]; subst.
    inversion S3; subst. exists ((p, p') :: pts). split; [reflexivity|]. constructor; assumption.
  Qed.

  Lemma eval_all v ax ay pts : answers v ax ay -> Forall (fun p => on_grid (row2 p)) pts ->
    exists rs, eval2 O v ax ay pts = Ok rs /\ Forall2 (fun p r => eval2 O v ax ay [p] = Ok [r]) pts rs.
  Proof.
    intros [Hs Ha]. induction 1 as [|[a b] pts Hp _ IH]; [exists []; split; [exact (eval2_nil v ax ay nx ny Hs)|constructor]|].
    destruct IH as (rs & E & F). destruct (Ha a b Hp) as (r & Er). exists (r :: rs). split; [apply eval2_cons; assumption|]. constructor; assumption.
  Qed.

  Lemma knows_samples cnt : samples_within cnt 2 on_grid (i_interpolate O scp imems) knows.
  Proof.
    intros f [i k] [c rows] (o & vx & vy & ax & ay & Ei & Hs & Hh & Ax & Ay & ->) _ Hc HD. cbn [mcols mrows fst] in *. subst i c.
    destruct (rows_points rows HD) as (pts & -> & Hp). change (Mat 2 (map row2 pts)) with (arr2 pts).
    destruct (interpolate2_eq O (imems k) o vx vy ax ay pts Hh) as (o' & Hh' & E).
    destruct (eval_all vx ax ay pts Ax Hp) as (us & Eu & Fu). destruct (eval_all vy ax ay pts Ay Hp) as (ws & Ew & Fw).
    rewrite Eu, Ew in E. cbn [bind] in E.
    unfold i_interpolate. cbn [fst snd interpolate]. rewrite E. eexists. split.
    - do 2 f_equal. unfold arr2. f_equal. rewrite map_map.
      clear - Fu Fw. revert ws Fw. induction Fu as [|[a b] r pts us H1 _ IH]; intros ws Fw; inversion Fw as [|? s ? ? H2 H3]; subst; [reflexivity|].
      cbn [combine map row2 grid_field]. rewrite H1, H2. f_equal. apply IH. exact H3.
    - exists o', vx, vy, ax, ay. split; [reflexivity|]. split; [|repeat (split; [assumption|]); reflexivity].
      rewrite <- Hs. pose proof (interpolate_shape (imems k) o (arr2 pts)) as K. rewrite E in K. exact K.
  Qed.

  (** Updates with the same data give the same components. *)
  Lemma update_same (o1 o2 o1' : highperf PrimFloat.float) v p : highperf_update O o1 v (Some p) = (o1', Ok tt) -> h_shape o2 = h_shape o1 ->
    exists o2', highperf_update O o2 v (Some p) = (o2', Ok tt) /\ h_shape o2' = h_shape o2 /\ h_x o2' = h_x o1' /\ h_y o2' = h_y o1' /\
      h_z o2' = h_z o1' /\ h_u o2' = h_u o2 /\ h_v o2' = h_v o2 /\ h_w o2' = h_w o2.
  Proof.
    intros E Hs. unfold highperf_update, highperf_init in *. cbn [h_velocities h_points h_shape h_u h_v h_w] in *. rewrite Hs.
    set (gs := h_shape o1) in *. clearbody gs.
    repeat match type of E with context [bind ?x _] => destruct x; cbn [bind] in *; [|discriminate] end.
    destruct gs as [|g1 [|g2 [|g3 [|]]]]; try discriminate.
    - repeat match type of E with context [bind ?x _] => destruct x; cbn [bind] in *; [|discriminate] end.
      injection E as <-. eexists. split; [reflexivity|]. repeat split; assumption.
    - repeat match type of E with context [bind ?x _] => destruct x; cbn [bind] in *; [|discriminate] end.
      injection E as <-. eexists. split; [reflexivity|]. repeat split; assumption.
  Qed.
End Field.

Section Step.
  Context (lnF : PrimFloat.float -> PrimFloat.float) (scp : scipy PrimFloat.float).
  Local Notation O := (Fops lnF).
  Variables (nx ny : nat) (x0 x1 y0 y1 : R).
  Hypothesis Hnx : (2 <= nx)%nat.
  Hypothesis Hny : (2 <= ny)%nat.
  Hypothesis Bx : (Z.of_nat nx <= INT_MAX)%Z.
  Hypothesis By : (Z.of_nat ny <= INT_MAX)%Z.
  Hypothesis Ex : sane_extent x0 x1.
  Hypothesis Ey : sane_extent y0 y1.

  Lemma sane_lt lo hi : sane_extent lo hi -> lo < hi.
  Proof. intros [H _]. assert (0 < / 2 ^ 900) by (apply Rinv_0_lt_compat, pow_lt; lra). lra. Qed.

  Lemma well_inside_in n t : (2 <= n)%nat -> well_inside n t -> inside n t.
  Proof.
    intros Hn [H0 H1]. split; [exact H0|]. assert (0 < INR n / 2 ^ 50); [|lra].
    apply Rdiv_lt_0_compat; [apply lt_0_INR; lia|apply pow_lt; lra].
  Qed.

  Local Notation sampling_error := (sampling_error nx ny x0 x1 y0 y1).

  Lemma step_field px py us ws U W M L eps v :
    length px = (nx * ny)%nat -> length py = (nx * ny)%nat -> spans px x0 x1 -> spans py y0 y1 ->
    finite_samples us (nx * ny) U M -> finite_samples ws (nx * ny) W M -> 0 <= M -> M <= 2 ^ 898 ->
    lipschitz_field 2 L (fun _ => v) ->
    (forall i j, (i < nx)%nat -> (j < ny)%nat -> Rabs (U (sample2 nx i j) - coord 0 (v [line nx x0 x1 i; line ny y0 y1 j])) <= eps) ->
    (forall i j, (i < nx)%nat -> (j < ny)%nat -> Rabs (W (sample2 nx i j) - coord 1 (v [line nx x0 x1 i; line ny y0 y1 j])) <= eps) ->
    exists f, (forall x, length x = 2%nat -> length (f x) = 2%nat) /\
      (forall s, shaped scp nx ny s -> exists s',
         i_update O scp s (Mat (nx * ny) [us; ws]) (Some (Mat (nx * ny) [px; py])) = (s', Ok tt) /\
         knows lnF scp nx ny x0 x1 y0 y1 f s') /\
      (forall x q, stands x (row2 q) -> well_inside nx (position nx x0 x1 (fst q)) -> well_inside ny (position ny y0 y1 (snd q)) ->
         exists V, stands (f x) V /\ near (sampling_error L M eps) V (v (row2 q))).
  Proof.
    intros Lx Ly Sx Sy HU HW PM HM HL NU NW.
    assert (HMb := HM). rewrite pow_bpow in HMb. change (Z.of_nat 898) with 898%Z in HMb.
    destruct (extremes lnF px x0 x1 Sx) as (a & b & Ma & Mb & Ra & Rb).
    destruct (extremes lnF py y0 y1 Sy) as (c & d & Mc & Md & Rc & Rd).
    destruct (update2_holds O (highperf_new [nx; ny]) nx ny us ws px py a b c d eq_refl I ltac:(lia) ltac:(lia)
                Ma Mb Mc Md (proj1 HU) (proj1 HW) Lx Ly)
      as (o' & vx & vy & ax & ay & Eu & _ & Hh & Ax & Ay & _ & _ & Sh1 & Sh2 & G).
    assert (GX : good_axis lnF ax nx x0 x1) by (intros x X; exact (index_F lnF a b x0 x1 nx ax Hnx Bx Ra Rb Ex Ax x X)).
    assert (GY : good_axis lnF ay ny y0 y1) by (intros x X; exact (index_F lnF c d y0 y1 ny ay Hny By Rc Rd Ey Ay x X)).
    assert (S1 : stores2 vx nx ny (lattice2 nx U) M).
    { split; [exact Sh1|]. intros i j Hi Hj. rewrite (proj1 (G i j Hi Hj)). apply (samples_get _ _ _ _ _ HU). unfold sample2. nia. }
    assert (S2 : stores2 vy nx ny (lattice2 nx W) M).
    { split; [exact Sh2|]. intros i j Hi Hj. rewrite (proj2 (G i j Hi Hj)). apply (samples_get _ _ _ _ _ HW). unfold sample2. nia. }
    assert (EV : forall V vv, stores2 vv nx ny (lattice2 nx V) M -> forall p q, stand2 p q ->
      well_inside nx (position nx x0 x1 (fst q)) -> well_inside ny (position ny y0 y1 (snd q)) ->
      exists val r, eval2 O vv ax ay [p] = Ok [val] /\
        sampled2 nx ny (lattice2 nx V) (position nx x0 x1 (fst q), position ny y0 y1 (snd q)) r /\ accurate (INR (nx + ny) * M) val r).
    { intros V vv SV p q Sp W1 W2.
      destruct (eval2_F lnF vv nx ny (lattice2 nx V) M ax ay x0 x1 y0 y1 [p] [q] SV PM HMb Hnx Hny Bx By GX GY) as (vals & E & F).
      { constructor; [exact Sp|constructor]. } { constructor; [split; assumption|constructor]. }
      inversion F as [|? val ? l' (r & R1 & R2) F']; subst. inversion F'; subst. exists val, r. auto. }
    assert (PT : forall x q, stands x (row2 q) -> exists a b, x = [a; b] /\ stand2 (a, b) q).
    { intros x [qx qy] Sq. inversion Sq as [|e1 ? ? ? R1 Sq2]; subst. inversion Sq2 as [|e2 ? ? ? R2 Sq3]; subst. inversion Sq3; subst.
      exists e1, e2. split; [reflexivity|]. split; assumption. }
    assert (A1 : answers lnF nx ny x0 x1 y0 y1 vx ax ay).
    { split; [exact Sh1|]. intros e1 e2 (q & Sq & W1 & W2). destruct (PT _ _ Sq) as (e1' & e2' & [= <- <-] & S12).
      destruct (EV U vx S1 _ _ S12 W1 W2) as (val & r & E & _). exists val. exact E. }
    assert (A2 : answers lnF nx ny x0 x1 y0 y1 vy ax ay).
    { split; [exact Sh2|]. intros e1 e2 (q & Sq & W1 & W2). destruct (PT _ _ Sq) as (e1' & e2' & [= <- <-] & S12).
      destruct (EV W vy S2 _ _ S12 W1 W2) as (val & r & E & _). exists val. exact E. }
    exists (grid_field lnF vx vy ax ay). split; [|split].
    - intros x Hx. destruct x as [|e1 [|e2 [|]]]; try discriminate. cbn [grid_field].
      destruct (eval2 O vx ax ay [(e1, e2)]) as [[|r [|]]|]; try reflexivity. destruct (eval2 O vy ax ay [(e1, e2)]) as [[|r' [|]]|]; reflexivity.
    - intros [i k] (o & Ei & Ho & Hb). cbn [fst] in Ei. subst i.
      destruct (update_same lnF (highperf_new [nx; ny]) o o' _ _ Eu Ho) as (o2 & E2 & Hs2 & Hx2 & Hy2 & Hz2 & Hu2 & Hv2 & Hw2).
      unfold i_update. cbn [fst snd update]. rewrite E2. eexists. split; [reflexivity|].
      exists o2, vx, vy, ax, ay. split; [reflexivity|]. split; [congruence|]. split; [|auto].
      destruct Hh as (Z1 & _ & bx & by_ & I1 & I2 & X1 & Y1). split; [congruence|]. split.
      + unfold outs_ok in *. rewrite Hu2, Hv2, Hw2. exact Hb.
      + exists bx, by_. rewrite Hx2, Hy2. auto.
    - intros x q Sx' W1 W2. destruct (PT _ _ Sx') as (e1 & e2 & -> & S12).
      destruct (EV U vx S1 _ _ S12 W1 W2) as (r & R & E1 & M1 & (z & Z1 & Z2)).
      destruct (EV W vy S2 _ _ S12 W1 W2) as (s & S & E2 & M2 & (z' & Z1' & Z2')).
      pose proof (well_inside_in _ _ Hnx W1) as I1. pose proof (well_inside_in _ _ Hny W2) as I2.
      pose proof (interpolant_near nx ny x0 x1 y0 y1 L eps v U 0 q R Hnx Hny (sane_lt _ _ Ex) (sane_lt _ _ Ey) HL NU I1 I2 M1) as D1.
      pose proof (interpolant_near nx ny x0 x1 y0 y1 L eps v W 1 q S Hnx Hny (sane_lt _ _ Ex) (sane_lt _ _ Ey) HL NW I1 I2 M2) as D2.
      cbn [grid_field]. rewrite E1, E2. exists [z; z']. split; [constructor; [exact Z1|constructor; [exact Z1'|constructor]]|].
      assert (LV : length (v (row2 q)) = 2%nat) by (apply (proj1 HL 0); destruct q; reflexivity).
      destruct (v (row2 q)) as [|w1 [|w2 [|]]] eqn:Ev; try discriminate LV. cbn [coord nth] in D1, D2.
      assert (P1 : Rabs (z - w1) <= sampling_error L M eps).
      { unfold sampling_error. replace (z - w1) with ((z - R) + (R - w1)) by ring. eapply Rle_trans; [apply Rabs_triang|]. lra. }
      assert (P2 : Rabs (z' - w2) <= sampling_error L M eps).
      { unfold sampling_error. replace (z' - w2) with ((z' - S) + (S - w2)) by ring. eapply Rle_trans; [apply Rabs_triang|]. lra. }
      split; [reflexivity|]. intros [|[|k]]; [exact P1|exact P2|]. unfold coord. pose proof (Rabs_pos (z - w1)).
      destruct k; cbn [nth]; rewrite Rminus_diag_eq, Rabs_R0 by reflexivity; lra.
  Qed.
End Step.
