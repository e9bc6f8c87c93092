(** The 3D grid interpolator in binary64 as a field, and its distance from the velocity that was sampled. *)
From Coq Require Import Reals Lia Lra Psatz Floats.
From Flocq Require Import Core BinarySingleNaN PrimFloat.
From Verif Require Import Base Num NdArray Particles Integrate GridInterp Interpolate Readers DataSource Solver FileRun SpecSeeds SpecInterp SpecFtle SpecGrid SpecFiles SpecIntegrate SpecOrder
  SpecFloat64 SpecFloatGrid SpecRounding SpecGridRun SpecGridRun3 GridInterpFacts HighPerfFacts HighPerfReal OrderFacts FloatArith FloatKernel FloatAxis FloatPlace FloatFtleRun FloatFtleRun3 GridRunField.
Local Open Scope R_scope.

(** The largest distance between neighbouring lines. *)
Definition widest (n nz : nat) (x0 x1 y0 y1 z0 z1 : R) : R := Rmax (Rmax (spacing n x0 x1) (spacing n y0 y1)) (spacing nz z0 z1).

Lemma interpolant_near3 n nz x0 x1 y0 y1 z0 z1 L eps v U c (q : vec3) r : (2 <= n)%nat -> (2 <= nz)%nat -> x0 < x1 -> y0 < y1 -> z0 < z1 ->
  lipschitz_field 3 L (fun _ => v) ->
  (forall i j k, (i < n)%nat -> (j < n)%nat -> (k < nz)%nat ->
     Rabs (U (sample3 n nz i j k) - coord c (v [line n x0 x1 i; line n y0 y1 j; line nz z0 z1 k])) <= eps) ->
  inside n (position n x0 x1 (v0 q)) -> inside n (position n y0 y1 (v1 q)) -> inside nz (position nz z0 z1 (v2 q)) ->
  sampled3 n n nz (lattice3 n nz U) (position n x0 x1 (v0 q), position n y0 y1 (v1 q), position nz z0 z1 (v2 q)) r ->
  Rabs (r - coord c (v (row3 q))) <= eps + L * widest n nz x0 x1 y0 y1 z0 z1.
Proof.
  intros Hn Hnz Lx Ly Lz [_ HL] HU Ix Iy Iz [Hs _]. destruct (Hs (conj Ix (conj Iy Iz))) as [_ Hb].
  destruct (cell_of _ _ Ix) as (i & Bi & Hi). destruct (cell_of _ _ Iy) as (j & Bj & Hj). destruct (cell_of _ _ Iz) as (k & Bk & Hk).
  set (W := widest n nz x0 x1 y0 y1 z0 z1). set (e := eps + L * W).
  assert (W1 : spacing n x0 x1 <= W) by (eapply Rle_trans; [apply Rmax_l|apply Rmax_l]).
  assert (W2 : spacing n y0 y1 <= W) by (eapply Rle_trans; [apply Rmax_r|apply Rmax_l]).
  assert (W3 : spacing nz z0 z1 <= W) by apply Rmax_r. clearbody W.
  assert (C : coord c (v (row3 q)) - e <= r <= coord c (v (row3 q)) + e).
  { apply (Hb i j k); [exact Hi|exact Hj|exact Hk|]. intros di dj dk Hdi Hdj Hdk.
    assert (Bi' : (i + di < n)%nat) by lia. assert (Bj' : (j + dj < n)%nat) by lia. assert (Bk' : (k + dk < nz)%nat) by lia.
    pose proof (HU (i + di)%nat (j + dj)%nat (k + dk)%nat Bi' Bj' Bk') as H1. unfold lattice3.
    assert (N : near W [line n x0 x1 (i + di); line n y0 y1 (j + dj); line nz z0 z1 (k + dk)] (row3 q)).
    { pose proof (line_position n x0 x1 i (v0 q) Hn Lx Hi di Hdi) as A1. pose proof (line_position n y0 y1 j (v1 q) Hn Ly Hj dj Hdj) as A2.
      pose proof (line_position nz z0 z1 k (v2 q) Hnz Lz Hk dk Hdk) as A3. pose proof (Rabs_pos (line n x0 x1 (i + di) - v0 q)).
      destruct q as [[qx qy] qz]. split; [reflexivity|]. unfold v0, v1, v2 in *. intros [|[|[|d]]]; cbn [coord nth row3 fst snd] in *; [lra|lra|lra|].
      unfold coord. destruct d; cbn [nth]; rewrite Rminus_diag_eq, Rabs_R0 by reflexivity; lra. }
    assert (H2 : Rabs (coord c (v [line n x0 x1 (i + di); line n y0 y1 (j + dj); line nz z0 z1 (k + dk)]) - coord c (v (row3 q))) <= L * W).
    { apply (HL 0); [reflexivity|destruct q as [[? ?] ?]; reflexivity|exact N]. }
    apply Rabs_le_inv in H1. apply Rabs_le_inv in H2. unfold e. lra. }
  apply Rabs_le. lra.
Qed.

(* ---- the interpolator as a field on rows ---- *)
Section Field.
  Context (lnF : PrimFloat.float -> PrimFloat.float) (scp : scipy PrimFloat.float) (imems : nat -> memory (T := PrimFloat.float)).
  Local Notation O := (Fops lnF).
  Variables (n nz : nat) (x0 x1 y0 y1 z0 z1 : R).

  (** Below the margin at the last faces of the grid. *)
  Definition well_in3 (q : vec3) : Prop :=
    well_inside n (position n x0 x1 (v0 q)) /\ well_inside n (position n y0 y1 (v1 q)) /\ well_inside nz (position nz z0 z1 (v2 q)).
  Definition on_grid3 (x : list PrimFloat.float) : Prop := exists q, stands x (row3 q) /\ well_in3 q.

  Definition grid_field3 (vx vy vz : nd PrimFloat.float) (ax ay az : axis PrimFloat.float) (x : list PrimFloat.float) : list PrimFloat.float :=
    match x with
    | [a; b; c] => match eval3 O vx ax ay az [(a, b, c)], eval3 O vy ax ay az [(a, b, c)], eval3 O vz ax ay az [(a, b, c)] with
                   | Ok [r], Ok [s], Ok [t] => [r; s; t]
                   | _, _, _ => x
                   end
    | _ => x
    end.

  Definition answers3 (v : nd PrimFloat.float) (ax ay az : axis PrimFloat.float) : Prop :=
    eval3 O v ax ay az [] = Ok [] /\ forall a b c, on_grid3 [a; b; c] -> exists r, eval3 O v ax ay az [(a, b, c)] = Ok [r].

  Definition knows3 (f : list PrimFloat.float -> list PrimFloat.float) (s : istate scp) : Prop :=
    exists o vx vy vz ax ay az, fst s = IHigh o /\ h_shape o = [n; n; nz] /\ holds3 o vx vy vz ax ay az /\
      answers3 vx ax ay az /\ answers3 vy ax ay az /\ answers3 vz ax ay az /\ f = grid_field3 vx vy vz ax ay az.
  Definition shaped3 (s : istate scp) : Prop := exists o, fst s = IHigh o /\ h_shape o = [n; n; nz] /\ outs_ok 3 o.

  Lemma knows_shaped3 f s : knows3 f s -> shaped3 s.
  Proof. intros (o & vx & vy & vz & ax & ay & az & E & Hs & (Ho & _) & _). exists o. auto. Qed.

  Lemma eval3_cons v ax ay az p pts r rs : eval3 O v ax ay az [p] = Ok [r] -> eval3 O v ax ay az pts = Ok rs -> eval3 O v ax ay az (p :: pts) = Ok (r :: rs).
  Proof.
    unfold eval3. destruct (shape v) as [|sx [|sy [|sz [|]]]]; try discriminate. destruct (c_int _) as [YZ|]; [|discriminate]. cbn [bind mapr].
    destruct (interp3d_point _ _ _ _ _ _ _ _ _) as [a|]; [|discriminate]. cbn [bind]. intros [= ->] ->. reflexivity.
  Qed.

  Lemma rows_points3 (rows : list (list PrimFloat.float)) : Forall on_grid3 rows -> exists pts, rows = map row3 pts /\ Forall (fun p => on_grid3 (row3 p)) pts.
  Proof.
    induction 1 as [|x rows Hx _ IH]; [exists []; split; [reflexivity|constructor]|].
    destruct IH as (pts & -> & Hp). pose proof Hx as ([[a b] c] & Sx & _). inversion Sx as [|p ? ? ? _ S2]; subst. inversion S2 as [|p' ? ? ? _ S3]; subst.
    inversion S3 as [|p'' ? ? ? _ S4]; subst. inversion S4; subst. exists ((p, p', p'') :: pts). split; [reflexivity|]. constructor; assumption.
  Qed.

  Lemma eval_all3 v ax ay az pts : answers3 v ax ay az -> Forall (fun p => on_grid3 (row3 p)) pts ->
    exists rs, eval3 O v ax ay az pts = Ok rs /\ Forall2 (fun p r => eval3 O v ax ay az [p] = Ok [r]) pts rs.
  Proof.
    intros [Hs Ha]. induction 1 as [|[[a b] c] pts Hp _ IH]; [exists []; split; [exact Hs|constructor]|].
    destruct IH as (rs & E & F). destruct (Ha a b c Hp) as (r & Er). exists (r :: rs). split; [apply eval3_cons; assumption|]. constructor; assumption.
  Qed.

  Lemma knows_samples3 cnt : samples_within cnt 3 on_grid3 (i_interpolate O scp imems) knows3.
  Proof.
    intros f [i k] [c rows] (o & vx & vy & vz & ax & ay & az & Ei & Hs & Hh & Ax & Ay & Az & ->) _ Hc HD. cbn [mcols mrows fst] in *. subst i c.
    destruct (rows_points3 rows HD) as (pts & -> & Hp). change (Mat 3 (map row3 pts)) with (arr3 pts).
    destruct (interpolate3_eq O (imems k) o vx vy vz ax ay az pts Hh) as (o' & Hh' & E).
    destruct (eval_all3 vx ax ay az pts Ax Hp) as (us & Eu & Fu). destruct (eval_all3 vy ax ay az pts Ay Hp) as (ws & Ew & Fw).
    destruct (eval_all3 vz ax ay az pts Az Hp) as (ts & Et & Ft).
    rewrite Eu, Ew, Et in E. cbn [bind] in E.
    unfold i_interpolate. cbn [fst snd interpolate]. rewrite E. eexists. split.
    - do 2 f_equal. unfold arr3. f_equal. rewrite map_map.
      clear - Fu Fw Ft. revert ws Fw ts Ft. induction Fu as [|[[a b] c] r pts us H1 _ IH]; intros ws Fw ts Ft; inversion Fw as [|? s ? ? H2 H3]; subst;
        inversion Ft as [|? t ? ? H4 H5]; subst; [reflexivity|].
      cbn [combine map row3 grid_field3]. rewrite H1, H2, H4. f_equal. apply IH; assumption.
    - exists o', vx, vy, vz, ax, ay, az. split; [reflexivity|]. split; [|repeat (split; [assumption|]); reflexivity].
      rewrite <- Hs. pose proof (interpolate_shape lnF (imems k) o (arr3 pts)) as K. rewrite E in K. exact K.
  Qed.
End Field.

Section Step.
  Context (lnF : PrimFloat.float -> PrimFloat.float) (scp : scipy PrimFloat.float).
  Local Notation O := (Fops lnF).
  Variables (n nz : nat) (x0 x1 y0 y1 z0 z1 : R).
  Hypothesis Hn : (2 <= n)%nat.
  Hypothesis Hnz : (2 <= nz)%nat.
  Hypothesis Bn : (Z.of_nat n <= INT_MAX)%Z.
  Hypothesis Bz : (Z.of_nat nz <= INT_MAX)%Z.
  Hypothesis Bnz : (Z.of_nat n * Z.of_nat nz <= INT_MAX)%Z.
  Hypothesis Ex : sane_extent x0 x1.
  Hypothesis Ey : sane_extent y0 y1.
  Hypothesis Ez : sane_extent z0 z1.

  Local Notation sampling_error3 := (sampling_error3 n nz x0 x1 y0 y1 z0 z1).
  Local Notation well_in3 := (well_in3 n nz x0 x1 y0 y1 z0 z1).

  Lemma step_field3 px py pz us ws ts U W T M L eps v :
    length px = (n * n * nz)%nat -> length py = (n * n * nz)%nat -> length pz = (n * n * nz)%nat -> spans px x0 x1 -> spans py y0 y1 -> spans pz z0 z1 ->
    finite_samples us (n * n * nz) U M -> finite_samples ws (n * n * nz) W M -> finite_samples ts (n * n * nz) T M -> 0 <= M -> M <= 2 ^ 898 ->
    lipschitz_field 3 L (fun _ => v) ->
    (forall i j k, (i < n)%nat -> (j < n)%nat -> (k < nz)%nat -> let p := [line n x0 x1 i; line n y0 y1 j; line nz z0 z1 k] in
       Rabs (U (sample3 n nz i j k) - coord 0 (v p)) <= eps /\ Rabs (W (sample3 n nz i j k) - coord 1 (v p)) <= eps /\
       Rabs (T (sample3 n nz i j k) - coord 2 (v p)) <= eps) ->
    exists f, (forall x, length x = 3%nat -> length (f x) = 3%nat) /\
      (forall s, shaped3 scp n nz s -> exists s',
         i_update O scp s (Mat (n * n * nz) [us; ws; ts]) (Some (Mat (n * n * nz) [px; py; pz])) = (s', Ok tt) /\
         knows3 lnF scp n nz x0 x1 y0 y1 z0 z1 f s') /\
      (forall x q, stands x (row3 q) -> well_in3 q -> exists V, stands (f x) V /\ near (sampling_error3 L M eps) V (v (row3 q))).
  Proof.
    intros Lx Ly Lz Sx Sy Sz HU HW HT PM HM HL NUWT.
    assert (HMb := HM). rewrite pow_bpow in HMb. change (Z.of_nat 898) with 898%Z in HMb.
    destruct (extremes lnF px x0 x1 Sx) as (a & b & Ma & Mb & Ra & Rb).
    destruct (extremes lnF py y0 y1 Sy) as (c & d & Mc & Md & Rc & Rd).
    destruct (extremes lnF pz z0 z1 Sz) as (e & g & Me & Mg & Re & Rg).
    destruct (update3_holds O (highperf_new [n; n; nz]) n n nz us ws ts px py pz a b c d e g eq_refl I ltac:(lia) ltac:(lia) ltac:(lia)
                Ma Mb Mc Md Me Mg (proj1 HU) (proj1 HW) (proj1 HT) Lx Ly Lz)
      as (o' & vx & vy & vz & ax & ay & az & Eu & _ & _ & Hh & Ax & Ay & Az & _ & _ & _ & Sh1 & Sh2 & Sh3 & G).
    assert (GX : good_axis lnF ax n x0 x1) by (intros x X; exact (index_F lnF a b x0 x1 n ax Hn Bn Ra Rb Ex Ax x X)).
    assert (GY : good_axis lnF ay n y0 y1) by (intros x X; exact (index_F lnF c d y0 y1 n ay Hn Bn Rc Rd Ey Ay x X)).
    assert (GZ : good_axis lnF az nz z0 z1) by (intros x X; exact (index_F lnF e g z0 z1 nz az Hnz Bz Re Rg Ez Az x X)).
    assert (IB : forall i j k, (i < n)%nat -> (j < n)%nat -> (k < nz)%nat -> (sample3 n nz i j k < n * n * nz)%nat).
    { intros i j k Hi Hj Hk. unfold sample3. assert (j * n + i < n * n)%nat by nia. nia. }
    assert (S1 : stores3 vx n n nz (lattice3 n nz U) M).
    { split; [exact Sh1|]. intros i j k Hi Hj Hk. rewrite (proj1 (G i j k Hi Hj Hk)). apply (samples_get _ _ _ _ _ HU), IB; assumption. }
    assert (S2 : stores3 vy n n nz (lattice3 n nz W) M).
    { split; [exact Sh2|]. intros i j k Hi Hj Hk. rewrite (proj1 (proj2 (G i j k Hi Hj Hk))). apply (samples_get _ _ _ _ _ HW), IB; assumption. }
    assert (S3 : stores3 vz n n nz (lattice3 n nz T) M).
    { split; [exact Sh3|]. intros i j k Hi Hj Hk. rewrite (proj2 (proj2 (G i j k Hi Hj Hk))). apply (samples_get _ _ _ _ _ HT), IB; assumption. }
    assert (EV : forall V vv, stores3 vv n n nz (lattice3 n nz V) M ->
      eval3 O vv ax ay az [] = Ok [] /\ forall p q, stand3 p q -> well_in3 q ->
      exists val r, eval3 O vv ax ay az [p] = Ok [val] /\
        sampled3 n n nz (lattice3 n nz V) (position n x0 x1 (v0 q), position n y0 y1 (v1 q), position nz z0 z1 (v2 q)) r /\
        accurate (INR (n + n + nz) * M) val r).
    { intros V vv SV. split.
      - destruct (eval3_F lnF vv n n nz n n nz (lattice3 n nz V) M ax ay az x0 x1 y0 y1 z0 z1 [] [] SV PM HMb Hn Hn Hnz Bn Bn Bz Bnz GX GY GZ) as (vals & E & F); [constructor|constructor|].
        inversion F; subst. exact E.
      - intros p q Sp Wq.
        destruct (eval3_F lnF vv n n nz n n nz (lattice3 n nz V) M ax ay az x0 x1 y0 y1 z0 z1 [p] [q] SV PM HMb Hn Hn Hnz Bn Bn Bz Bnz GX GY GZ) as (vals & E & F).
        { constructor; [exact Sp|constructor]. } { constructor; [exact Wq|constructor]. }
        inversion F as [|? val ? l' (r & R1 & R2) F']; subst. inversion F'; subst. exists val, r. auto. }
    assert (PT : forall x q, stands x (row3 q) -> exists a b c, x = [a; b; c] /\ stand3 (a, b, c) q).
    { intros x [[qx qy] qz] Sq. inversion Sq as [|e1 ? ? ? R1 Sq2]; subst. inversion Sq2 as [|e2 ? ? ? R2 Sq3]; subst.
      inversion Sq3 as [|e3 ? ? ? R3 Sq4]; subst. inversion Sq4; subst.
      exists e1, e2, e3. split; [reflexivity|]. split; [exact R1|split; assumption]. }
    assert (AN : forall V vv, stores3 vv n n nz (lattice3 n nz V) M -> answers3 lnF n nz x0 x1 y0 y1 z0 z1 vv ax ay az).
    { intros V vv SV. destruct (EV V vv SV) as [EN EP]. split; [exact EN|]. intros e1 e2 e3 (q & Sq & Wq). destruct (PT _ _ Sq) as (e1' & e2' & e3' & [= <- <- <-] & S12).
      destruct (EP _ _ S12 Wq) as (val & r & E & _). exists val. exact E. }
    exists (grid_field3 lnF vx vy vz ax ay az). split; [|split].
    - intros x Hx. destruct x as [|e1 [|e2 [|e3 [|]]]]; try discriminate. cbn [grid_field3].
      destruct (eval3 O vx ax ay az [(e1, e2, e3)]) as [[|r [|]]|]; try reflexivity. destruct (eval3 O vy ax ay az [(e1, e2, e3)]) as [[|r' [|]]|]; try reflexivity.
      destruct (eval3 O vz ax ay az [(e1, e2, e3)]) as [[|r'' [|]]|]; reflexivity.
    - intros [i k] (o & Ei & Ho & Hb). cbn [fst] in Ei. subst i.
      destruct (update_same lnF (highperf_new [n; n; nz]) o o' _ _ Eu Ho) as (o2 & E2 & Hs2 & Hx2 & Hy2 & Hz2 & Hu2 & Hv2 & Hw2).
      unfold i_update. cbn [fst snd update]. rewrite E2. eexists. split; [reflexivity|].
      exists o2, vx, vy, vz, ax, ay, az. split; [reflexivity|]. split; [congruence|]. split; [|split; [exact (AN U vx S1)|split; [exact (AN W vy S2)|split; [exact (AN T vz S3)|reflexivity]]]].
      destruct Hh as (_ & bx & by_ & bz & I1 & I2 & I3 & X1 & Y1 & Z1). split.
      + unfold outs_ok in *. rewrite Hu2, Hv2, Hw2. exact Hb.
      + exists bx, by_, bz. rewrite Hx2, Hy2, Hz2. repeat (split; [assumption|]). assumption.
    - intros x q Sx' Wq. destruct (PT _ _ Sx') as (e1 & e2 & e3 & -> & S12).
      destruct (proj2 (EV U vx S1) _ _ S12 Wq) as (r & R & E1 & M1 & (z & Z1 & Z2)).
      destruct (proj2 (EV W vy S2) _ _ S12 Wq) as (s & S & E2 & M2 & (z' & Z1' & Z2')).
      destruct (proj2 (EV T vz S3) _ _ S12 Wq) as (t & Q & E3 & M3 & (z'' & Z1'' & Z2'')).
      destruct Wq as (W1 & W2 & W3).
      pose proof (well_inside_in _ _ Hn Hn _ _ Hn W1) as I1. pose proof (well_inside_in _ _ Hn Hn _ _ Hn W2) as I2. pose proof (well_inside_in _ _ Hn Hn _ _ Hnz W3) as I3.
      pose proof (interpolant_near3 n nz x0 x1 y0 y1 z0 z1 L eps v U 0 q R Hn Hnz (sane_lt _ _ Ex) (sane_lt _ _ Ey) (sane_lt _ _ Ez) HL
        (fun i j k Hi Hj Hk => proj1 (NUWT i j k Hi Hj Hk)) I1 I2 I3 M1) as D1.
      pose proof (interpolant_near3 n nz x0 x1 y0 y1 z0 z1 L eps v W 1 q S Hn Hnz (sane_lt _ _ Ex) (sane_lt _ _ Ey) (sane_lt _ _ Ez) HL
        (fun i j k Hi Hj Hk => proj1 (proj2 (NUWT i j k Hi Hj Hk))) I1 I2 I3 M2) as D2.
      pose proof (interpolant_near3 n nz x0 x1 y0 y1 z0 z1 L eps v T 2 q Q Hn Hnz (sane_lt _ _ Ex) (sane_lt _ _ Ey) (sane_lt _ _ Ez) HL
        (fun i j k Hi Hj Hk => proj2 (proj2 (NUWT i j k Hi Hj Hk))) I1 I2 I3 M3) as D3.
      cbn [grid_field3]. rewrite E1, E2, E3. exists [z; z'; z'']. split; [constructor; [exact Z1|constructor; [exact Z1'|constructor; [exact Z1''|constructor]]]|].
      assert (LV : length (v (row3 q)) = 3%nat) by (apply (proj1 HL 0); destruct q as [[? ?] ?]; reflexivity).
      destruct (v (row3 q)) as [|w1 [|w2 [|w3 [|]]]] eqn:Ev; try discriminate LV. cbn [coord nth] in D1, D2, D3.
      assert (P : forall z R w, Rabs (z - R) <= / 2 ^ 48 * (INR (n + n + nz) * M) + / 2 ^ 1071 -> Rabs (R - w) <= eps + L * widest n nz x0 x1 y0 y1 z0 z1 ->
        Rabs (z - w) <= sampling_error3 L M eps).
      { intros u R0 w K1 K2. unfold SpecGridRun3.sampling_error3. fold (widest n nz x0 x1 y0 y1 z0 z1).
        replace (u - w) with ((u - R0) + (R0 - w)) by ring. eapply Rle_trans; [apply Rabs_triang|]. lra. }
      pose proof (P _ _ _ Z2 D1) as P1. pose proof (P _ _ _ Z2' D2) as P2. pose proof (P _ _ _ Z2'' D3) as P3.
      split; [reflexivity|]. intros [|[|[|k]]]; [exact P1|exact P2|exact P3|]. unfold coord. pose proof (Rabs_pos (z - w1)).
      destruct k; cbn [nth]; rewrite Rminus_diag_eq, Rabs_R0 by reflexivity; lra.
  Qed.
End Step.
