(** The grid interpolator in binary64, from its creation to its answers. *)
From Coq Require Import Reals Lia Lra Psatz Floats.
From Flocq Require Import Core BinarySingleNaN PrimFloat.
From Verif Require Import Base Num NdArray Integrate GridInterp Interpolate SpecSeeds SpecGrid SpecKernel SpecFloat64 SpecFloatGrid SpecIntegrate
  NdFacts GridInterpFacts HighPerfFacts HighPerfReal GridPlace BatchFloat FloatArith FloatGrid FloatKernel FloatAxis.
Local Open Scope R_scope.

(* ---- piecewise linear functions on a lattice ---- *)

Definition pw (V : nat -> R) (x : R) : R :=
  let i := Z.to_nat (Int_part x) in V i * (1 - (x - INR i)) + V (i + 1)%nat * (x - INR i).

Lemma pw_cell V i x : INR i <= x <= INR i + 1 -> pw V x = V i * (1 - (x - INR i)) + V (i + 1)%nat * (x - INR i).
Proof.
  intros [H1 H2]. unfold pw. destruct (Rlt_le_dec x (INR i + 1)) as [H|H].
  - rewrite (cell_unique i x (conj H1 H)), Nat2Z.id. reflexivity.
  - assert (E : x = INR (i + 1)) by (rewrite plus_INR; cbn; lra).
    rewrite (cell_unique (i + 1) x), Nat2Z.id by lra. rewrite E. rewrite plus_INR. cbn [INR]. ring.
Qed.

Lemma pw_bound n V M x : (forall k, (k < n)%nat -> Rabs (V k) <= M) -> inside n x -> Rabs (pw V x) <= M.
Proof.
  intros HV Ix. destruct (cell _ _ Ix) as (i & Hi & Bi & _). rewrite (pw_cell V i x) by lra.
  pose proof (HV i ltac:(lia)) as H1. pose proof (HV (i + 1)%nat Hi) as H2. apply Rabs_le_inv in H1, H2. apply Rabs_le.
  assert (0 <= x - INR i <= 1) by lra. nra.
Qed.

Lemma pw_diff n V W E x : (forall k, (k < n)%nat -> Rabs (V k - W k) <= E) -> inside n x -> Rabs (pw V x - pw W x) <= E.
Proof.
  intros HV Ix. destruct (cell _ _ Ix) as (i & Hi & Bi & _). rewrite (pw_cell V i x), (pw_cell W i x) by lra.
  pose proof (HV i ltac:(lia)) as H1. pose proof (HV (i + 1)%nat Hi) as H2. apply Rabs_le_inv in H1, H2. apply Rabs_le.
  assert (0 <= x - INR i <= 1) by lra. nra.
Qed.

Lemma pw_lip_le n V M x y : (forall k, (k < n)%nat -> Rabs (V k) <= M) -> inside n x -> inside n y -> x <= y <= x + 1 ->
  Rabs (pw V y - pw V x) <= 2 * M * (y - x).
Proof.
  intros HV Ix Iy Hxy. destruct (cell _ _ Ix) as (i & Hi & Bi & _). rewrite (pw_cell V i x) by lra.
  pose proof (HV i ltac:(lia)) as H1. pose proof (HV (i + 1)%nat Hi) as H2. apply Rabs_le_inv in H1, H2.
  destruct (Rle_dec y (INR i + 1)) as [Hy|Hy].
  - rewrite (pw_cell V i y) by lra. apply Rabs_le. nra.
  - assert (Hi2 : (i + 1 + 1 < n)%nat).
    { apply INR_lt. rewrite !plus_INR. cbn [INR]. unfold inside in Iy. lra. }
    pose proof (HV (i + 1 + 1)%nat Hi2) as H3. apply Rabs_le_inv in H3.
    rewrite (pw_cell V (i + 1) y) by (rewrite plus_INR; cbn [INR]; lra). rewrite plus_INR. cbn [INR].
    set (p := V i) in *. set (q := V (i + 1)%nat) in *. set (r := V (i + 1 + 1)%nat) in *. set (c := INR i) in *.
    replace (q * (1 - (y - (c + 1))) + r * (y - (c + 1)) - (p * (1 - (x - c)) + q * (x - c)))
      with ((r - q) * (y - (c + 1)) + (q - p) * (c + 1 - x)) by ring.
    apply Rabs_le. assert (0 <= y - (c + 1)) by lra. assert (0 <= c + 1 - x) by lra.
    assert (- (2 * M) <= r - q <= 2 * M) by lra. assert (- (2 * M) <= q - p <= 2 * M) by lra. nra.
Qed.

Lemma pw_lip n V M x y : (forall k, (k < n)%nat -> Rabs (V k) <= M) -> inside n x -> inside n y -> Rabs (x - y) <= 1 ->
  Rabs (pw V x - pw V y) <= 2 * M * Rabs (x - y).
Proof.
  intros HV Ix Iy H. destruct (Rle_dec x y) as [L|L].
  - rewrite (Rabs_minus_sym x y), (Rabs_minus_sym (pw V x)) in *. rewrite (Rabs_pos_eq (y - x)) in * by lra.
    apply (pw_lip_le n); try assumption. lra.
  - rewrite (Rabs_pos_eq (x - y)) in * by lra. apply (pw_lip_le n); try assumption. lra.
Qed.

Definition pw2 (V : nat -> nat -> R) (x y : R) : R := pw (fun i => pw (V i) y) x.
Definition pw3 (V : nat -> nat -> nat -> R) (x y z : R) : R := pw (fun i => pw2 (V i) y z) x.

Lemma pw2_bound nx ny V M x y : (forall i j, (i < nx)%nat -> (j < ny)%nat -> Rabs (V i j) <= M) ->
  inside nx x -> inside ny y -> Rabs (pw2 V x y) <= M.
Proof.
  intros HV Ix Iy. apply (pw_bound nx); [|exact Ix]. intros k Hk. apply (pw_bound ny); [|exact Iy]. intros j Hj. apply HV; assumption.
Qed.

Lemma pw2_lip nx ny V M x y x' y' : (forall i j, (i < nx)%nat -> (j < ny)%nat -> Rabs (V i j) <= M) ->
  inside nx x -> inside ny y -> inside nx x' -> inside ny y' -> Rabs (x - x') <= 1 -> Rabs (y - y') <= 1 ->
  Rabs (pw2 V x y - pw2 V x' y') <= 2 * M * (Rabs (x - x') + Rabs (y - y')).
Proof.
  intros HV Ix Iy Ix' Iy' Hx Hy.
  replace (pw2 V x y - pw2 V x' y') with ((pw2 V x y - pw2 V x' y) + (pw2 V x' y - pw2 V x' y')) by ring.
  eapply Rle_trans; [apply Rabs_triang|]. rewrite Rmult_plus_distr_l. apply Rplus_le_compat.
  - apply (pw_lip nx (fun i => pw (V i) y) M); try assumption. intros k Hk. apply (pw_bound ny); [|exact Iy]. intros j Hj. apply HV; assumption.
  - apply (pw_diff nx); [|exact Ix']. intros k Hk. apply (pw_lip ny); try assumption. intros j Hj. apply HV; assumption.
Qed.

Lemma pw3_lip nx ny nz V M x y z x' y' z' :
  (forall i j k, (i < nx)%nat -> (j < ny)%nat -> (k < nz)%nat -> Rabs (V i j k) <= M) ->
  inside nx x -> inside ny y -> inside nz z -> inside nx x' -> inside ny y' -> inside nz z' ->
  Rabs (x - x') <= 1 -> Rabs (y - y') <= 1 -> Rabs (z - z') <= 1 ->
  Rabs (pw3 V x y z - pw3 V x' y' z') <= 2 * M * (Rabs (x - x') + Rabs (y - y') + Rabs (z - z')).
Proof.
  intros HV Ix Iy Iz Ix' Iy' Iz' Hx Hy Hz.
  replace (pw3 V x y z - pw3 V x' y' z') with ((pw3 V x y z - pw3 V x' y z) + (pw3 V x' y z - pw3 V x' y' z')) by ring.
  eapply Rle_trans; [apply Rabs_triang|]. rewrite Rplus_assoc, Rmult_plus_distr_l. apply Rplus_le_compat.
  - apply (pw_lip nx (fun i => pw2 (V i) y z) M); try assumption. intros k Hk. apply (pw2_bound ny nz); try assumption. intros; apply HV; assumption.
  - apply (pw_diff nx); [|exact Ix']. intros k Hk. apply (pw2_lip ny nz); try assumption. intros; apply HV; assumption.
Qed.

Lemma sampled2_pw nx ny V x y r : inside nx x -> inside ny y -> sampled2 nx ny V (x, y) r -> r = pw2 V x y.
Proof.
  intros Ix Iy [H _]. destruct (H (conj Ix Iy)) as [B _]. cbn [fst snd] in B.
  destruct (cell _ _ Ix) as (i & Hi & Bi & _). destruct (cell _ _ Iy) as (j & Hj & Bj & _).
  destruct (formula2 V x y i j Bi Bj) as [F _]. cbv zeta in F.
  destruct (multilinear2_exists V i j) as (f & Mf & Ef).
  rewrite (B i j f Mf Bi Bj Ef), <- (F i j f Mf Bi Bj Ef).
  unfold pw2. rewrite (pw_cell _ i x) by lra. rewrite !(pw_cell _ j y) by lra. ring.
Qed.

Lemma sampled3_pw nx ny nz V x y z r : inside nx x -> inside ny y -> inside nz z -> sampled3 nx ny nz V (x, y, z) r -> r = pw3 V x y z.
Proof.
  intros Ix Iy Iz [H _]. destruct (H (conj Ix (conj Iy Iz))) as [B _]. cbn [fst snd] in B.
  destruct (cell _ _ Ix) as (i & Hi & Bi & _). destruct (cell _ _ Iy) as (j & Hj & Bj & _). destruct (cell _ _ Iz) as (k & Hk & Bk & _).
  destruct (formula3 V x y z i j k Bi Bj Bk) as [F _]. cbv zeta in F.
  destruct (multilinear3_exists V i j k) as (f & Mf & Ef).
  rewrite (B i j k f Mf Bi Bj Bk Ef), <- (F i j k f Mf Bi Bj Bk Ef).
  unfold pw3, pw2. rewrite (pw_cell _ i x) by lra. rewrite !(pw_cell _ j y) by lra. rewrite !(pw_cell _ k z) by lra.
  unfold lerp. cbn [o_add o_mul o_sub Rops]. change (o_one Rops) with 1. ring.
Qed.

(* ---- real interpolants of stored data ---- *)

Lemma real_at2 v sx sy V M x y : stores2 v sx sy V M -> (Z.of_nat sx <= INT_MAX)%Z -> (Z.of_nat sy <= INT_MAX)%Z ->
  fits x -> fits y -> exists r, sampled2 sx sy V (x, y) r.
Proof.
  intros [Hs Hv] Sx Sy Fx Fy.
  assert (HV : forall i j, (i < sx)%nat -> (j < sy)%nat -> nd_get (values v) [i; j] = Ok (V i j)).
  { intros i j Hi Hj. destruct (Hv i j Hi Hj) as (f & E & R & _). apply (nd_values _ _ f); assumption. }
  destruct (kernel2_sampled (values v) sx sy V [(x, y)] [0] (Hs : shape (values v) = _) Sx Sy HV eq_refl) as (vals & _ & HS).
  { constructor; [split; assumption|constructor]. }
  inversion HS as [|? r ? ? H _]; subst. exists r. exact H.
Qed.

Lemma real_at3 v sx sy sz V M x y z : stores3 v sx sy sz V M -> (Z.of_nat sx <= INT_MAX)%Z -> (Z.of_nat sy <= INT_MAX)%Z ->
  (Z.of_nat sz <= INT_MAX)%Z -> (Z.of_nat sy * Z.of_nat sz <= INT_MAX)%Z ->
  fits x -> fits y -> fits z -> exists r, sampled3 sx sy sz V (x, y, z) r.
Proof.
  intros [Hs Hv] Sx Sy Sz Syz Fx Fy Fz.
  assert (HV : forall i j k, (i < sx)%nat -> (j < sy)%nat -> (k < sz)%nat -> nd_get (values v) [i; j; k] = Ok (V i j k)).
  { intros i j k Hi Hj Hk. destruct (Hv i j k Hi Hj Hk) as (f & E & R & _). apply (nd_values _ _ f); assumption. }
  destruct (kernel3_sampled (values v) sx sy sz V [(x, y, z)] [0] (Hs : shape (values v) = _) Sx Sy Sz Syz HV eq_refl) as (vals & _ & HS).
  { constructor; [split; [assumption|split; assumption]|constructor]. }
  inversion HS as [|? r ? ? H _]; subst. exists r. exact H.
Qed.

(* ---- rounding of the index ---- *)

Lemma tiny_u : 0 < tiny /\ 8 * tiny <= uround.
Proof.
  destruct tiny_small as [T0 _]. split; [exact T0|]. rewrite uround_bpow. unfold tiny.
  change 8 with (bpow radix2 3). rewrite <- bpow_plus. apply bpow_le. lia.
Qed.

Lemma well_inside_near n p T : (2 <= n)%nat -> (Z.of_nat n <= INT_MAX)%Z -> well_inside n p ->
  Rabs (T - p) <= 5 * uround * Rabs p + tiny -> (0 <= p -> 0 <= T) ->
  inside n p /\ inside n T /\ fits p /\ fits T /\ Rabs (T - p) <= 5 * uround * INR n + tiny /\ Rabs (T - p) <= 1.
Proof.
  intros Hn Bn [P0 P1] HT HP. destruct tiny_u as [T0 T1]. destruct uround_val as [U0 U1].
  assert (E : INR n / 2 ^ 50 = 8 * uround * INR n) by (unfold uround; field). rewrite E in P1. clear E.
  assert (N2 : 2 <= INR n) by (change 2 with (INR 2); apply le_INR; exact Hn).
  assert (NB : INR n <= 2147483647) by (rewrite INR_IZR_INZ; apply IZR_le; exact Bn).
  specialize (HP P0). rewrite (Rabs_pos_eq p) in HT by exact P0.
  assert (S5 : 5 * uround * p <= 5 * uround * INR n) by (apply Rmult_le_compat_l; [lra|nra]).
  assert (HT' : Rabs (T - p) <= 5 * uround * INR n + tiny) by lra.
  assert (UN : uround * 2 <= uround * INR n) by (apply Rmult_le_compat_l; lra).
  assert (UB : uround * INR n <= uround * 2147483647) by (apply Rmult_le_compat_l; lra).
  assert (UV : uround * 2147483647 <= / 1000) by (unfold uround; lra).
  pose proof HT' as HA. apply Rabs_le_inv in HA. unfold inside, fits. repeat split; lra.
Qed.

Lemma accurate_near M N val r s : 0 <= M -> 2 <= N -> accurate M val r ->
  Rabs (r - s) <= 2 * M * (5 * uround * N + 3 * tiny) -> accurate (N * M) val s.
Proof.
  intros PM HN (y & Ry & Hy) Hr. destruct tiny_u as [T0 T1]. destruct uround_val as [U0 U1].
  exists y. split; [exact Ry|].
  replace (/ 2 ^ 48) with (32 * uround) in * by (unfold uround; field).
  replace (y - s) with ((y - r) + (r - s)) by ring. eapply Rle_trans; [apply Rabs_triang|].
  assert (PUM : 0 <= uround * M) by (apply Rmult_le_pos; lra).
  assert (MT : 8 * (M * tiny) <= M * uround) by nra.
  assert (NU : uround * M * 2 <= uround * M * N) by (apply Rmult_le_compat_l; assumption).
  nra.
Qed.

Section Place.
  Context (lnF : PrimFloat.float -> PrimFloat.float).
  Local Notation O := (Fops lnF).

  Definition good_axis (ax : axis PrimFloat.float) (n : nat) (lo hi : R) : Prop :=
    forall x X, represents x X -> Rabs (position n lo hi X) <= 2147483648 ->
    exists t T, to_grid O ax x = Some t /\ represents t T /\
      Rabs (T - position n lo hi X) <= 5 * uround * Rabs (position n lo hi X) + tiny /\
      (0 <= position n lo hi X -> 0 <= T).

  Lemma well_inside_small n p : (Z.of_nat n <= INT_MAX)%Z -> well_inside n p -> Rabs p <= 2147483648.
  Proof.
    intros Bn [P0 P1]. rewrite Rabs_pos_eq by exact P0.
    assert (NB : INR n <= 2147483647) by (rewrite INR_IZR_INZ; apply IZR_le; exact Bn).
    assert (0 <= INR n / 2 ^ 50) by (apply Rle_mult_inv_pos; [apply pos_INR|lra]). lra.
  Qed.

  Lemma eval2_F v nx ny V M ax ay x0 x1 y0 y1 pts qs : stores2 v nx ny V M -> 0 <= M -> M <= bpow radix2 898 ->
    (2 <= nx)%nat -> (2 <= ny)%nat -> (Z.of_nat nx <= INT_MAX)%Z -> (Z.of_nat ny <= INT_MAX)%Z ->
    good_axis ax nx x0 x1 -> good_axis ay ny y0 y1 -> Forall2 stand2 pts qs ->
    Forall (fun q => well_inside nx (position nx x0 x1 (fst q)) /\ well_inside ny (position ny y0 y1 (snd q))) qs ->
    exists vals, eval2 O v ax ay pts = Ok vals /\
      Forall2 (fun q val => exists r, sampled2 nx ny V (position nx x0 x1 (fst q), position ny y0 y1 (snd q)) r /\
                 accurate (INR (nx + ny) * M) val r) qs vals.
  Proof.
    intros Hs PM HM Hnx Hny Bx By Ax Ay HP HF. unfold eval2. rewrite (proj1 Hs). rewrite !wrap_id by lia.
    induction HP as [|p q pts qs [Rx Ry] HP IH]; [exists []; split; [reflexivity|constructor]|].
    inversion HF as [|? ? [Wx Wy] HF']; subst. destruct (IH HF') as (vals & E & G). cbn [mapr].
    destruct (Ax _ _ Rx (well_inside_small _ _ Bx Wx)) as (t & T & Et & Rt & Ht & Pt).
    destruct (Ay _ _ Ry (well_inside_small _ _ By Wy)) as (s & S & Es & Rs & Hsn & Ps).
    destruct (well_inside_near _ _ _ Hnx Bx Wx Ht Pt) as (I1 & I2 & F1 & F2 & D1 & D2).
    destruct (well_inside_near _ _ _ Hny By Wy Hsn Ps) as (J1 & J2 & K1 & K2 & C1 & C2).
    rewrite Et, Es.
    destruct (point2_F lnF v nx ny V M t s T S Hs PM) as (val & r & Ev & Sr & Ar); try assumption.
    { eapply Rle_trans; [exact HM|]. apply bpow_le. lia. }
    rewrite Ev, E. exists (val :: vals). split; [reflexivity|]. constructor; [|exact G].
    destruct (real_at2 v nx ny V M _ _ Hs Bx By F1 K1) as (e & He). exists e. split; [exact He|].
    rewrite (sampled2_pw _ _ _ _ _ _ I1 J1 He). rewrite (sampled2_pw _ _ _ _ _ _ I2 J2 Sr) in Ar.
    apply (accurate_near M (INR (nx + ny)) val (pw2 V T S) _ PM); [rewrite plus_INR|exact Ar|].
    { assert (2 <= INR nx) by (change 2 with (INR 2); apply le_INR; exact Hnx). pose proof (pos_INR ny). lra. }
    eapply Rle_trans; [apply (pw2_lip nx ny V M); try assumption|].
    { intros i j Hi Hj. destruct (proj2 Hs i j Hi Hj) as (f & _ & _ & B). exact B. }
    apply Rmult_le_compat_l; [lra|]. rewrite plus_INR. destruct tiny_small. lra.
  Qed.

  Lemma eval3_F v nx ny nz mx my mz V M ax ay az x0 x1 y0 y1 z0 z1 pts qs : stores3 v nx ny nz V M -> 0 <= M -> M <= bpow radix2 898 ->
    (2 <= nx)%nat -> (2 <= ny)%nat -> (2 <= nz)%nat -> (Z.of_nat nx <= INT_MAX)%Z -> (Z.of_nat ny <= INT_MAX)%Z ->
    (Z.of_nat nz <= INT_MAX)%Z -> (Z.of_nat ny * Z.of_nat nz <= INT_MAX)%Z ->
    good_axis ax mx x0 x1 -> good_axis ay my y0 y1 -> good_axis az mz z0 z1 -> Forall2 stand3 pts qs ->
    Forall (fun q => well_inside nx (position mx x0 x1 (fst (fst q))) /\ well_inside ny (position my y0 y1 (snd (fst q))) /\
                     well_inside nz (position mz z0 z1 (snd q))) qs ->
    exists vals, eval3 O v ax ay az pts = Ok vals /\
      Forall2 (fun q val => exists r, sampled3 nx ny nz V (position mx x0 x1 (fst (fst q)), position my y0 y1 (snd (fst q)),
                   position mz z0 z1 (snd q)) r /\
                 accurate (INR (nx + ny + nz) * M) val r) qs vals.
  Proof.
    intros Hs PM HM Hnx Hny Hnz Bx By Bz Byz Ax Ay Az HP HF. unfold eval3. rewrite (proj1 Hs). rewrite !wrap_id by lia.
    rewrite c_int_ok by (unfold INT_MIN; nia). cbn [bind].
    induction HP as [|p q pts qs (Rx & Ry & Rz) HP IH]; [exists []; split; [reflexivity|constructor]|].
    inversion HF as [|? ? (Wx & Wy & Wz) HF']; subst. destruct (IH HF') as (vals & E & G). cbn [mapr].
    destruct (Ax _ _ Rx (well_inside_small _ _ Bx Wx)) as (t & T & Et & Rt & Ht & Pt).
    destruct (Ay _ _ Ry (well_inside_small _ _ By Wy)) as (s & S & Es & Rs & Hsn & Ps).
    destruct (Az _ _ Rz (well_inside_small _ _ Bz Wz)) as (w & W & Ew & Rw & Hw & Pw).
    destruct (well_inside_near _ _ _ Hnx Bx Wx Ht Pt) as (I1 & I2 & F1 & F2 & D1 & D2).
    destruct (well_inside_near _ _ _ Hny By Wy Hsn Ps) as (J1 & J2 & K1 & K2 & C1 & C2).
    destruct (well_inside_near _ _ _ Hnz Bz Wz Hw Pw) as (L1 & L2 & N1 & N2 & Q1 & Q2).
    rewrite Et, Es, Ew.
    destruct (point3_F lnF v nx ny nz V M t s w T S W Hs PM) as (val & r & Ev & Sr & Ar); try assumption.
    rewrite Ev, E. exists (val :: vals). split; [reflexivity|]. constructor; [|exact G].
    destruct (real_at3 v nx ny nz V M _ _ _ Hs Bx By Bz Byz F1 K1 N1) as (e & He). exists e. split; [exact He|].
    rewrite (sampled3_pw _ _ _ _ _ _ _ _ I1 J1 L1 He). rewrite (sampled3_pw _ _ _ _ _ _ _ _ I2 J2 L2 Sr) in Ar.
    apply (accurate_near M (INR (nx + ny + nz)) val (pw3 V T S W) _ PM); [rewrite !plus_INR|exact Ar|].
    { assert (2 <= INR nx) by (change 2 with (INR 2); apply le_INR; exact Hnx). pose proof (pos_INR ny). pose proof (pos_INR nz). lra. }
    eapply Rle_trans; [apply (pw3_lip nx ny nz V M); try assumption|].
    { intros i j k Hi Hj Hk. destruct (proj2 Hs i j k Hi Hj Hk) as (f & _ & _ & B). exact B. }
    apply Rmult_le_compat_l; [lra|]. rewrite !plus_INR. destruct tiny_small. lra.
  Qed.

  Lemma samples_get us n U M k : finite_samples us n U M -> (k < n)%nat ->
    exists f, get us k = Ok f /\ represents f (U k) /\ Rabs (U k) <= M.
  Proof. intros [_ H] Hk. destruct (H k Hk) as (f & E & R). exists f. unfold get. rewrite E. split; [reflexivity|exact R]. Qed.

  Lemma grid2_F (scp : scipy PrimFloat.float) name fn nx ny px py us ws U W M x0 x1 y0 y1 :
    case_variant name "grid" -> (2 <= nx)%nat -> (2 <= ny)%nat -> (Z.of_nat nx <= INT_MAX)%Z -> (Z.of_nat ny <= INT_MAX)%Z ->
    length px = (nx * ny)%nat -> length py = (nx * ny)%nat -> spans px x0 x1 -> spans py y0 y1 ->
    sane_extent x0 x1 -> sane_extent y0 y1 ->
    finite_samples us (nx * ny) U M -> finite_samples ws (nx * ny) W M -> 0 <= M -> M <= 2 ^ 898 ->
    exists i0 i1, create_interpolator O scp name (Some [nx; ny]) fn = Ok i0 /\
      update O scp i0 (Mat (nx * ny) [us; ws]) (Some (Mat (nx * ny) [px; py])) = (i1, Ok tt) /\
      forall mem pts qs, Forall2 stand2 pts qs ->
        Forall (fun q => well_inside nx (position nx x0 x1 (fst q)) /\ well_inside ny (position ny y0 y1 (snd q))) qs ->
        exists i2 out, interpolate O scp mem i1 (arr2 pts) = (i2, Ok (arr2 out)) /\
          Forall2 (fun q o =>
            (exists r, sampled2 nx ny (lattice2 nx U) (position nx x0 x1 (fst q), position ny y0 y1 (snd q)) r /\
               accurate (INR (nx + ny) * M) (fst o) r) /\
            (exists r, sampled2 nx ny (lattice2 nx W) (position nx x0 x1 (fst q), position ny y0 y1 (snd q)) r /\
               accurate (INR (nx + ny) * M) (snd o) r)) qs out.
  Proof.
    intros Hn Hnx Hny Bx By Lx Ly Sx Sy Ex Ey HU HW PM HM.
    rewrite pow_bpow in HM. change (Z.of_nat 898) with 898%Z in HM.
    destruct (extremes lnF px x0 x1 Sx) as (a & b & Ma & Mb & Ra & Rb).
    destruct (extremes lnF py y0 y1 Sy) as (c & d & Mc & Md & Rc & Rd).
    destruct (update2_holds O (highperf_new [nx; ny]) nx ny us ws px py a b c d eq_refl I ltac:(lia) ltac:(lia)
                Ma Mb Mc Md (proj1 HU) (proj1 HW) Lx Ly)
      as (o' & vx & vy & ax & ay & Eu & _ & Hh & Ax & Ay & _ & _ & Sh1 & Sh2 & G).
    exists (IHigh (highperf_new [nx; ny])), (IHigh o'). split; [apply create_grid; exact Hn|].
    split; [cbn [update]; rewrite Eu; reflexivity|].
    intros mem pts qs HP HF. destruct (interpolate2_eq O mem o' vx vy ax ay pts Hh) as (o2 & _ & E2).
    assert (GX : good_axis ax nx x0 x1) by (intros x X; exact (index_F lnF a b x0 x1 nx ax Hnx Bx Ra Rb Ex Ax x X)).
    assert (GY : good_axis ay ny y0 y1) by (intros x X; exact (index_F lnF c d y0 y1 ny ay Hny By Rc Rd Ey Ay x X)).
    assert (S1 : stores2 vx nx ny (lattice2 nx U) M).
    { split; [exact Sh1|]. intros i j Hi Hj. rewrite (proj1 (G i j Hi Hj)). apply (samples_get _ _ _ _ _ HU). unfold sample2. nia. }
    assert (S2 : stores2 vy nx ny (lattice2 nx W) M).
    { split; [exact Sh2|]. intros i j Hi Hj. rewrite (proj2 (G i j Hi Hj)). apply (samples_get _ _ _ _ _ HW). unfold sample2. nia. }
    destruct (eval2_F _ _ _ _ _ _ _ _ _ _ _ _ _ S1 PM HM Hnx Hny Bx By GX GY HP HF) as (vs1 & V1 & F1).
    destruct (eval2_F _ _ _ _ _ _ _ _ _ _ _ _ _ S2 PM HM Hnx Hny Bx By GX GY HP HF) as (vs2 & V2 & F2).
    exists (IHigh o2), (combine vs1 vs2). split.
    - cbn [interpolate]. rewrite E2, V1, V2. reflexivity.
    - exact (Forall2_combine _ _ _ _ _ F1 F2).
  Qed.

  Lemma grid3_F (scp : scipy PrimFloat.float) name fn nx ny nz px py pz us ws ts U W T M x0 x1 y0 y1 z0 z1 :
    case_variant name "grid" -> (2 <= nx)%nat -> (2 <= ny)%nat -> (2 <= nz)%nat ->
    (Z.of_nat nx <= INT_MAX)%Z -> (Z.of_nat ny <= INT_MAX)%Z -> (Z.of_nat nz <= INT_MAX)%Z ->
    (Z.of_nat nx * Z.of_nat nz <= INT_MAX)%Z ->
    length px = (nx * ny * nz)%nat -> length py = (nx * ny * nz)%nat -> length pz = (nx * ny * nz)%nat ->
    spans px x0 x1 -> spans py y0 y1 -> spans pz z0 z1 -> sane_extent x0 x1 -> sane_extent y0 y1 -> sane_extent z0 z1 ->
    finite_samples us (nx * ny * nz) U M -> finite_samples ws (nx * ny * nz) W M -> finite_samples ts (nx * ny * nz) T M ->
    0 <= M -> M <= 2 ^ 898 ->
    exists i0 i1, create_interpolator O scp name (Some [nx; ny; nz]) fn = Ok i0 /\
      update O scp i0 (Mat (nx * ny * nz) [us; ws; ts]) (Some (Mat (nx * ny * nz) [px; py; pz])) = (i1, Ok tt) /\
      forall mem pts qs, Forall2 stand3 pts qs ->
        Forall (fun q => well_inside ny (position nx x0 x1 (fst (fst q))) /\ well_inside nx (position ny y0 y1 (snd (fst q))) /\
                         well_inside nz (position nz z0 z1 (snd q))) qs ->
        exists i2 out, interpolate O scp mem i1 (arr3 pts) = (i2, Ok (arr3 out)) /\
          Forall2 (fun q o => let p := (position nx x0 x1 (fst (fst q)), position ny y0 y1 (snd (fst q)), position nz z0 z1 (snd q)) in
            (exists r, sampled3 ny nx nz (lattice3 ny nz U) p r /\ accurate (INR (ny + nx + nz) * M) (fst (fst o)) r) /\
            (exists r, sampled3 ny nx nz (lattice3 ny nz W) p r /\ accurate (INR (ny + nx + nz) * M) (snd (fst o)) r) /\
            (exists r, sampled3 ny nx nz (lattice3 ny nz T) p r /\ accurate (INR (ny + nx + nz) * M) (snd o) r)) qs out.
  Proof.
    intros Hn Hnx Hny Hnz Bx By Bz Bxz Lx Ly Lz Sx Sy Sz Ex Ey Ez HU HW HT PM HM.
    rewrite pow_bpow in HM. change (Z.of_nat 898) with 898%Z in HM.
    destruct (extremes lnF px x0 x1 Sx) as (a & b & Ma & Mb & Ra & Rb).
    destruct (extremes lnF py y0 y1 Sy) as (c & d & Mc & Md & Rc & Rd).
    destruct (extremes lnF pz z0 z1 Sz) as (e & f & Me & Mf & Re & Rf).
    destruct (update3_holds O (highperf_new [nx; ny; nz]) nx ny nz us ws ts px py pz a b c d e f eq_refl I ltac:(lia) ltac:(lia) ltac:(lia)
                Ma Mb Mc Md Me Mf (proj1 HU) (proj1 HW) (proj1 HT) Lx Ly Lz)
      as (o' & vx & vy & vz & ax & ay & az & Eu & _ & _ & Hh & Ax & Ay & Az & _ & _ & _ & Sh1 & Sh2 & Sh3 & G).
    exists (IHigh (highperf_new [nx; ny; nz])), (IHigh o'). split; [apply create_grid; exact Hn|].
    split; [cbn [update]; rewrite Eu; reflexivity|].
    intros mem pts qs HP HF. destruct (interpolate3_eq O mem o' vx vy vz ax ay az pts Hh) as (o2 & _ & E2).
    assert (GX : good_axis ax nx x0 x1) by (intros x X; exact (index_F lnF a b x0 x1 nx ax Hnx Bx Ra Rb Ex Ax x X)).
    assert (GY : good_axis ay ny y0 y1) by (intros x X; exact (index_F lnF c d y0 y1 ny ay Hny By Rc Rd Ey Ay x X)).
    assert (GZ : good_axis az nz z0 z1) by (intros x X; exact (index_F lnF e f z0 z1 nz az Hnz Bz Re Rf Ez Az x X)).
    assert (Q : forall i j k, (i < ny)%nat -> (j < nx)%nat -> (k < nz)%nat -> (sample3 ny nz i j k < nx * ny * nz)%nat).
    { intros i j k Hi Hj Hk. unfold sample3. assert (j * ny + i < nx * ny)%nat by nia. nia. }
    assert (S1 : stores3 vx ny nx nz (lattice3 ny nz U) M).
    { split; [exact Sh1|]. intros i j k Hi Hj Hk. rewrite (proj1 (G i j k Hi Hj Hk)). apply (samples_get _ _ _ _ _ HU). apply Q; assumption. }
    assert (S2 : stores3 vy ny nx nz (lattice3 ny nz W) M).
    { split; [exact Sh2|]. intros i j k Hi Hj Hk. rewrite (proj1 (proj2 (G i j k Hi Hj Hk))). apply (samples_get _ _ _ _ _ HW). apply Q; assumption. }
    assert (S3 : stores3 vz ny nx nz (lattice3 ny nz T) M).
    { split; [exact Sh3|]. intros i j k Hi Hj Hk. rewrite (proj2 (proj2 (G i j k Hi Hj Hk))). apply (samples_get _ _ _ _ _ HT). apply Q; assumption. }
    destruct (eval3_F _ _ _ _ _ _ _ _ _ _ _ _ _ _ _ _ _ _ _ _ S1 PM HM Hny Hnx Hnz By Bx Bz Bxz GX GY GZ HP HF) as (vs1 & V1 & F1).
    destruct (eval3_F _ _ _ _ _ _ _ _ _ _ _ _ _ _ _ _ _ _ _ _ S2 PM HM Hny Hnx Hnz By Bx Bz Bxz GX GY GZ HP HF) as (vs2 & V2 & F2).
    destruct (eval3_F _ _ _ _ _ _ _ _ _ _ _ _ _ _ _ _ _ _ _ _ S3 PM HM Hny Hnx Hnz By Bx Bz Bxz GX GY GZ HP HF) as (vs3 & V3 & F3).
    exists (IHigh o2), (combine (combine vs1 vs2) vs3). split.
    - cbn [interpolate]. rewrite E2, V1, V2, V3. reflexivity.
    - exact (Forall2_combine3 _ _ _ _ _ _ _ F1 F2 F3).
  Qed.
End Place.
