(** Lemmas about the C++ kernels. *)
From Coq Require Import Reals Lra Lia.
From Verif Require Import Base Num NdArray GridInterp SpecGrid SpecKernel NdFacts.
Local Arguments Nat.ltb : simpl never.

Lemma c_int_ok z : (INT_MIN <= z <= INT_MAX)%Z -> c_int z = Ok z.
Proof.
  intros H. unfold c_int, fits_int.
  destruct (Z.leb_spec INT_MIN z), (Z.leb_spec z INT_MAX); try lia. reflexivity.
Qed.

Lemma wrap_le z : (0 <= z)%Z -> (int_of_ssize z <= z)%Z.
Proof.
  intros H. unfold int_of_ssize.
  pose proof (Z.mod_le (z + 2147483648) 4294967296 ltac:(lia) ltac:(lia)). lia.
Qed.

Lemma wrap_id z : (0 <= z <= INT_MAX)%Z -> int_of_ssize z = z.
Proof. unfold INT_MAX. intros H. unfold int_of_ssize. rewrite Z.mod_small by lia. lia. Qed.

Lemma ptr_get_ok {A} (l : list A) k :
  (0 <= k < Z.of_nat (length l))%Z -> exists a, ptr_get l k = Ok a.
Proof.
  intros H. unfold ptr_get. destruct (Z.ltb_spec k 0); [lia|]. unfold cget.
  destruct (nth_error l (Z.to_nat k)) eqn:E; [eauto|]. apply nth_error_None in E. lia.
Qed.

Section Safety.
  Context {T : Type} (O : ops T).

  Local Notation c_fits := (c_fits O).

  Lemma floor_ok p : c_fits p ->
    exists z, floor_int O p = Ok z /\ c_int (z + 1) = Ok (z + 1)%Z /\ exists d, frac O p z = Ok d.
  Proof.
    intros [x [z [-> [Hf Hz]]]]. exists z. unfold floor_int. rewrite Hf.
    rewrite (c_int_ok z), (c_int_ok (z + 1)) by lia. repeat split. eexists. reflexivity.
  Qed.

  Lemma point2_safe v (sx sy : nat) px py :
    length v = sx * sy -> c_fits px -> c_fits py ->
    exists a, interp2d_point O v (int_of_ssize (Z.of_nat sx)) (int_of_ssize (Z.of_nat sy)) px py = Ok a.
  Proof.
    intros Hl Hx Hy.
    destruct (floor_ok _ Hx) as [x0 [Fx [Cx [dx Dx]]]].
    destruct (floor_ok _ Hy) as [y0 [Fy [Cy [dy Dy]]]].
    unfold interp2d_point. rewrite Fx, Fy. cbn [bind]. rewrite Cx, Cy. cbn [bind].
    rewrite Dx, Dy. cbn [bind].
    pose proof (wrap_le (Z.of_nat sx) ltac:(lia)) as Wx.
    pose proof (wrap_le (Z.of_nat sy) ltac:(lia)) as Wy.
    set (nx := int_of_ssize (Z.of_nat sx)) in *. set (ny := int_of_ssize (Z.of_nat sy)) in *.
    clearbody nx ny.
    destruct ((0 <=? x0) && (x0 + 1 <? nx) && (0 <=? y0) && (y0 + 1 <? ny))%Z eqn:E; [|eauto].
    rewrite !andb_true_iff, !Z.leb_le, !Z.ltb_lt in E. destruct E as [[[A B] C] D].
    assert (L : forall xi yi, (0 <= xi < nx)%Z -> (0 <= yi < ny)%Z ->
      exists a, ptr_get v (xi * ny + yi) = Ok a).
    { intros xi yi H1 H2. apply ptr_get_ok. rewrite Hl, Nat2Z.inj_mul. nia. }
    destruct (L x0 y0) as [? ->]; [lia|lia|]. destruct (L (x0 + 1)%Z y0) as [? ->]; [lia|lia|].
    destruct (L x0 (y0 + 1)%Z) as [? ->]; [lia|lia|].
    destruct (L (x0 + 1)%Z (y0 + 1)%Z) as [? ->]; [lia|lia|].
    cbn [bind]. eauto.
  Qed.

  Lemma point3_safe v (sx sy sz : nat) px py pz :
    length v = sx * sy * sz -> c_fits px -> c_fits py -> c_fits pz ->
    exists a, interp3d_point O v (int_of_ssize (Z.of_nat sx)) (int_of_ssize (Z.of_nat sy))
      (int_of_ssize (Z.of_nat sz)) (int_of_ssize (Z.of_nat sy) * int_of_ssize (Z.of_nat sz)) px py pz = Ok a.
  Proof.
    intros Hl Hx Hy Hz.
    destruct (floor_ok _ Hx) as [x0 [Fx [Cx [dx Dx]]]].
    destruct (floor_ok _ Hy) as [y0 [Fy [Cy [dy Dy]]]].
    destruct (floor_ok _ Hz) as [z0 [Fz [Cz [dz Dz]]]].
    unfold interp3d_point. rewrite Fx, Fy, Fz. cbn [bind]. rewrite Cx, Cy, Cz. cbn [bind].
    rewrite Dx, Dy, Dz. cbn [bind].
    pose proof (wrap_le (Z.of_nat sx) ltac:(lia)) as Wx.
    pose proof (wrap_le (Z.of_nat sy) ltac:(lia)) as Wy.
    pose proof (wrap_le (Z.of_nat sz) ltac:(lia)) as Wz.
    set (nx := int_of_ssize (Z.of_nat sx)) in *. set (ny := int_of_ssize (Z.of_nat sy)) in *.
    set (nz := int_of_ssize (Z.of_nat sz)) in *.
    clearbody nx ny nz.
    destruct ((0 <=? x0) && (x0 + 1 <? nx) && (0 <=? y0) && (y0 + 1 <? ny) && (0 <=? z0) && (z0 + 1 <? nz))%Z
      eqn:E; [|eauto].
    rewrite !andb_true_iff, !Z.leb_le, !Z.ltb_lt in E. destruct E as [[[[[A B] C] D] E] F].
    assert (L : forall xi yi zi, (0 <= xi < nx)%Z -> (0 <= yi < ny)%Z -> (0 <= zi < nz)%Z ->
      exists a, ptr_get v (xi * (ny * nz) + yi * nz + zi) = Ok a).
    { intros xi yi zi H1 H2 H3. apply ptr_get_ok. rewrite Hl, !Nat2Z.inj_mul.
      assert (ny * nz <= Z.of_nat sy * Z.of_nat sz)%Z by nia.
      assert (yi * nz + zi < ny * nz)%Z by nia.
      assert (0 <= ny * nz)%Z by nia. assert (0 <= yi * nz)%Z by nia.
      set (P := (ny * nz)%Z) in *. set (Q := (Z.of_nat sy * Z.of_nat sz)%Z) in *.
      set (W := (yi * nz)%Z) in *.
      replace (Z.of_nat sx * Z.of_nat sy * Z.of_nat sz)%Z with (Z.of_nat sx * Q)%Z by (unfold Q; ring).
      clearbody P Q W. split; [nia|].
      assert (xi * P + P <= Z.of_nat sx * P)%Z by nia.
      assert (Z.of_nat sx * P <= Z.of_nat sx * Q)%Z by nia. lia. }
    destruct (L x0 y0 z0) as [? ->]; [lia|lia|lia|].
    destruct (L (x0 + 1)%Z y0 z0) as [? ->]; [lia|lia|lia|].
    destruct (L x0 y0 (z0 + 1)%Z) as [? ->]; [lia|lia|lia|].
    destruct (L (x0 + 1)%Z y0 (z0 + 1)%Z) as [? ->]; [lia|lia|lia|].
    destruct (L x0 (y0 + 1)%Z z0) as [? ->]; [lia|lia|lia|].
    destruct (L (x0 + 1)%Z (y0 + 1)%Z z0) as [? ->]; [lia|lia|lia|].
    destruct (L x0 (y0 + 1)%Z (z0 + 1)%Z) as [? ->]; [lia|lia|lia|].
    destruct (L (x0 + 1)%Z (y0 + 1)%Z (z0 + 1)%Z) as [? ->]; [lia|lia|lia|].
    cbn [bind]. eauto.
  Qed.

  (** C27, two dimensions: any shape, any points whose cells fit a C int. *)
  Lemma kernel2_safe (v : nd T) sx sy (pts : list (option T * option T)) out :
    shape v = [sx; sy] -> wf_nd v -> length out = length pts ->
    Forall (fun p => c_fits (fst p) /\ c_fits (snd p)) pts ->
    exists vals, interp2d_vec_inplace O v (Mat 2 (map (fun p => [fst p; snd p]) pts)) out = Ok vals /\
      length vals = length out.
  Proof.
    intros Hs Hw Hl Hp. unfold interp2d_vec_inplace. rewrite Hs. cbn [mcols mrows nrows].
    unfold nrows. cbn [mrows Nat.eqb negb]. rewrite map_length, <- Hl, Nat.eqb_refl. cbn [negb].
    rewrite mapr_map. cbn [cget nth_error bind].
    destruct (mapr_total (fun a => interp2d_point O (data v) (int_of_ssize (Z.of_nat sx))
      (int_of_ssize (Z.of_nat sy)) (fst a) (snd a)) pts) as [vals Hv].
    - intros p Hin. rewrite Forall_forall in Hp. destruct (Hp p Hin) as [H1 H2].
      apply point2_safe; [|assumption|assumption]. unfold wf_nd in Hw. rewrite Hw, Hs. cbn. lia.
    - exists vals. split; [exact Hv|]. rewrite (mapr_len _ _ _ Hv). symmetry. exact Hl.
  Qed.

  Lemma kernel3_safe (v : nd T) sx sy sz (pts : list (option T * option T * option T)) out :
    shape v = [sx; sy; sz] -> wf_nd v -> length out = length pts ->
    (Z.of_nat sy <= INT_MAX)%Z -> (Z.of_nat sz <= INT_MAX)%Z -> (Z.of_nat sy * Z.of_nat sz <= INT_MAX)%Z ->
    Forall (fun p => c_fits (fst (fst p)) /\ c_fits (snd (fst p)) /\ c_fits (snd p)) pts ->
    exists vals, interp3d_vec_inplace O v
        (Mat 3 (map (fun p => [fst (fst p); snd (fst p); snd p]) pts)) out = Ok vals /\
      length vals = length out.
  Proof.
    intros Hs Hw Hl By Bz Byz Hp. unfold interp3d_vec_inplace. rewrite Hs. cbn [mcols mrows nrows].
    unfold nrows. cbn [mrows Nat.eqb negb]. rewrite map_length, <- Hl, Nat.eqb_refl. cbn [negb].
    rewrite (c_int_ok (int_of_ssize (Z.of_nat sy) * int_of_ssize (Z.of_nat sz)))
      by (rewrite !wrap_id by lia; unfold INT_MIN; nia).
    cbn [bind]. rewrite mapr_map. cbn [cget nth_error bind].
    destruct (mapr_total (fun a => interp3d_point O (data v) (int_of_ssize (Z.of_nat sx))
      (int_of_ssize (Z.of_nat sy)) (int_of_ssize (Z.of_nat sz))
      (int_of_ssize (Z.of_nat sy) * int_of_ssize (Z.of_nat sz)) (fst (fst a)) (snd (fst a)) (snd a)) pts)
      as [vals Hv].
    - intros p Hin. rewrite Forall_forall in Hp. destruct (Hp p Hin) as [H1 [H2 H3]].
      apply point3_safe; try assumption. unfold wf_nd in Hw. rewrite Hw, Hs. cbn. lia.
    - exists vals. split; [exact Hv|]. rewrite (mapr_len _ _ _ Hv). symmetry. exact Hl.
  Qed.

  (** A product of the last two dimensions beyond the range of int is undefined behaviour,
      even for an empty grid and without any query. *)
  Lemma kernel3_overflow (v : nd T) sx sy sz out :
    shape v = [sx; sy; sz] -> (Z.of_nat sy <= INT_MAX)%Z -> (Z.of_nat sz <= INT_MAX)%Z ->
    (INT_MAX < Z.of_nat sy * Z.of_nat sz)%Z ->
    forall pts, length out = length pts ->
    interp3d_vec_inplace O v (Mat 3 pts) out = Err UndefinedBehaviour.
  Proof.
    intros Hs By Bz Hyz pts Hl. unfold interp3d_vec_inplace. rewrite Hs. cbn [mcols].
    unfold nrows. cbn [mrows Nat.eqb negb]. rewrite <- Hl, Nat.eqb_refl. cbn [negb].
    rewrite !wrap_id by lia.
    unfold c_int, fits_int. destruct (Z.leb_spec INT_MIN (Z.of_nat sy * Z.of_nat sz));
      destruct (Z.leb_spec (Z.of_nat sy * Z.of_nat sz) INT_MAX); try lia; reflexivity.
  Qed.

  (** A query that is not finite, or whose cell does not fit, is undefined behaviour. *)
  Lemma kernel2_unfit (v : nd T) sx sy px py out :
    shape v = [sx; sy] -> length out = 1 ->
    ~ c_fits px \/ ~ c_fits py ->
    interp2d_vec_inplace O v (Mat 2 [[px; py]]) out = Err UndefinedBehaviour.
  Proof.
    intros Hs Hl H. unfold interp2d_vec_inplace. rewrite Hs. cbn [mcols mrows nrows].
    unfold nrows. cbn [mrows length]. rewrite Hl. cbn [Nat.eqb negb mapr cget nth_error bind].
    assert (G : forall p, ~ c_fits p ->
      floor_int O p = Err UndefinedBehaviour \/
      exists z, floor_int O p = Ok z /\ c_int (z + 1) = Err UndefinedBehaviour).
    { intros [x|] Hx; cbn; [|left; reflexivity].
      destruct (o_floor O x) as [z|] eqn:F; [|left; reflexivity].
      unfold c_int at 1, fits_int.
      destruct (Z.leb_spec INT_MIN z); destruct (Z.leb_spec z INT_MAX); cbn [andb];
        try (left; reflexivity).
      right. exists z. unfold c_int, fits_int.
      destruct (Z.leb_spec INT_MIN z); destruct (Z.leb_spec z INT_MAX); try lia. cbn [andb].
      split; [reflexivity|].
      destruct (Z.leb_spec (z + 1) INT_MAX); [|rewrite andb_false_r; reflexivity].
      exfalso. apply Hx. exists x, z. repeat split; [exact F|lia|lia]. }
    assert (D : forall p, c_fits p \/ ~ c_fits p).
    { intros [x|]; [|right; intros [x [z [E _]]]; discriminate].
      destruct (o_floor O x) as [z|] eqn:F.
      - destruct (Z_le_dec INT_MIN z) as [A|A], (Z_lt_dec z INT_MAX) as [B|B].
        + left. exists x, z. auto.
        + right. intros [x' [z' [E [F' Hz]]]]. injection E as <-. rewrite F in F'. injection F' as <-. lia.
        + right. intros [x' [z' [E [F' Hz]]]]. injection E as <-. rewrite F in F'. injection F' as <-. lia.
        + right. intros [x' [z' [E [F' Hz]]]]. injection E as <-. rewrite F in F'. injection F' as <-. lia.
      - right. intros [x' [z' [E [F' Hz]]]]. injection E as <-. congruence. }
    unfold interp2d_point. destruct (D px) as [Hx|Hx].
    - destruct H as [H|H]; [contradiction|].
      destruct (floor_ok _ Hx) as [x0 [Fx [Cx _]]]. rewrite Fx. cbn [bind].
      destruct (G _ H) as [E|[z [E1 E2]]].
      + rewrite E. reflexivity.
      + rewrite E1. cbn [bind]. rewrite Cx. cbn [bind]. rewrite E2. reflexivity.
    - destruct (G _ Hx) as [E|[z [E1 E2]]].
      + rewrite E. reflexivity.
      + rewrite E1. cbn [bind].
        destruct (D py) as [Hy|Hy].
        * destruct (floor_ok _ Hy) as [y0 [Fy [Cy _]]]. rewrite Fy. cbn [bind]. rewrite E2. reflexivity.
        * destruct (G _ Hy) as [E|[z' [E1' E2']]].
          -- rewrite E. reflexivity.
          -- rewrite E1'. cbn [bind]. rewrite E2. reflexivity.
  Qed.
End Safety.

(* ---------------------------------------------------------------- *)
Section Values.
  Local Open Scope R_scope.

  Lemma Int_part_unique x z : IZR z <= x < IZR z + 1 -> Int_part x = z.
  Proof.
    intros H. unfold Int_part. rewrite <- (tech_up x (z + 1)); [lia| |]; rewrite plus_IZR; lra.
  Qed.

  Lemma fits_c_fits x : fits x -> c_fits Rops (Some x).
  Proof.
    intros [H1 H2]. exists x, (Int_part x). split; [reflexivity|]. split; [reflexivity|].
    destruct (base_Int_part x) as [A B]. unfold INT_MIN, INT_MAX.
    split.
    - assert (IZR (-2147483648) < IZR (Int_part x) + 1) by lra.
      rewrite <- plus_IZR in H. apply lt_IZR in H. lia.
    - apply lt_IZR. lra.
  Qed.

  Lemma floor_R x z : fits x -> Int_part x = z ->
    floor_int Rops (Some x) = Ok z /\ c_int (z + 1) = Ok (z + 1)%Z /\ frac Rops (Some x) z = Ok (x - IZR z).
  Proof.
    intros Hf Hz. destruct (fits_c_fits _ Hf) as [x' [z' [E [F B]]]]. injection E as <-.
    cbn in F. injection F as F. rewrite Hz in F. subst z'. unfold floor_int. cbn. rewrite Hz.
    rewrite !c_int_ok by lia. auto.
  Qed.

  (** Reading the flat array. *)
  Lemma ptr_get_nd2 (v : nd R) sx sy i j a :
    shape v = [sx; sy] -> nd_get v [i; j] = Ok a ->
    ptr_get (data v) (Z.of_nat i * Z.of_nat sy + Z.of_nat j) = Ok a.
  Proof.
    intros Hs. unfold nd_get. rewrite Hs. destruct (in_bounds _ _); [|discriminate].
    cbn [c_ravel size]. unfold get, ptr_get, cget.
    destruct (Z.ltb_spec (Z.of_nat i * Z.of_nat sy + Z.of_nat j) 0); [lia|].
    replace (Z.to_nat (Z.of_nat i * Z.of_nat sy + Z.of_nat j)) with (i * (sy * 1) + (j * 1 + 0))%nat by lia.
    destruct (nth_error _ _); congruence.
  Qed.

  Lemma ptr_get_nd3 (v : nd R) sx sy sz i j k a :
    shape v = [sx; sy; sz] -> nd_get v [i; j; k] = Ok a ->
    ptr_get (data v) (Z.of_nat i * (Z.of_nat sy * Z.of_nat sz) + Z.of_nat j * Z.of_nat sz + Z.of_nat k) = Ok a.
  Proof.
    intros Hs. unfold nd_get. rewrite Hs. destruct (in_bounds _ _); [|discriminate].
    cbn [c_ravel size]. unfold get, ptr_get, cget.
    destruct (Z.ltb_spec (Z.of_nat i * (Z.of_nat sy * Z.of_nat sz) + Z.of_nat j * Z.of_nat sz + Z.of_nat k) 0);
      [lia|].
    replace (Z.to_nat (Z.of_nat i * (Z.of_nat sy * Z.of_nat sz) + Z.of_nat j * Z.of_nat sz + Z.of_nat k))
      with (i * (sy * (sz * 1)) + (j * (sz * 1) + (k * 1 + 0)))%nat by lia.
    destruct (nth_error _ _); congruence.
  Qed.

  (** The natural cell of a coordinate inside the lattice. *)
  Lemma cell n x : inside n x -> exists i, (i + 1 < n)%nat /\ INR i <= x < INR i + 1 /\ Int_part x = Z.of_nat i.
  Proof.
    intros [H1 H2]. destruct (base_Int_part x) as [A B].
    assert (P : (0 <= Int_part x)%Z).
    { assert (IZR (-1) < IZR (Int_part x)) by lra. apply lt_IZR in H. lia. }
    exists (Z.to_nat (Int_part x)).
    assert (E : INR (Z.to_nat (Int_part x)) = IZR (Int_part x)).
    { rewrite INR_IZR_INZ, Z2Nat.id by exact P. reflexivity. }
    rewrite E, Z2Nat.id by exact P. repeat split; try lra.
    apply INR_lt. rewrite plus_INR, E. cbn. lra.
  Qed.

  Lemma cell_unique i x : INR i <= x < INR i + 1 -> Int_part x = Z.of_nat i.
  Proof. intros H. apply Int_part_unique. rewrite <- INR_IZR_INZ. exact H. Qed.

  (** Value of the 2-D kernel at a point inside. *)
  Lemma point2_inside v sx sy V x y :
    shape v = [sx; sy] ->
    (forall i j, (i < sx)%nat -> (j < sy)%nat -> nd_get v [i; j] = Ok (V i j)) ->
    fits x -> fits y -> inside sx x -> inside sy y ->
    exists i j, (i + 1 < sx)%nat /\ (j + 1 < sy)%nat /\ INR i <= x < INR i + 1 /\ INR j <= y < INR j + 1 /\
    interp2d_point Rops (data v) (Z.of_nat sx) (Z.of_nat sy) (Some x) (Some y) =
      Ok (V i j * (1 - (x - INR i)) * (1 - (y - INR j)) + V (i+1)%nat j * (x - INR i) * (1 - (y - INR j))
          + V i (j+1)%nat * (1 - (x - INR i)) * (y - INR j) + V (i+1)%nat (j+1)%nat * (x - INR i) * (y - INR j)).
  Proof.
    intros Hs HV Fx Fy Ix Iy.
    destruct (cell _ _ Ix) as [i [Hi [Bi Ei]]]. destruct (cell _ _ Iy) as [j [Hj [Bj Ej]]].
    exists i, j. repeat (split; [assumption|]).
    destruct (floor_R _ _ Fx Ei) as [F1 [C1 D1]]. destruct (floor_R _ _ Fy Ej) as [F2 [C2 D2]].
    unfold interp2d_point. rewrite F1, F2. cbn [bind]. rewrite C1, C2. cbn [bind]. rewrite D1, D2. cbn [bind].
    replace ((0 <=? Z.of_nat i) && (Z.of_nat i + 1 <? Z.of_nat sx) && (0 <=? Z.of_nat j)
             && (Z.of_nat j + 1 <? Z.of_nat sy))%Z with true
      by (symmetry; rewrite !andb_true_iff, !Z.leb_le, !Z.ltb_lt; lia).
    assert (L : forall a b, (a < sx)%nat -> (b < sy)%nat ->
      ptr_get (data v) (Z.of_nat a * Z.of_nat sy + Z.of_nat b) = Ok (V a b)).
    { intros a b Ha Hb. eapply ptr_get_nd2; [exact Hs|]. apply HV; assumption. }
    replace (Z.of_nat i + 1)%Z with (Z.of_nat (i + 1)) by lia.
    replace (Z.of_nat j + 1)%Z with (Z.of_nat (j + 1)) by lia.
    rewrite !L by lia. cbn [bind]. rewrite <- !INR_IZR_INZ. reflexivity.
  Qed.

  Lemma point3_inside v sx sy sz V x y z :
    shape v = [sx; sy; sz] ->
    (forall i j k, (i < sx)%nat -> (j < sy)%nat -> (k < sz)%nat -> nd_get v [i; j; k] = Ok (V i j k)) ->
    fits x -> fits y -> fits z -> inside sx x -> inside sy y -> inside sz z ->
    exists i j k, (i + 1 < sx)%nat /\ (j + 1 < sy)%nat /\ (k + 1 < sz)%nat /\
    INR i <= x < INR i + 1 /\ INR j <= y < INR j + 1 /\ INR k <= z < INR k + 1 /\
    let xd := x - INR i in let yd := y - INR j in let zd := z - INR k in
    let L := lerp Rops in
    interp3d_point Rops (data v) (Z.of_nat sx) (Z.of_nat sy) (Z.of_nat sz) (Z.of_nat sy * Z.of_nat sz)
      (Some x) (Some y) (Some z) =
      Ok (L (L (L (V i j k) (V (i+1)%nat j k) xd) (L (V i (j+1)%nat k) (V (i+1)%nat (j+1)%nat k) xd) yd)
            (L (L (V i j (k+1)%nat) (V (i+1)%nat j (k+1)%nat) xd)
               (L (V i (j+1)%nat (k+1)%nat) (V (i+1)%nat (j+1)%nat (k+1)%nat) xd) yd) zd).
  Proof.
    intros Hs HV Fx Fy Fz Ix Iy Iz.
    destruct (cell _ _ Ix) as [i [Hi [Bi Ei]]]. destruct (cell _ _ Iy) as [j [Hj [Bj Ej]]].
    destruct (cell _ _ Iz) as [k [Hk [Bk Ek]]].
    exists i, j, k. repeat (split; [assumption|]). cbv zeta.
    destruct (floor_R _ _ Fx Ei) as [F1 [C1 D1]]. destruct (floor_R _ _ Fy Ej) as [F2 [C2 D2]].
    destruct (floor_R _ _ Fz Ek) as [F3 [C3 D3]].
    unfold interp3d_point. rewrite F1, F2, F3. cbn [bind]. rewrite C1, C2, C3. cbn [bind].
    rewrite D1, D2, D3. cbn [bind].
    replace ((0 <=? Z.of_nat i) && (Z.of_nat i + 1 <? Z.of_nat sx) && (0 <=? Z.of_nat j)
             && (Z.of_nat j + 1 <? Z.of_nat sy) && (0 <=? Z.of_nat k) && (Z.of_nat k + 1 <? Z.of_nat sz))%Z
      with true by (symmetry; rewrite !andb_true_iff, !Z.leb_le, !Z.ltb_lt; lia).
    assert (L : forall a b c, (a < sx)%nat -> (b < sy)%nat -> (c < sz)%nat ->
      ptr_get (data v) (Z.of_nat a * (Z.of_nat sy * Z.of_nat sz) + Z.of_nat b * Z.of_nat sz + Z.of_nat c)
      = Ok (V a b c)).
    { intros a b c Ha Hb Hc. eapply ptr_get_nd3; [exact Hs|]. apply HV; assumption. }
    replace (Z.of_nat i + 1)%Z with (Z.of_nat (i + 1)) by lia.
    replace (Z.of_nat j + 1)%Z with (Z.of_nat (j + 1)) by lia.
    replace (Z.of_nat k + 1)%Z with (Z.of_nat (k + 1)) by lia.
    rewrite !L by lia. cbn [bind]. rewrite <- !INR_IZR_INZ. reflexivity.
  Qed.

  (** Off the lattice, or on its last line. *)

  Lemma beyond_cell n x : beyond n x -> ((0 <=? Int_part x) && (Int_part x + 1 <? Z.of_nat n))%Z = false.
  Proof.
    intros H. destruct (base_Int_part x) as [A B]. apply andb_false_iff. destruct H as [H|H].
    - left. apply Z.leb_gt. apply lt_IZR. lra.
    - right. apply Z.ltb_ge. apply Z.lt_succ_r. apply lt_IZR. rewrite <- Z.add_1_r, !plus_IZR, <- INR_IZR_INZ. lra.
  Qed.

  Lemma point2_beyond v sx sy x y :
    fits x -> fits y -> beyond sx x \/ beyond sy y ->
    interp2d_point Rops v (Z.of_nat sx) (Z.of_nat sy) (Some x) (Some y) = Ok 0.
  Proof.
    intros Fx Fy H.
    destruct (floor_R _ _ Fx eq_refl) as [F1 [C1 D1]]. destruct (floor_R _ _ Fy eq_refl) as [F2 [C2 D2]].
    unfold interp2d_point. rewrite F1, F2. cbn [bind]. rewrite C1, C2. cbn [bind]. rewrite D1, D2. cbn [bind].
    replace ((0 <=? Int_part x) && (Int_part x + 1 <? Z.of_nat sx) && (0 <=? Int_part y)
             && (Int_part y + 1 <? Z.of_nat sy))%Z with false; [reflexivity|].
    symmetry. destruct H as [H|H]; apply beyond_cell in H.
    - rewrite H. reflexivity.
    - rewrite <- andb_assoc, H. apply andb_false_r.
  Qed.

  Lemma point3_beyond v sx sy sz YZ x y z :
    fits x -> fits y -> fits z -> beyond sx x \/ beyond sy y \/ beyond sz z ->
    interp3d_point Rops v (Z.of_nat sx) (Z.of_nat sy) (Z.of_nat sz) YZ (Some x) (Some y) (Some z) = Ok 0.
  Proof.
    intros Fx Fy Fz H.
    destruct (floor_R _ _ Fx eq_refl) as [F1 [C1 D1]]. destruct (floor_R _ _ Fy eq_refl) as [F2 [C2 D2]].
    destruct (floor_R _ _ Fz eq_refl) as [F3 [C3 D3]].
    unfold interp3d_point. rewrite F1, F2, F3. cbn [bind]. rewrite C1, C2, C3. cbn [bind].
    rewrite D1, D2, D3. cbn [bind].
    replace ((0 <=? Int_part x) && (Int_part x + 1 <? Z.of_nat sx) && (0 <=? Int_part y)
             && (Int_part y + 1 <? Z.of_nat sy) && (0 <=? Int_part z) && (Int_part z + 1 <? Z.of_nat sz))%Z
      with false; [reflexivity|].
    symmetry. destruct H as [H|[H|H]]; apply beyond_cell in H.
    - rewrite H. reflexivity.
    - rewrite <- (andb_assoc _ (0 <=? Int_part y)%Z), H, andb_false_r. reflexivity.
    - rewrite <- (andb_assoc _ (0 <=? Int_part z)%Z), H. apply andb_false_r.
  Qed.

  (** The bilinear formula is the value of every multilinear function through the corners. *)
  Lemma cell_same i i' x : INR i <= x < INR i + 1 -> INR i' <= x < INR i' + 1 -> i = i'.
  Proof.
    intros H H'. apply cell_unique in H. apply cell_unique in H'. rewrite H in H'. lia.
  Qed.

  Lemma formula2 V x y i j :
    INR i <= x < INR i + 1 -> INR j <= y < INR j + 1 ->
    let val := V i j * (1 - (x - INR i)) * (1 - (y - INR j)) + V (i+1)%nat j * (x - INR i) * (1 - (y - INR j))
          + V i (j+1)%nat * (1 - (x - INR i)) * (y - INR j) + V (i+1)%nat (j+1)%nat * (x - INR i) * (y - INR j) in
    bilinear_at V x y val /\ between2 V x y val.
  Proof.
    intros Hi Hj val. split.
    - intros i' j' f [a [b [c [d Hf]]]] Hi' Hj' Hc.
      apply (cell_same _ _ _ Hi) in Hi'. apply (cell_same _ _ _ Hj) in Hj'. subst i' j'.
      pose proof (Hc 0%nat 0%nat ltac:(lia) ltac:(lia)) as V00. pose proof (Hc 1%nat 0%nat ltac:(lia) ltac:(lia)) as V10.
      pose proof (Hc 0%nat 1%nat ltac:(lia) ltac:(lia)) as V01. pose proof (Hc 1%nat 1%nat ltac:(lia) ltac:(lia)) as V11.
      rewrite !Nat.add_0_r in *. unfold val. rewrite <- V00, <- V10, <- V01, <- V11.
      rewrite !Hf, !plus_INR. cbn [INR]. ring.
    - intros i' j' lo hi Hi' Hj' Hc.
      apply (cell_same _ _ _ Hi) in Hi'. apply (cell_same _ _ _ Hj) in Hj'. subst i' j'.
      pose proof (Hc 0%nat 0%nat ltac:(lia) ltac:(lia)) as V00. pose proof (Hc 1%nat 0%nat ltac:(lia) ltac:(lia)) as V10.
      pose proof (Hc 0%nat 1%nat ltac:(lia) ltac:(lia)) as V01. pose proof (Hc 1%nat 1%nat ltac:(lia) ltac:(lia)) as V11.
      rewrite !Nat.add_0_r in *. unfold val.
      set (s := x - INR i). set (t := y - INR j).
      assert (0 <= s <= 1) by (unfold s; lra). assert (0 <= t <= 1) by (unfold t; lra).
      clearbody s t. revert V00 V10 V01 V11.
      generalize (V i j) (V (i+1)%nat j) (V i (j+1)%nat) (V (i+1)%nat (j+1)%nat).
      intros p q r u P Q U W.
      assert (lo <= p * (1 - s) + q * s <= hi) by nra.
      assert (lo <= r * (1 - s) + u * s <= hi) by nra.
      replace (p * (1 - s) * (1 - t) + q * s * (1 - t) + r * (1 - s) * t + u * s * t)
        with ((p * (1 - s) + q * s) * (1 - t) + (r * (1 - s) + u * s) * t) by ring.
      revert H1 H2. generalize (p * (1 - s) + q * s) (r * (1 - s) + u * s). intros m n M N. nra.
  Qed.

  Lemma lerp_between a b d lo hi : lo <= a <= hi -> lo <= b <= hi -> 0 <= d <= 1 ->
    lo <= lerp Rops a b d <= hi.
  Proof. unfold lerp. cbn. intros. nra. Qed.

  Lemma formula3 V x y z i j k :
    INR i <= x < INR i + 1 -> INR j <= y < INR j + 1 -> INR k <= z < INR k + 1 ->
    let xd := x - INR i in let yd := y - INR j in let zd := z - INR k in
    let L := lerp Rops in
    let val := L (L (L (V i j k) (V (i+1)%nat j k) xd) (L (V i (j+1)%nat k) (V (i+1)%nat (j+1)%nat k) xd) yd)
            (L (L (V i j (k+1)%nat) (V (i+1)%nat j (k+1)%nat) xd)
               (L (V i (j+1)%nat (k+1)%nat) (V (i+1)%nat (j+1)%nat (k+1)%nat) xd) yd) zd in
    trilinear_at V x y z val /\ between3 V x y z val.
  Proof.
    intros Hi Hj Hk xd yd zd L val. split.
    - intros i' j' k' f [a [b [c [d [e [g [h [m Hf]]]]]]]] Hi' Hj' Hk' Hc.
      apply (cell_same _ _ _ Hi) in Hi'. apply (cell_same _ _ _ Hj) in Hj'. apply (cell_same _ _ _ Hk) in Hk'.
      subst i' j' k'.
      pose proof (Hc 0%nat 0%nat 0%nat ltac:(lia) ltac:(lia) ltac:(lia)) as V000.
      pose proof (Hc 1%nat 0%nat 0%nat ltac:(lia) ltac:(lia) ltac:(lia)) as V100.
      pose proof (Hc 0%nat 1%nat 0%nat ltac:(lia) ltac:(lia) ltac:(lia)) as V010.
      pose proof (Hc 1%nat 1%nat 0%nat ltac:(lia) ltac:(lia) ltac:(lia)) as V110.
      pose proof (Hc 0%nat 0%nat 1%nat ltac:(lia) ltac:(lia) ltac:(lia)) as V001.
      pose proof (Hc 1%nat 0%nat 1%nat ltac:(lia) ltac:(lia) ltac:(lia)) as V101.
      pose proof (Hc 0%nat 1%nat 1%nat ltac:(lia) ltac:(lia) ltac:(lia)) as V011.
      pose proof (Hc 1%nat 1%nat 1%nat ltac:(lia) ltac:(lia) ltac:(lia)) as V111.
      rewrite !Nat.add_0_r in *. unfold val.
      rewrite <- V000, <- V100, <- V010, <- V110, <- V001, <- V101, <- V011, <- V111.
      rewrite !Hf, !plus_INR. unfold L, lerp, xd, yd, zd, o_one. cbn. ring.
    - intros i' j' k' lo hi Hi' Hj' Hk' Hc.
      apply (cell_same _ _ _ Hi) in Hi'. apply (cell_same _ _ _ Hj) in Hj'. apply (cell_same _ _ _ Hk) in Hk'.
      subst i' j' k'.
      pose proof (Hc 0%nat 0%nat 0%nat ltac:(lia) ltac:(lia) ltac:(lia)) as V000.
      pose proof (Hc 1%nat 0%nat 0%nat ltac:(lia) ltac:(lia) ltac:(lia)) as V100.
      pose proof (Hc 0%nat 1%nat 0%nat ltac:(lia) ltac:(lia) ltac:(lia)) as V010.
      pose proof (Hc 1%nat 1%nat 0%nat ltac:(lia) ltac:(lia) ltac:(lia)) as V110.
      pose proof (Hc 0%nat 0%nat 1%nat ltac:(lia) ltac:(lia) ltac:(lia)) as V001.
      pose proof (Hc 1%nat 0%nat 1%nat ltac:(lia) ltac:(lia) ltac:(lia)) as V101.
      pose proof (Hc 0%nat 1%nat 1%nat ltac:(lia) ltac:(lia) ltac:(lia)) as V011.
      pose proof (Hc 1%nat 1%nat 1%nat ltac:(lia) ltac:(lia) ltac:(lia)) as V111.
      rewrite !Nat.add_0_r in *.
      assert (0 <= xd <= 1) by (unfold xd; lra). assert (0 <= yd <= 1) by (unfold yd; lra).
      assert (0 <= zd <= 1) by (unfold zd; lra).
      unfold val, L. repeat (apply lerp_between; [| |assumption]); assumption.
  Qed.

  Lemma kernel2_map v sx sy pts out :
    shape v = [sx; sy] -> (Z.of_nat sx <= INT_MAX)%Z -> (Z.of_nat sy <= INT_MAX)%Z ->
    length out = length pts ->
    interp2d_vec_inplace Rops v (q2 pts) out =
    mapr (fun p => interp2d_point Rops (data v) (Z.of_nat sx) (Z.of_nat sy) (Some (fst p)) (Some (snd p))) pts.
  Proof.
    intros Hs Bx By Hl. unfold interp2d_vec_inplace, q2. rewrite Hs. cbn [mcols mrows].
    unfold nrows. cbn [mrows Nat.eqb negb]. rewrite map_length, <- Hl, Nat.eqb_refl. cbn [negb].
    rewrite mapr_map. cbn [cget nth_error bind]. rewrite !wrap_id by lia. reflexivity.
  Qed.

  Lemma kernel3_map v sx sy sz pts out :
    shape v = [sx; sy; sz] -> (Z.of_nat sx <= INT_MAX)%Z -> (Z.of_nat sy <= INT_MAX)%Z ->
    (Z.of_nat sz <= INT_MAX)%Z -> (Z.of_nat sy * Z.of_nat sz <= INT_MAX)%Z ->
    length out = length pts ->
    interp3d_vec_inplace Rops v (q3 pts) out =
    mapr (fun p => interp3d_point Rops (data v) (Z.of_nat sx) (Z.of_nat sy) (Z.of_nat sz)
            (Z.of_nat sy * Z.of_nat sz) (Some (fst (fst p))) (Some (snd (fst p))) (Some (snd p))) pts.
  Proof.
    intros Hs Bx By Bz Byz Hl. unfold interp3d_vec_inplace, q3. rewrite Hs. cbn [mcols mrows].
    unfold nrows. cbn [mrows Nat.eqb negb]. rewrite map_length, <- Hl, Nat.eqb_refl. cbn [negb].
    rewrite !wrap_id by lia. rewrite c_int_ok by (unfold INT_MIN; nia). cbn [bind].
    rewrite mapr_map. cbn [cget nth_error bind]. reflexivity.
  Qed.

  Lemma mapr_spec {A B} (f : A -> res B) (P : A -> B -> Prop) l :
    (forall a, In a l -> exists b, f a = Ok b /\ P a b) ->
    exists bs, mapr f l = Ok bs /\ Forall2 P l bs.
  Proof.
    induction l as [|a l IH]; intros H; [exists []; split; [reflexivity|constructor]|].
    destruct (H a (or_introl eq_refl)) as [b [Hb Pb]].
    destruct IH as [bs [Hbs Pbs]]; [intros x Hx; apply H; right; exact Hx|].
    exists (b :: bs). cbn. rewrite Hb, Hbs. split; [reflexivity|constructor; assumption].
  Qed.

  (** What the 2-D kernel does to every point of a query (C28, C29, C30). *)
  Lemma kernel2_values v sx sy V pts out :
    shape v = [sx; sy] -> (Z.of_nat sx <= INT_MAX)%Z -> (Z.of_nat sy <= INT_MAX)%Z ->
    (forall i j, (i < sx)%nat -> (j < sy)%nat -> nd_get v [i; j] = Ok (V i j)) ->
    length out = length pts -> Forall (fun p => fits (fst p) /\ fits (snd p)) pts ->
    exists vals, interp2d_vec_inplace Rops v (q2 pts) out = Ok vals /\
      Forall2 (fun p val =>
        (inside sx (fst p) /\ inside sy (snd p) ->
           bilinear_at V (fst p) (snd p) val /\ between2 V (fst p) (snd p) val) /\
        (beyond sx (fst p) \/ beyond sy (snd p) -> val = 0)) pts vals.
  Proof.
    intros Hs Bx By HV Hl Hf. rewrite (kernel2_map _ _ _ _ _ Hs Bx By Hl). apply mapr_spec.
    intros [x y] Hin. rewrite Forall_forall in Hf. destruct (Hf _ Hin) as [Fx Fy]. cbn [fst snd] in *.
    assert (D : forall n t, inside n t \/ beyond n t).
    { intros n t. unfold inside, beyond. destruct (Rlt_le_dec t 0); [auto|].
      destruct (Rlt_le_dec t (INR n - 1)); auto. }
    assert (X : forall n t, inside n t -> beyond n t -> False).
    { intros n t [A B] [C|C]; lra. }
    destruct (D sx x) as [Ix|Ox]; [destruct (D sy y) as [Iy|Oy]|].
    - destruct (point2_inside _ _ _ _ _ _ Hs HV Fx Fy Ix Iy) as [i [j [Hi [Hj [Bi [Bj E]]]]]].
      rewrite E. eexists. split; [reflexivity|]. split.
      + intros _. apply formula2; assumption.
      + intros [B|B]; exfalso; eauto.
    - rewrite point2_beyond by auto. exists 0. split; [reflexivity|]. split; [|auto].
      intros [_ B]. exfalso. eauto.
    - rewrite point2_beyond by auto. exists 0. split; [reflexivity|]. split; [|auto].
      intros [B _]. exfalso. eauto.
  Qed.

  Lemma kernel3_values v sx sy sz V pts out :
    shape v = [sx; sy; sz] -> (Z.of_nat sx <= INT_MAX)%Z -> (Z.of_nat sy <= INT_MAX)%Z ->
    (Z.of_nat sz <= INT_MAX)%Z -> (Z.of_nat sy * Z.of_nat sz <= INT_MAX)%Z ->
    (forall i j k, (i < sx)%nat -> (j < sy)%nat -> (k < sz)%nat -> nd_get v [i; j; k] = Ok (V i j k)) ->
    length out = length pts ->
    Forall (fun p => fits (fst (fst p)) /\ fits (snd (fst p)) /\ fits (snd p)) pts ->
    exists vals, interp3d_vec_inplace Rops v (q3 pts) out = Ok vals /\
      Forall2 (fun p val =>
        let x := fst (fst p) in let y := snd (fst p) in let z := snd p in
        (inside sx x /\ inside sy y /\ inside sz z ->
           trilinear_at V x y z val /\ between3 V x y z val) /\
        (beyond sx x \/ beyond sy y \/ beyond sz z -> val = 0)) pts vals.
  Proof.
    intros Hs Bx By Bz Byz HV Hl Hf. rewrite (kernel3_map _ _ _ _ _ _ Hs Bx By Bz Byz Hl). apply mapr_spec.
    intros [[x y] z] Hin. rewrite Forall_forall in Hf. destruct (Hf _ Hin) as [Fx [Fy Fz]].
    cbn [fst snd] in *. cbv zeta.
    assert (D : forall n t, inside n t \/ beyond n t).
    { intros n t. unfold inside, beyond. destruct (Rlt_le_dec t 0); [auto|].
      destruct (Rlt_le_dec t (INR n - 1)); auto. }
    assert (X : forall n t, inside n t -> beyond n t -> False).
    { intros n t [A B] [C|C]; lra. }
    destruct (D sx x) as [Ix|Ox]; [destruct (D sy y) as [Iy|Oy]; [destruct (D sz z) as [Iz|Oz]|]|].
    - destruct (point3_inside _ _ _ _ _ _ _ _ Hs HV Fx Fy Fz Ix Iy Iz)
        as [i [j [k [Hi [Hj [Hk [Bi [Bj [Bk E]]]]]]]]].
      cbv zeta in E. rewrite E. eexists. split; [reflexivity|]. split.
      + intros _. apply formula3; assumption.
      + intros [B|[B|B]]; exfalso; eauto.
    - rewrite point3_beyond by auto. exists 0. split; [reflexivity|]. split; [|auto].
      intros [_ [_ B]]. exfalso. eauto.
    - rewrite point3_beyond by auto. exists 0. split; [reflexivity|]. split; [|auto].
      intros [_ [B _]]. exfalso. eauto.
    - rewrite point3_beyond by auto. exists 0. split; [reflexivity|]. split; [|auto].
      intros [B _]. exfalso. eauto.
  Qed.
End Values.
