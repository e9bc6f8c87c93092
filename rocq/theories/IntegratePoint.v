(** Integrators acting on a field sampled point by point: every arithmetic. *)
From Coq Require Import Lia.
From Verif Require Import Base Num Particles Integrate SpecIntegrate IntegrateFacts.

Section Point.
  Context {T : Type} (O : ops T) {S : Type}.
  Variable interpolate : S -> mat T -> S * res (mat T).
  Variable I : (list T -> list T) -> S -> Prop.
  Hypothesis HI : samples_field interpolate I.

  Lemma zip_vadd x y : zip_with (o_add O) x y = vadd O x y.
  Proof. revert y; induction x as [|a x IH]; intros [|b y]; cbn; try reflexivity. f_equal. apply IH. Qed.
  Lemma zip_vsub x y : zip_with (o_sub O) x y = vsub O x y.
  Proof. revert y; induction x as [|a x IH]; intros [|b y]; cbn; try reflexivity. f_equal. apply IH. Qed.

  Lemma zip_map_map {A B C D} (g : B -> C -> D) (f1 : A -> B) (f2 : A -> C) l :
    zip_with g (map f1 l) (map f2 l) = map (fun a => g (f1 a) (f2 a)) l.
  Proof. induction l; cbn; [reflexivity|]. f_equal. assumption. Qed.

  Lemma madd_map c (f g : list T -> list T) rows :
    madd O (Mat c (map f rows)) (Mat c (map g rows)) = Ok (Mat c (map (fun r => vadd O (f r) (g r)) rows)).
  Proof.
    unfold madd, mat_map2, same_shape, nrows. cbn. rewrite !map_length, !Nat.eqb_refl. cbn.
    rewrite zip_map_map. do 2 f_equal. apply map_ext. intro r. apply zip_vadd.
  Qed.

  Lemma smul_map c a (f : list T -> list T) rows :
    smul O a (Mat c (map f rows)) = Mat c (map (fun r => vscale O a (f r)) rows).
  Proof. unfold smul, mat_map. cbn. rewrite map_map. reflexivity. Qed.

  Lemma map_self c (rows : list (list T)) : Mat c rows = Mat c (map (fun r => r) rows).
  Proof. rewrite map_id. reflexivity. Qed.

  Lemma sample_point v s (buf : mat T) c (f : list T -> list T) rows :
    I v s -> nrows buf = length rows -> mcols buf = c ->
    exists s', sample interpolate s buf (Mat c (map f rows)) =
                 (s', Ok (Mat c (map (fun r => v (f r)) rows))) /\ I v s'.
  Proof.
    intros Hs Hr Hc. unfold sample. destruct (HI v s (Mat c (map f rows)) Hs) as (s' & E & Hs').
    rewrite E. exists s'. split; [|exact Hs']. cbn [bind mrows mcols]. rewrite map_map. f_equal.
    apply copyto_same. apply same_shape_spec. unfold nrows in *. cbn. rewrite map_length. lia.
  Qed.

  Lemma euler_point mem b v s h c rows :
    I v s ->
    exists i' s', integrate_pos O interpolate mem (Euler b) s h (Mat c rows) =
      (Euler i', s', Ok (Mat c (map (textbook_euler O v h) rows))) /\ I v s'.
  Proof.
    intro Hs. cbn [integrate_pos]. unfold euler_integrate.
    pose proof (get_buffer_shape mem 0 b (Mat c rows)) as Hb. apply same_shape_spec in Hb.
    destruct Hb as [Hb1 Hb2]. set (buf := get_buffer mem 0 b (Mat c rows)) in *. clearbody buf.
    destruct (sample_point v s buf c (fun r => r) rows Hs Hb1 Hb2) as (s' & E & Hs').
    rewrite <- map_self in E. rewrite E. eexists _, s'. split; [|exact Hs'].
    unfold euler_step. rewrite smul_map. rewrite (map_self c rows) at 1. rewrite madd_map. reflexivity.
  Qed.

  Lemma euler_step_map c v h rows :
    euler_step O (Mat c rows) h (Mat c (map v rows)) = Ok (Mat c (map (textbook_euler O v h) rows)).
  Proof.
    unfold euler_step. rewrite smul_map. rewrite (map_self c rows) at 1. rewrite madd_map. reflexivity.
  Qed.

  Lemma ab2_point_first mem b v s h c rows :
    I v s ->
    exists b' s', integrate_pos O interpolate mem (AB2 None b) s h (Mat c rows) =
      (AB2 (Some (Mat c (map v rows))) b', s', Ok (Mat c (map (textbook_euler O v h) rows))) /\ I v s'.
  Proof.
    intro Hs. cbn [integrate_pos]. unfold ab2_integrate.
    pose proof (get_buffer_shape mem 0 b (Mat c rows)) as Hb. apply same_shape_spec in Hb.
    destruct Hb as [Hb1 Hb2]. set (buf := get_buffer mem 0 b (Mat c rows)) in *. clearbody buf.
    destruct (sample_point v s buf c (fun r => r) rows Hs Hb1 Hb2) as (s' & E & Hs').
    rewrite <- map_self in E. rewrite E.
    rewrite euler_step_map. rewrite copyto_same by apply empty_like_shape.
    eexists _, s'. split; [|exact Hs']. reflexivity.
  Qed.

  Lemma zip_with_ext {A B C} (f g : A -> B -> C) l m :
    (forall a b, f a b = g a b) -> zip_with f l m = zip_with g l m.
  Proof. intro H. revert m; induction l as [|a l IH]; intros [|b m]; cbn; try reflexivity. rewrite H, IH. reflexivity. Qed.

  Lemma ab2_zip (v : list T -> list T) h rows prev :
    zip_with (zip_with (o_add O)) rows
      (map (map (o_mul O h))
         (zip_with (zip_with (o_sub O)) (map (map (o_mul O (o_three_halves O))) (map v rows))
            (map (map (o_mul O (o_half O))) prev)))
    = zip_with (fun x w => textbook_ab2 O v h w x) rows prev.
  Proof.
    revert prev; induction rows as [|r rows IH]; intros [|p prev]; cbn; try reflexivity.
    f_equal; [|apply IH]. unfold textbook_ab2. rewrite zip_vadd, zip_vsub. reflexivity.
  Qed.

  Lemma ab2_step_map c v h rows prev : length prev = length rows ->
    ab2_step O (Mat c rows) h (Mat c (map v rows)) (Mat c prev) =
    Ok (Mat c (zip_with (fun x w => textbook_ab2 O v h w x) rows prev)).
  Proof.
    intro Hlen.
    unfold ab2_step, msub, smul, mat_map. cbn [mrows mcols].
    assert (H1 : mat_map2 (o_sub O) (Mat c (map (map (o_mul O (o_three_halves O))) (map v rows)))
              (Mat c (map (map (o_mul O (o_half O))) prev)) =
            Ok (Mat c (zip_with (zip_with (o_sub O)) (map (map (o_mul O (o_three_halves O))) (map v rows))
              (map (map (o_mul O (o_half O))) prev)))).
    { unfold mat_map2, same_shape, nrows. cbn. rewrite !map_length, Hlen, !Nat.eqb_refl. reflexivity. }
    rewrite H1. cbn [bind mrows mcols].
    assert (H2 : forall z, length z = length rows ->
      madd O (Mat c rows) (Mat c z) = Ok (Mat c (zip_with (zip_with (o_add O)) rows z))).
    { intros z Hz. unfold madd, mat_map2, same_shape, nrows. cbn. rewrite Hz, !Nat.eqb_refl. reflexivity. }
    rewrite H2.
    2:{ rewrite map_length. clear - Hlen. revert prev Hlen.
        induction rows as [|r rows IH]; intros [|p prev] H; cbn in *; try reflexivity; try discriminate.
        f_equal. apply IH. lia. }
    rewrite ab2_zip. reflexivity.
  Qed.

  Lemma ab2_point_next mem b v s h c rows prev :
    I v s -> length prev = length rows ->
    exists b' s', integrate_pos O interpolate mem (AB2 (Some (Mat c prev)) b) s h (Mat c rows) =
      (AB2 (Some (Mat c (map v rows))) b', s',
       Ok (Mat c (zip_with (fun x w => textbook_ab2 O v h w x) rows prev))) /\ I v s'.
  Proof.
    intros Hs Hlen. cbn [integrate_pos]. unfold ab2_integrate.
    pose proof (get_buffer_shape mem 0 b (Mat c rows)) as Hb. apply same_shape_spec in Hb.
    destruct Hb as [Hb1 Hb2]. set (buf := get_buffer mem 0 b (Mat c rows)) in *. clearbody buf.
    destruct (sample_point v s buf c (fun r => r) rows Hs Hb1 Hb2) as (s' & E & Hs').
    rewrite <- map_self in E. change (fun r => v ((fun r0 => r0) r)) with v in E. rewrite E.
    cbv iota beta. change (fun r : list T => v r) with v. rewrite (ab2_step_map c v h rows prev Hlen). rewrite copyto_same.
    2:{ apply same_shape_spec. unfold nrows. cbn. rewrite map_length. lia. }
    eexists _, s'. split; [|exact Hs']. reflexivity.
  Qed.

  Lemma rk4_point mem b v s h c rows :
    bufs_ok (RK4 b) -> I v s ->
    exists b' s', integrate_pos O interpolate mem (RK4 b) s h (Mat c rows) =
      (RK4 b', s', Ok (Mat c (map (textbook_rk4 O v h) rows))) /\ I v s' /\ bufs_ok (RK4 b').
  Proof.
    intros Hb Hs.
    assert (G : exists b' s', integrate_pos O interpolate mem (RK4 b) s h (Mat c rows) =
      (RK4 b', s', Ok (Mat c (map (textbook_rk4 O v h) rows))) /\ I v s').
    2:{ destruct G as (b' & s' & E & Hs'). exists b', s'. repeat split; try assumption.
        apply (integrate_bufs_ok O interpolate _ _ _ _ _ _ _ _ Hb E). }
    cbn [integrate_pos]. unfold rk4_integrate. fold (rk4_bufs mem b (Mat c rows)).
    pose proof (rk4_bufs_shape mem b (Mat c rows) Hb) as Hsh.
    destruct (rk4_bufs mem b (Mat c rows)) as [[[[bk1 bk2] bk3] bk4] btmp].
    destruct Hsh as (H1 & H2 & H3 & H4 & H5). apply same_shape_spec in H1, H2, H3, H4.
    destruct H1 as [R1 C1], H2 as [R2 C2], H3 as [R3 C3], H4 as [R4 C4].
    assert (Tmp : forall g k t, same_shape t (Mat c rows) = true ->
      (let* t0 := copyto t (Mat c rows) in madd O t0 (smul O g (Mat c (map k rows))))
      = Ok (Mat c (map (fun r => vadd O r (vscale O g (k r))) rows))).
    { intros g k t Ht. rewrite (copyto_same _ _ Ht). cbn [bind]. rewrite smul_map.
      rewrite (map_self c rows) at 1. apply madd_map. }
    assert (Sh : forall f : list T -> list T, same_shape (Mat c (map f rows)) (Mat c rows) = true).
    { intro f. apply same_shape_spec. unfold nrows. cbn. rewrite map_length. split; reflexivity. }
    destruct (sample_point v s bk1 c (fun r => r) rows Hs R1 C1) as (s1 & E1 & Hs1).
    rewrite <- map_self in E1. rewrite E1. rewrite (Tmp _ _ _ H5).
    match goal with |- context [sample interpolate s1 bk2 (Mat c (map ?f rows))] =>
      destruct (sample_point v s1 bk2 c f rows Hs1 R2 C2) as (s2 & E2 & Hs2); rewrite E2 end.
    rewrite (Tmp _ _ _ (Sh _)).
    match goal with |- context [sample interpolate s2 bk3 (Mat c (map ?f rows))] =>
      destruct (sample_point v s2 bk3 c f rows Hs2 R3 C3) as (s3 & E3 & Hs3); rewrite E3 end.
    rewrite (Tmp _ _ _ (Sh _)).
    match goal with |- context [sample interpolate s3 bk4 (Mat c (map ?f rows))] =>
      destruct (sample_point v s3 bk4 c f rows Hs3 R4 C4) as (s4 & E4 & Hs4); rewrite E4 end.
    eexists _, s4. split; [|exact Hs4]. f_equal.
    unfold rk4_step. rewrite !smul_map, madd_map. cbn [bind]. rewrite madd_map. cbn [bind].
    rewrite madd_map. cbn [bind]. rewrite smul_map. rewrite (map_self c rows) at 1. rewrite madd_map.
    reflexivity.
  Qed.

  (* ---- whole histories ---- *)
  Notation seqI := (integrate_seq O interpolate).

  Lemma euler_seq mems hist steps : presents I hist steps ->
    forall k b w s p, I w s ->
    exists b' s', seqI mems k (Euler b) s hist p =
      (Euler b', s', set_positions p (Mat (mcols (positions p)) (map (euler_path O steps) (mrows (positions p)))), Ok tt).
  Proof.
    induction 1 as [|[u h] [v h'] hist steps [Hh Hu] _ IH]; intros k b w s p Hs.
    - exists b, s. cbn. rewrite map_id. destruct p as [[? ?] ? ? ? ? ?]; reflexivity.
    - cbn in Hh, Hu. subst h'. cbn [integrate_seq]. unfold integrate.
      destruct (positions p) as [c rows] eqn:Ep.
      destruct (euler_point (mems k) b v (u s) h c rows (Hu _ _ Hs)) as (b1 & s1 & E & Hs1).
      rewrite E. destruct (IH (1 + k) b1 v s1 (set_positions p (Mat c (map (textbook_euler O v h) rows))) Hs1)
        as (b2 & s2 & E2). rewrite E2. exists b2, s2. destruct p; cbn. rewrite map_map. reflexivity.
  Qed.

  Lemma rk4_seq mems hist steps : presents I hist steps ->
    forall k b w s p, bufs_ok (RK4 b) -> I w s ->
    exists b' s', seqI mems k (RK4 b) s hist p =
      (RK4 b', s', set_positions p (Mat (mcols (positions p)) (map (rk4_path O steps) (mrows (positions p)))), Ok tt).
  Proof.
    induction 1 as [|[u h] [v h'] hist steps [Hh Hu] _ IH]; intros k b w s p Hb Hs.
    - exists b, s. cbn. rewrite map_id. destruct p as [[? ?] ? ? ? ? ?]; reflexivity.
    - cbn in Hh, Hu. subst h'. cbn [integrate_seq]. unfold integrate.
      destruct (positions p) as [c rows] eqn:Ep.
      destruct (rk4_point (mems k) b v (u s) h c rows Hb (Hu _ _ Hs)) as (b1 & s1 & E & Hs1 & Hb1).
      rewrite E. destruct (IH (1 + k) b1 v s1 (set_positions p (Mat c (map (textbook_rk4 O v h) rows))) Hb1 Hs1)
        as (b2 & s2 & E2). rewrite E2. exists b2, s2. destruct p; cbn. rewrite map_map. reflexivity.
  Qed.

  Lemma ab2_zip_path v h steps rows prev : length prev = length rows ->
    zip_with (fun x q => ab2_path O steps (Some q) x)
      (zip_with (fun x w0 => textbook_ab2 O v h w0 x) rows prev) (map v rows)
    = zip_with (fun x q => ab2_path O steps (Some (v x)) (textbook_ab2 O v h q x)) rows prev.
  Proof.
    revert prev. induction rows as [|r rows IH]; intros [|q prev] H; cbn in *; try reflexivity; try discriminate.
    f_equal. apply IH. lia.
  Qed.

  Lemma ab2_seq_next mems hist steps : presents I hist steps ->
    forall k b w s p prev, I w s ->
    length prev = length (mrows (positions p)) ->
    exists i' s', seqI mems k (AB2 (Some (Mat (mcols (positions p)) prev)) b) s hist p =
      (i', s', set_positions p (Mat (mcols (positions p))
         (zip_with (fun x q => ab2_path O steps (Some q) x) (mrows (positions p)) prev)), Ok tt).
  Proof.
    induction 1 as [|[u h] [v h'] hist steps [Hh Hu] _ IH]; intros k b w s p prev Hs Hlen.
    - destruct p as [[c rows] ? ? ? ? ?]; cbn in *. eexists _, s.
      replace (zip_with (fun x _ => x) rows prev) with rows; [reflexivity|].
      clear - Hlen. revert prev Hlen. induction rows as [|r rows IH]; intros [|q prev] H; cbn in *;
        try reflexivity; try discriminate. f_equal. apply IH. lia.
    - cbn in Hh, Hu. subst h'. cbn [integrate_seq]. unfold integrate.
      destruct p as [[c rows] a1 a2 a3 a4 nn]; cbn [positions mrows mcols set_positions] in *.
      destruct (ab2_point_next (mems k) b v (u s) h c rows prev (Hu _ _ Hs) Hlen) as (b1 & s1 & E & Hs1).
      rewrite E.
      set (p1 := set_positions (Particles.Particles (Mat c rows) a1 a2 a3 a4 nn) 
         (Mat c (zip_with (fun x w0 => textbook_ab2 O v h w0 x) rows prev))).
      destruct (IH (1 + k) b1 v s1 p1 (map v rows) Hs1) as (b2 & s2 & E2).
      { cbn. rewrite map_length. clear - Hlen. revert prev Hlen.
        induction rows as [|r rows IH]; intros [|q prev] H; cbn in *; try reflexivity; try discriminate.
        f_equal. apply IH. lia. }
      cbn [positions mcols p1 set_positions mrows] in E2. rewrite E2. exists b2, s2. unfold p1, set_positions. cbn.
      do 4 f_equal. rewrite ab2_zip_path by exact Hlen. reflexivity.
  Qed.

  Lemma ab2_seq mems hist steps k b w s p : presents I hist steps -> I w s ->
    exists i' s', seqI mems k (AB2 None b) s hist p =
      (i', s', set_positions p (Mat (mcols (positions p)) (map (ab2_path O steps None) (mrows (positions p)))), Ok tt).
  Proof.
    intros Hp Hs. destruct Hp as [|[u h] [v h'] hist steps [Hh Hu] Hp].
    - destruct p as [[? ?] ? ? ? ? ?]; cbn. rewrite map_id. eexists _, s. reflexivity.
    - cbn in Hh, Hu. subst h'. cbn [integrate_seq]. unfold integrate.
      destruct p as [[c rows] a1 a2 a3 a4 nn]; cbn [positions mrows mcols] in *.
      destruct (ab2_point_first (mems k) b v (u s) h c rows (Hu _ _ Hs)) as (b1 & s1 & E & Hs1).
      rewrite E.
      set (p1 := set_positions (Particles.Particles (Mat c rows) a1 a2 a3 a4 nn) 
         (Mat c (map (textbook_euler O v h) rows))).
      destruct (ab2_seq_next mems hist steps Hp (1 + k) b1 v s1 p1 (map v rows) Hs1) as (b2 & s2 & E2).
      { cbn. rewrite !map_length. reflexivity. }
      cbn [positions mcols p1 set_positions mrows] in E2. rewrite E2. exists b2, s2. unfold p1, set_positions. cbn.
      do 3 f_equal. rewrite zip_map_map. reflexivity.
  Qed.

  (** C18/C21: over any history every particle moves along its own textbook path. *)
  Lemma seq_path mems k m hist steps w s p : presents I hist steps -> I w s ->
    exists i' s', seqI mems k (fresh m) s hist p =
      (i', s', set_positions p (Mat (mcols (positions p)) (map (path O m steps) (mrows (positions p)))), Ok tt).
  Proof.
    intros Hp Hs. destruct m; cbn [fresh path].
    - destruct (euler_seq mems hist steps Hp k None w s p Hs) as (b & s' & E). eauto.
    - eapply ab2_seq; eassumption.
    - destruct (rk4_seq mems hist steps Hp k None w s p Logic.I Hs) as (b & s' & E). eauto.
  Qed.
End Point.

Lemma rk4_point_reachable {T} (O : ops T) {S} (interpolate : S -> mat T -> S * res (mat T)) I :
  samples_field interpolate I ->
  forall mem b v s h c rows, reachable O interpolate (RK4 b) -> I v s ->
  exists b' s', integrate_pos O interpolate mem (RK4 b) s h (Mat c rows) =
    (RK4 b', s', Ok (Mat c (map (textbook_rk4 O v h) rows))) /\ I v s'.
Proof.
  intros HI mem b v s h c rows Hr Hs.
  destruct (rk4_point O interpolate I HI mem b v s h c rows (reachable_bufs_ok O interpolate _ Hr) Hs)
    as (b' & s' & E & H & _). eauto.
Qed.
