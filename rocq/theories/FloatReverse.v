(** Negating every velocity and every time step does not change positions in binary64 (C25). *)
From Coq Require Import ZArith Bool List Floats SpecFloat.
From Verif Require Import Base Num Particles Integrate SpecIntegrate IntegrateFacts IntegratePoint SpecReverse.
Local Open Scope float_scope.

Notation "- x" := (PrimFloat.opp x) : float_scope.

(** ** The operations of the standard library's specification *)
Definition sz (x : spec_float) : bool := match x with S754_zero _ => true | _ => false end.
Definition same (x y : spec_float) : Prop := x = y \/ (sz x = true /\ sz y = true).

Lemma aux_opp sx m e l : SFopp (binary_round_aux prec emax sx m e l) = binary_round_aux prec emax (negb sx) m e l.
Proof.
  unfold binary_round_aux. destruct (shr_fexp prec emax m e l) as [mrs e'].
  destruct (shr_fexp prec emax (round_nearest_even (shr_m mrs) (loc_of_shr_record mrs)) e' loc_Exact) as [mrs2 e2].
  destruct (shr_m mrs2); try reflexivity. destruct (Zle_bool e2 (emax - prec)); reflexivity.
Qed.
Lemma round_opp sx m e : SFopp (binary_round prec emax sx m e) = binary_round prec emax (negb sx) m e.
Proof. unfold binary_round. destruct (shl_align m e _) as [mz ez]. apply aux_opp. Qed.
Lemma normalize_opp m e : same (binary_normalize prec emax (Z.opp m) e false) (SFopp (binary_normalize prec emax m e false)).
Proof.
  destruct m; cbn [Z.opp binary_normalize].
  - right. split; reflexivity.
  - left. rewrite round_opp. reflexivity.
  - left. rewrite round_opp. reflexivity.
Qed.
Lemma cond_opp s m : cond_Zopp (negb s) m = Z.opp (cond_Zopp s m).
Proof. destruct s; cbn; [rewrite Z.opp_involutive|]; reflexivity. Qed.

Lemma add_opp x y : same (SFadd prec emax (SFopp x) (SFopp y)) (SFopp (SFadd prec emax x y)).
Proof.
  destruct x as [[]|[]| |sx mx ex], y as [[]|[]| |sy my ey]; try (left; reflexivity); try (right; split; reflexivity).
  cbn [SFopp SFadd]. rewrite !cond_opp.
  rewrite <- Z.opp_add_distr. apply normalize_opp.
Qed.
Lemma sub_opp x y : same (SFsub prec emax (SFopp x) (SFopp y)) (SFopp (SFsub prec emax x y)).
Proof.
  destruct x as [[]|[]| |sx mx ex], y as [[]|[]| |sy my ey]; try (left; reflexivity); try (right; split; reflexivity).
  cbn [SFopp SFsub]. rewrite !cond_opp.
  replace (Z.opp (cond_Zopp sx (Zpos (fst (shl_align mx ex (Z.min ex ey)))))
           - Z.opp (cond_Zopp sy (Zpos (fst (shl_align my ey (Z.min ex ey))))))%Z
    with (Z.opp (cond_Zopp sx (Zpos (fst (shl_align mx ex (Z.min ex ey))))
           - cond_Zopp sy (Zpos (fst (shl_align my ey (Z.min ex ey)))))) by ring.
  apply normalize_opp.
Qed.
Ltac signs := try reflexivity; repeat match goal with s : bool |- _ => destruct s end; reflexivity.
Lemma mul_opp_l x y : SFmul prec emax (SFopp x) y = SFopp (SFmul prec emax x y).
Proof.
  destruct x as [sx|sx| |sx mx ex], y as [sy|sy| |sy my ey]; cbn [SFopp SFmul]; rewrite ?aux_opp; try solve [signs].
Qed.
Lemma mul_opp_r x y : SFmul prec emax x (SFopp y) = SFopp (SFmul prec emax x y).
Proof.
  destruct x as [sx|sx| |sx mx ex], y as [sy|sy| |sy my ey]; cbn [SFopp SFmul]; rewrite ?aux_opp; try solve [signs].
Qed.
Lemma div_opp_l x y : SFdiv prec emax (SFopp x) y = SFopp (SFdiv prec emax x y).
Proof.
  destruct x as [sx|sx| |sx mx ex], y as [sy|sy| |sy my ey]; cbn [SFopp SFdiv]; try solve [signs].
  destruct (SFdiv_core_binary prec emax (Zpos mx) ex (Zpos my) ey) as [[q e] l]. rewrite aux_opp.
  f_equal. signs.
Qed.
Lemma opp_opp x : SFopp (SFopp x) = x.
Proof. destruct x as [[]|[]| |[] mx ex]; reflexivity. Qed.

Lemma same_opp x y : same x y -> same (SFopp x) (SFopp y).
Proof. intros [->|[A B]]; [left; reflexivity|]. right. destruct x, y; try discriminate. split; reflexivity. Qed.
Lemma same_add x x' y y' : same x x' -> same y y' -> same (SFadd prec emax x y) (SFadd prec emax x' y').
Proof.
  intros [->|[A B]] [->|[C D]]; [left; reflexivity| | |].
  - destruct y as [b|b| |b m e], y' as [b'|b'| |b' m' e']; try discriminate. destruct x' as [[]|[]| |sx mx ex], b, b'; (left; reflexivity) || (right; split; reflexivity).
  - destruct x as [b|b| |b m e], x' as [b'|b'| |b' m' e']; try discriminate. destruct y' as [[]|[]| |sx mx ex], b, b'; (left; reflexivity) || (right; split; reflexivity).
  - destruct x as [a|a| |a m e], x' as [a'|a'| |a' m' e']; try discriminate.
    destruct y as [b|b| |b n f], y' as [b'|b'| |b' n' f']; try discriminate.
    destruct a, a', b, b'; (left; reflexivity) || (right; split; reflexivity).
Qed.
Lemma same_sub x x' y y' : same x x' -> same y y' -> same (SFsub prec emax x y) (SFsub prec emax x' y').
Proof.
  intros [->|[A B]] [->|[C D]]; [left; reflexivity| | |].
  - destruct y as [b|b| |b m e], y' as [b'|b'| |b' m' e']; try discriminate. destruct x' as [[]|[]| |sx mx ex], b, b'; (left; reflexivity) || (right; split; reflexivity).
  - destruct x as [b|b| |b m e], x' as [b'|b'| |b' m' e']; try discriminate. destruct y' as [[]|[]| |sx mx ex], b, b'; (left; reflexivity) || (right; split; reflexivity).
  - destruct x as [a|a| |a m e], x' as [a'|a'| |a' m' e']; try discriminate.
    destruct y as [b|b| |b n f], y' as [b'|b'| |b' n' f']; try discriminate.
    destruct a, a', b, b'; (left; reflexivity) || (right; split; reflexivity).
Qed.
Lemma same_mul x y y' : same y y' -> same (SFmul prec emax x y) (SFmul prec emax x y').
Proof.
  intros [->|[A B]]; [left; reflexivity|].
  destruct y as [b|b| |b m e], y' as [b'|b'| |b' m' e']; try discriminate.
  destruct x as [a|a| |a n f]; (left; reflexivity) || (right; split; reflexivity).
Qed.

(** ** Floats *)
Lemma zero_sf x : PrimFloat.is_zero x = sz (Prim2SF x).
Proof.
  unfold PrimFloat.is_zero. rewrite FloatAxioms.eqb_spec.
  change (Prim2SF 0) with (S754_zero false). destruct (Prim2SF x) as [[]|[]| |[] m e]; reflexivity.
Qed.
Lemma same_sf x y : same_number x y <-> same (Prim2SF x) (Prim2SF y).
Proof.
  unfold same_number, same. rewrite !zero_sf. split; intros [H|H]; auto.
  - left. rewrite H. reflexivity.
  - left. apply Prim2SF_inj. exact H.
Qed.

Lemma F_add_opp x y : same_number ((- x) + (- y)) (- (x + y)).
Proof. apply same_sf. rewrite opp_spec, !add_spec, !opp_spec. apply add_opp. Qed.
Lemma F_sub_opp x y : same_number ((- x) - (- y)) (- (x - y)).
Proof. apply same_sf. rewrite opp_spec, !sub_spec, !opp_spec. apply sub_opp. Qed.
Lemma F_mul_opp_l x y : (- x) * y = - (x * y).
Proof. apply Prim2SF_inj. rewrite opp_spec, !mul_spec, opp_spec. apply mul_opp_l. Qed.
Lemma F_mul_opp_r x y : x * (- y) = - (x * y).
Proof. apply Prim2SF_inj. rewrite opp_spec, !mul_spec, opp_spec. apply mul_opp_r. Qed.
Lemma F_div_opp_l x y : (- x) / y = - (x / y).
Proof. apply Prim2SF_inj. rewrite opp_spec, !div_spec, opp_spec. apply div_opp_l. Qed.
Lemma F_opp_opp x : - (- x) = x.
Proof. apply Prim2SF_inj. rewrite !opp_spec. apply opp_opp. Qed.
Lemma F_mul_opp2 x y : (- x) * (- y) = x * y.
Proof. rewrite F_mul_opp_l, F_mul_opp_r. apply F_opp_opp. Qed.

Lemma n_refl x : same_number x x.
Proof. left. reflexivity. Qed.
Lemma n_sym x y : same_number x y -> same_number y x.
Proof. intros [->|[A B]]; [left; reflexivity|right; auto]. Qed.
Lemma n_trans x y z : same_number x y -> same_number y z -> same_number x z.
Proof. intros [->|[A B]] [->|[C D]]; [left; reflexivity|right; auto|right; auto|right; auto]. Qed.
Lemma n_opp x y : same_number x y -> same_number (- x) (- y).
Proof. rewrite !same_sf, !opp_spec. apply same_opp. Qed.
Lemma n_add x x' y y' : same_number x x' -> same_number y y' -> same_number (x + y) (x' + y').
Proof. rewrite !same_sf, !add_spec. apply same_add. Qed.
Lemma n_sub x x' y y' : same_number x x' -> same_number y y' -> same_number (x - y) (x' - y').
Proof. rewrite !same_sf, !sub_spec. apply same_sub. Qed.
Lemma n_mul x y y' : same_number y y' -> same_number (x * y) (x * y').
Proof. rewrite !same_sf, !mul_spec. apply same_mul. Qed.

(** ** Points *)
Section Points.
  Variable lnF : float -> float.
  Notation O := (Fops lnF).
  Notation negv := (map PrimFloat.opp).

  Lemma p_refl x : same_point x x.
  Proof. induction x; constructor; auto using n_refl. Qed.
  Lemma p_sym x y : same_point x y -> same_point y x.
  Proof. induction 1; constructor; auto using n_sym. Qed.
  Lemma p_trans x y z : same_point x y -> same_point y z -> same_point x z.
  Proof.
    intro H. revert z. induction H; intros z Hz; inversion Hz; subst; constructor; eauto using n_trans.
    apply IHForall2. assumption.
  Qed.
  Lemma p_neg x y : same_point x y -> same_point (negv x) (negv y).
  Proof. induction 1; constructor; auto using n_opp. Qed.
  Lemma p_add x x' y y' : same_point x x' -> same_point y y' -> same_point (vadd O x y) (vadd O x' y').
  Proof.
    intro H. revert y y'. induction H; intros u u' Hu; cbn; [constructor|].
    destruct Hu; [constructor|]. constructor; [apply n_add; assumption|apply IHForall2; assumption].
  Qed.
  Lemma p_sub x x' y y' : same_point x x' -> same_point y y' -> same_point (vsub O x y) (vsub O x' y').
  Proof.
    intro H. revert y y'. induction H; intros u u' Hu; cbn; [constructor|].
    destruct Hu; [constructor|]. constructor; [apply n_sub; assumption|apply IHForall2; assumption].
  Qed.
  Lemma p_scale c x y : same_point x y -> same_point (vscale O c x) (vscale O c y).
  Proof. unfold vscale. induction 1; constructor; auto. apply n_mul; assumption. Qed.
  Lemma add_neg x y : same_point (vadd O (negv x) (negv y)) (negv (vadd O x y)).
  Proof. revert y. induction x as [|a x IH]; intros [|b y]; cbn; try constructor; [apply F_add_opp|apply IH]. Qed.
  Lemma sub_neg x y : same_point (vsub O (negv x) (negv y)) (negv (vsub O x y)).
  Proof. revert y. induction x as [|a x IH]; intros [|b y]; cbn; try constructor; [apply F_sub_opp|apply IH]. Qed.
  Lemma scale_neg c x : vscale O c (negv x) = negv (vscale O c x).
  Proof. unfold vscale. rewrite !map_map. apply map_ext. intro a. apply F_mul_opp_r. Qed.
  Lemma scale_neg2 c x : vscale O (- c) (negv x) = vscale O c x.
  Proof. unfold vscale. rewrite map_map. apply map_ext. intro a. apply F_mul_opp2. Qed.

  (** [w] is the opposite of [v]. *)
  Definition opp_of (w v : list float) : Prop := same_point w (negv v).
  Lemma o_scale2 c w v : opp_of w v -> same_point (vscale O (- c) w) (vscale O c v).
  Proof. intro H. rewrite <- (scale_neg2 c v). apply p_scale. exact H. Qed.
  Lemma o_scale c w v : opp_of w v -> opp_of (vscale O c w) (vscale O c v).
  Proof. intro H. unfold opp_of. rewrite <- scale_neg. apply p_scale. exact H. Qed.
  Lemma o_add' w v w' v' : opp_of w v -> opp_of w' v' -> opp_of (vadd O w w') (vadd O v v').
  Proof. intros H H'. eapply p_trans; [apply p_add; eassumption|]. apply add_neg. Qed.
  Lemma o_sub' w v w' v' : opp_of w v -> opp_of w' v' -> opp_of (vsub O w w') (vsub O v v').
  Proof. intros H H'. eapply p_trans; [apply p_sub; eassumption|]. apply sub_neg. Qed.

  Notation neg_of v := (fun x => negv (v x)).

  Lemma field_neg v x y : blind_to_sign v -> same_point x y -> opp_of (neg_of v x) (v y).
  Proof. intros B H. apply p_neg. apply B. exact H. Qed.

  Lemma euler_neg v h x y : blind_to_sign v -> same_point x y ->
    same_point (textbook_euler O (neg_of v) (- h) x) (textbook_euler O v h y).
  Proof. intros B H. unfold textbook_euler. apply p_add; [exact H|]. apply o_scale2, field_neg; assumption. Qed.
  Lemma ab2_neg v h x y w u : blind_to_sign v -> same_point x y -> opp_of w u ->
    same_point (textbook_ab2 O (neg_of v) (- h) w x) (textbook_ab2 O v h u y).
  Proof.
    intros B H W. unfold textbook_ab2. apply p_add; [exact H|]. apply o_scale2. apply o_sub'.
    - apply o_scale, field_neg; assumption.
    - apply o_scale. exact W.
  Qed.
  Lemma rk4_neg v h x y : blind_to_sign v -> same_point x y ->
    same_point (textbook_rk4 O (neg_of v) (- h) x) (textbook_rk4 O v h y).
  Proof.
    intros B H. unfold textbook_rk4.
    change (o_mul O) with PrimFloat.mul. change (o_div O) with PrimFloat.div.
    rewrite F_mul_opp_r, F_div_opp_l.
    set (hh := (o_half O * h)%float).
    set (k1 := v y). set (k1' := negv (v x)).
    assert (K1 : opp_of k1' k1) by (apply field_neg; assumption).
    set (k2 := v (vadd O y (vscale O hh k1))). set (k2' := negv (v (vadd O x (vscale O (- hh) k1')))).
    assert (K2 : opp_of k2' k2) by (apply (field_neg v); [assumption|apply p_add; [exact H|apply o_scale2; exact K1]]).
    set (k3 := v (vadd O y (vscale O hh k2))). set (k3' := negv (v (vadd O x (vscale O (- hh) k2')))).
    assert (K3 : opp_of k3' k3) by (apply (field_neg v); [assumption|apply p_add; [exact H|apply o_scale2; exact K2]]).
    set (k4 := v (vadd O y (vscale O h k3))). set (k4' := negv (v (vadd O x (vscale O (- h) k3')))).
    assert (K4 : opp_of k4' k4) by (apply (field_neg v); [assumption|apply p_add; [exact H|apply o_scale2; exact K3]]).
    apply p_add; [exact H|]. apply o_scale2. repeat apply o_add'; try assumption; apply o_scale; assumption.
  Qed.

  Lemma euler_path_neg steps : Forall (fun a => blind_to_sign (fst a)) steps -> forall x y, same_point x y ->
    same_point (euler_path O (opposite steps) x) (euler_path O steps y).
  Proof. induction 1 as [|[v h] steps B _ IH]; intros x y H; cbn; [exact H|]. apply IH, euler_neg; assumption. Qed.
  Lemma rk4_path_neg steps : Forall (fun a => blind_to_sign (fst a)) steps -> forall x y, same_point x y ->
    same_point (rk4_path O (opposite steps) x) (rk4_path O steps y).
  Proof. induction 1 as [|[v h] steps B _ IH]; intros x y H; cbn; [exact H|]. apply IH, rk4_neg; assumption. Qed.
  Lemma ab2_path_neg steps : Forall (fun a => blind_to_sign (fst a)) steps -> forall x y w u, same_point x y ->
    match w, u with Some a, Some b => opp_of a b | None, None => True | _, _ => False end ->
    same_point (ab2_path O (opposite steps) w x) (ab2_path O steps u y).
  Proof.
    induction 1 as [|[v h] steps B _ IH]; intros x y w u H W; cbn; [exact H|].
    apply IH; [|apply (field_neg v); assumption].
    destruct w as [w|], u as [u|]; try contradiction; [apply ab2_neg|apply euler_neg]; assumption.
  Qed.
  Lemma path_neg m steps x y : Forall (fun a => blind_to_sign (fst a)) steps -> same_point x y ->
    same_point (path O m (opposite steps) x) (path O m steps y).
  Proof.
    intros B H. destruct m; cbn [path];
      [apply euler_path_neg|apply ab2_path_neg; auto|apply rk4_path_neg]; assumption.
  Qed.

  Lemma reverse_float {S S'} (interpolate : S -> mat float -> S * res (mat float)) I
    (interpolate' : S' -> mat float -> S' * res (mat float)) I' m hist hist' steps mems mems' k k' w w' s s' p :
    samples_field interpolate I -> samples_field interpolate' I' ->
    presents I hist steps -> presents I' hist' (opposite steps) -> I w s -> I' w' s' ->
    Forall (fun a => blind_to_sign (fst a)) steps ->
    exists i1 s1 p1 i2 s2 p2,
      integrate_seq O interpolate mems k (fresh m) s hist p = (i1, s1, p1, Ok tt) /\
      integrate_seq O interpolate' mems' k' (fresh m) s' hist' p = (i2, s2, p2, Ok tt) /\
      Forall2 same_point (mrows (positions p2)) (mrows (positions p1)).
  Proof.
    intros HS HS' HP HP' Hs Hs' B.
    destruct (seq_path O interpolate I HS mems k m hist steps w s p HP Hs) as (i1 & s1 & E1).
    destruct (seq_path O interpolate' I' HS' mems' k' m hist' (opposite steps) w' s' p HP' Hs') as (i2 & s2 & E2).
    do 6 eexists. split; [exact E1|]. split; [exact E2|]. cbn [positions set_positions mrows].
    generalize (mrows (positions p)). clear - B. induction l as [|x l IH]; cbn; constructor; [|exact IH].
    apply path_neg; [exact B|apply p_refl].
  Qed.
End Points.

(** Bit for bit it is false: a Runge-Kutta step whose velocities cancel, at -0. *)
Definition cancelling (x : list float) : list float :=
  map (fun a => if PrimFloat.eqb a 0 then 1 else if PrimFloat.eqb a 0.5 then -1 else 0) x.
Lemma cancelling_blind : blind_to_sign cancelling.
Proof.
  intros x y. unfold cancelling. induction 1 as [|a b x y H _ IH]; cbn; constructor; [|exact IH].
  destruct H as [->|[A B]]; [left; reflexivity|]. left. change (PrimFloat.eqb a 0 = true) in A. change (PrimFloat.eqb b 0 = true) in B. rewrite A, B. reflexivity.
Qed.
Lemma cancelling_differs lnF : path (Fops lnF) MRK4 [(cancelling, 1)] [neg_zero] <> path (Fops lnF) MRK4 (opposite [(cancelling, 1)]) [neg_zero].
Proof.
  intro H. apply (f_equal (map (fun x => PrimFloat.get_sign x))) in H. revert H.
  vm_compute. discriminate.
Qed.
