(** The order of accuracy of the integrators, as callers of [integrate] see it. *)
From Coq Require Import Reals Lra Lia Psatz.
From Verif Require Import Base Num Particles Integrate SpecIntegrate SpecOrder IntegrateReal IntegratePoint IntegrateMisc
  OrderFacts OrderAB2 OrderRK4 OrderSmooth OrderLinear.
Local Open Scope R_scope.

Section Lift.
  Context {S : Type} (interpolate : S -> mat R -> S * res (mat R)) (I : (list R -> list R) -> S -> Prop)
    (HI : samples_field interpolate I).

  Lemma order_lift (P : list R -> list R -> Prop) m steps : (forall x, P x (path Rops m steps x)) ->
    forall mems k hist w s p, presents I hist steps -> I w s ->
    exists i' s' p', integrate_seq Rops interpolate mems k (fresh m) s hist p = (i', s', p', Ok tt) /\
      Forall2 P (mrows (positions p)) (mrows (positions p')).
  Proof.
    intros H mems k hist w s p Hp Hs. destruct (seq_path Rops interpolate I HI mems k m hist steps w s p Hp Hs) as (i' & s' & E).
    exists i', s'. eexists. split; [exact E|]. destruct p as [pos ? ? ?]. cbn [set_positions positions mrows].
    induction (mrows pos) as [|x xs IH]; constructor; [apply H|exact IH].
  Qed.

  Lemma euler_global : forall d v L M n h t0, lipschitz_field d L v -> 0 <= L -> 0 <= M ->
    forall mems k hist w s p, presents I hist (snapshots v t0 h n) -> I w s ->
    exists i' s' p', integrate_seq Rops interpolate mems k (fresh MEuler) s hist p = (i', s', p', Ok tt) /\
      Forall2 (fun x0 x1 => forall y, y t0 = x0 -> trajectory d v t0 (t0 + INR n * h) y ->
          rate t0 (t0 + INR n * h) M (fun t => v t (y t)) ->
          near (Rabs h * (INR n * Rabs h * M * exp (INR n * Rabs h * L))) x1 (y (t0 + INR n * h)))
        (mrows (positions p)) (mrows (positions p')).
  Proof.
    intros d v L M n h t0 Hv HL HM. apply order_lift. intros x y <- Hy Hr. eapply euler_order; try eassumption; reflexivity.
  Qed.

  Lemma ab2_global : forall d v L M K n h t0, lipschitz_field d L v -> 0 <= L -> 0 <= M -> 0 <= K ->
    forall mems k hist w s p, presents I hist (snapshots v t0 h n) -> I w s ->
    exists i' s' p', integrate_seq Rops interpolate mems k (fresh MAB2) s hist p = (i', s', p', Ok tt) /\
      Forall2 (fun x0 x1 => forall y acc, y t0 = x0 -> trajectory d v t0 (t0 + INR n * h) y ->
          rate t0 (t0 + INR n * h) M (fun t => v t (y t)) ->
          derivative t0 (t0 + INR n * h) (fun t => v t (y t)) acc -> rate t0 (t0 + INR n * h) K acc ->
          near (h * h * ((M + 3 / 2 * K * (INR n * Rabs h)) * exp (2 * (INR n * Rabs h * L)))) x1 (y (t0 + INR n * h)))
        (mrows (positions p)) (mrows (positions p')).
  Proof.
    intros d v L M K n h t0 Hv HL HM HK. apply order_lift. intros x y acc <- Hy Hr Ha Hk. eapply ab2_order; try eassumption; reflexivity.
  Qed.

  Lemma rk4_global : forall d v L M B n h t0, lipschitz_field d L v -> 0 <= L -> 0 <= M -> Rabs h * L <= 1 ->
    forall mems k hist w s p, presents I hist (snapshots v t0 h n) -> I w s ->
    exists i' s' p', integrate_seq Rops interpolate mems k (fresh MRK4) s hist p = (i', s', p', Ok tt) /\
      Forall2 (fun x0 x1 => forall y, y t0 = x0 -> trajectory d v t0 (t0 + INR n * h) y ->
          rate t0 (t0 + INR n * h) M (fun t => v t (y t)) ->
          (forall t i, between t0 (t0 + INR n * h) t -> Rabs (coord i (v t (y t))) <= B) ->
          near (Rabs h * (INR n * Rabs h * (M + L * B) * exp (INR n * Rabs h * L))) x1 (y (t0 + INR n * h)))
        (mrows (positions p)) (mrows (positions p')).
  Proof.
    intros d v L M B n h t0 Hv HL HM Hz. apply order_lift. intros x y <- Hy Hr HB. eapply rk4_first_order; try eassumption; reflexivity.
  Qed.

  Lemma rk4_linear_global : forall d A b L K n h t0, linear_on d A -> length b = d ->
    lipschitz_field d L (fun _ x => A x +v b) -> 0 <= L -> 0 <= K ->
    forall mems k hist w s p, presents I hist (snapshots (fun _ x => A x +v b) t0 h n) -> I w s ->
    exists i' s' p', integrate_seq Rops interpolate mems k (fresh MRK4) s hist p = (i', s', p', Ok tt) /\
      Forall2 (fun x0 x1 => forall y, y t0 = x0 -> trajectory d (fun _ x => A x +v b) t0 (t0 + INR n * h) y ->
          (forall t i, between t0 (t0 + INR n * h) t -> Rabs (coord i (A (A (A (A (A (y t) +v b)))))) <= K) ->
          near (h ^ 4 * (INR n * Rabs h * K * exp (INR n * Rabs h * L))) x1 (y (t0 + INR n * h)))
        (mrows (positions p)) (mrows (positions p')).
  Proof.
    intros d A b L K n h t0 HA Hb Hv HL HK. apply order_lift. intros x y <- Hy HB. eapply rk4_linear_order; try eassumption; reflexivity.
  Qed.
End Lift.

Lemma rk4_smooth_global : forall d L M K r T, 0 <= L -> 0 <= M -> exists C, forall S (interpolate : S -> mat R -> S * res (mat R)) I,
  samples_field interpolate I ->
  forall v n h t0, lipschitz_field d L (fun _ => v) -> INR n * Rabs h <= T -> Rabs h * L <= 1 -> 2 * Rabs h * M <= r ->
  forall mems k hist w s p, presents I hist (snapshots (fun _ => v) t0 h n) -> I w s ->
  exists i' s' p', integrate_seq Rops interpolate mems k (fresh MRK4) s hist p = (i', s', p', Ok tt) /\
    Forall2 (fun x0 x1 => forall y, y t0 = x0 -> trajectory d (fun _ => v) t0 (t0 + INR n * h) y ->
        (forall t, between t0 (t0 + INR n * h) t -> (forall i, Rabs (coord i (v (y t))) <= M) /\ taylor3 d K r v (y t)) ->
        near (C * h ^ 4) x1 (y (t0 + INR n * h)))
      (mrows (positions p)) (mrows (positions p')).
Proof.
  intros d L M K r T HL HM. destruct (rk4_fourth_order d L M K r T HL HM) as (C & _ & H). exists C.
  intros S interpolate I HI v n h t0 Hv HT Hz Hr. apply (order_lift interpolate I HI). intros x y <- Hy HB. eapply H; try eassumption; reflexivity.
Qed.

(** The accelerated flow: v = t, and x = t^2 / 2 from rest. *)
Definition fall (t : R) : list R := [t * t / 2].

Lemma accel_lipschitz : lipschitz_field 1 0 accel.
Proof.
  split; [reflexivity|]. intros t x y e _ _ N. unfold accel. pose proof (near_nonneg _ _ _ N).
  eapply near_le; [apply near_refl|lra].
Qed.

Lemma fall_trajectory a b : trajectory 1 accel a b fall.
Proof.
  split; [reflexivity|]. intros t _ [|i]; cbn.
  - assert (D : derivable_pt_lim (fun s => s * s / 2) t ((1 * t + t * 1) * / 2 + t * t * 0)).
    { apply (derivable_pt_lim_mult (fun s => s * s) (fun _ => / 2)); [|apply derivable_pt_lim_const].
      apply (derivable_pt_lim_mult (fun s => s) (fun s => s)); apply derivable_pt_lim_id. }
    unfold coord. cbn. replace ((1 * t + t * 1) * / 2 + t * t * 0) with t in D by field. exact D.
  - unfold coord. destruct i; cbn; apply derivable_pt_lim_const.
Qed.

Lemma rk4_unsteady : forall {S} (interpolate : S -> mat R -> S * res (mat R)) I, samples_field interpolate I ->
  forall C N, exists n h, (N <= n)%nat /\ 0 < h /\ INR n * h = 1 /\
  forall mems k hist w s p, positions p = Mat 1 [[0]] -> presents I hist (snapshots (fun t _ => [t]) 0 h n) -> I w s ->
  exists i' s' p' x1, integrate_seq Rops interpolate mems k (fresh MRK4) s hist p = (i', s', p', Ok tt) /\
    mrows (positions p') = [x1] /\ ~ near (C * h ^ 2) x1 [1 / 2].
Proof.
  intros S interpolate I HI C N. pose proof (Rabs_pos C) as PC.
  assert (exists n0, 2 * Rabs C < INR n0) as (n0 & Hn0).
  { destruct (archimed_cor1 (/ (2 * Rabs C + 1))) as (n0 & H1 & H2); [apply Rinv_0_lt_compat; lra|].
    exists n0. apply lt_INR in H2. cbn in H2. destruct (Rlt_le_dec (2 * Rabs C) (INR n0)) as [H|H]; [exact H|exfalso].
    assert (/ (2 * Rabs C + 1) <= / INR n0) by (apply Rinv_le_contravar; lra). lra. }
  set (n := (Nat.max N (Datatypes.S n0))).
  assert (Hn : 2 * Rabs C < INR n) by (eapply Rlt_le_trans; [exact Hn0|apply le_INR; unfold n; lia]).
  assert (Pn : 0 < INR n) by (apply lt_0_INR; unfold n; lia).
  exists n, (/ INR n). split; [unfold n; lia|]. split; [apply Rinv_0_lt_compat; exact Pn|].
  assert (E1 : INR n * / INR n = 1) by (field; lra). split; [exact E1|].
  intros mems k hist w s p Hpos Hp Hs.
  destruct (seq_path Rops interpolate I HI mems k MRK4 hist _ w s p Hp Hs) as (i' & s' & E).
  change (fun (t : R) (_ : list R) => [t]) with accel in E.
  exists i', s'. eexists. eexists. split; [exact E|]. rewrite Hpos. destruct p as [pos ? ? ?]. cbn [set_positions positions mrows map].
  split; [reflexivity|]. rewrite accel_error, E1. intros [_ H]. specialize (H 0%nat). unfold coord in H. cbn [nth] in H.
  replace (1 * 1 / 2 - / INR n * 1 / 2 - 1 / 2) with (- (/ INR n / 2)) in H by lra.
  assert (Pi : 0 < / INR n) by (apply Rinv_0_lt_compat; exact Pn).
  rewrite Rabs_Ropp, Rabs_pos_eq in H by lra.
  pose proof (Rle_abs C). set (h := / INR n) in *.
  assert (C * h < 1 / 2).
  { apply Rmult_lt_reg_r with (INR n); [exact Pn|]. unfold h. replace (C * / INR n * INR n) with C by (field; lra). lra. }
  cbn in H. nra.
Qed.

(* ---- a case: the unit circle ---- *)

Definition circle (t : R) : list R := [cos t; sin t].

Lemma rot_lipschitz : lipschitz_field 2 1 (fun _ => rot_field).
Proof.
  split.
  - intros _ [|a [|b [|? ?]]] H; try discriminate; reflexivity.
  - intros _ [|a [|b [|? ?]]] [|a' [|b' [|? ?]]] e H1 H2 [_ N]; try discriminate. split; [reflexivity|].
    pose proof (N 0%nat) as N0. pose proof (N 1%nat) as N1. unfold coord in *. cbn [nth] in *.
    assert (0 <= e) by (eapply Rle_trans; [apply Rabs_pos|exact N0]).
    intros [|[|i]]; cbn [nth rot_field].
    + replace (- b - - b') with (- (b - b')) by ring. rewrite Rabs_Ropp. lra.
    + lra.
    + destruct i; cbn; rewrite Rminus_0_r, Rabs_R0; lra.
Qed.

Lemma circle_trajectory a b : trajectory 2 (fun _ => rot_field) a b circle.
Proof.
  split; [reflexivity|]. intros t _ [|[|i]]; unfold coord; cbn.
  - apply derivable_pt_lim_cos.
  - apply derivable_pt_lim_sin.
  - destruct i; cbn; apply derivable_pt_lim_const.
Qed.

Lemma circle_rotates a b : derivative a b (fun t => rot_field (circle t)) (fun t => rot_field (rot_field (circle t))).
Proof.
  intros t _ [|[|i]]; unfold coord; cbn.
  - apply (derivable_pt_lim_opp sin). apply derivable_pt_lim_sin.
  - apply derivable_pt_lim_cos.
  - destruct i; cbn; apply derivable_pt_lim_const.
Qed.

Lemma lipschitz_by (f g : R -> R) s t : (forall c, derivable_pt_lim f c (g c)) -> (forall c, Rabs (g c) <= 1) ->
  Rabs (f s - f t) <= 1 * Rabs (s - t).
Proof.
  intros D B. destruct (mean_value f g t s) as (c & _ & E); [intros; apply D|].
  rewrite E, Rabs_mult. apply Rmult_le_compat_r; [apply Rabs_pos|apply B].
Qed.

Lemma circle_rate1 a b : rate a b 1 (fun t => rot_field (circle t)).
Proof.
  intros s t _ _ [|[|i]]; unfold coord; cbn [nth rot_field circle].
  - apply (lipschitz_by (fun t => - sin t) (fun t => - cos t)).
    + intro c. apply (derivable_pt_lim_opp sin). apply derivable_pt_lim_sin.
    + intro c. rewrite Rabs_Ropp. apply Rabs_le. apply COS_bound.
  - apply (lipschitz_by cos (fun t => - sin t)).
    + apply derivable_pt_lim_cos.
    + intro c. rewrite Rabs_Ropp. apply Rabs_le. apply SIN_bound.
  - destruct i; cbn; rewrite Rminus_0_r, Rabs_R0, Rmult_1_l; apply Rabs_pos.
Qed.

Lemma circle_rate2 a b : rate a b 1 (fun t => rot_field (rot_field (circle t))).
Proof.
  intros s t _ _ [|[|i]]; unfold coord; cbn [nth rot_field circle].
  - apply (lipschitz_by (fun t => - cos t) (fun t => - - sin t)).
    + intro c. apply (derivable_pt_lim_opp cos). apply derivable_pt_lim_cos.
    + intro c. rewrite Ropp_involutive. apply Rabs_le. apply SIN_bound.
  - apply (lipschitz_by (fun t => - sin t) (fun t => - cos t)).
    + intro c. apply (derivable_pt_lim_opp sin). apply derivable_pt_lim_sin.
    + intro c. rewrite Rabs_Ropp. apply Rabs_le. apply COS_bound.
  - destruct i; cbn; rewrite Rminus_0_r, Rabs_R0, Rmult_1_l; apply Rabs_pos.
Qed.

Lemma circle_speed t i : Rabs (coord i (rot_field (circle t))) <= 1.
Proof.
  destruct i as [|[|i]]; unfold coord; cbn [nth rot_field circle].
  - rewrite Rabs_Ropp. apply Rabs_le. apply SIN_bound.
  - apply Rabs_le. apply COS_bound.
  - destruct i; cbn; rewrite Rabs_R0; lra.
Qed.

(** As a field [A x + b] with [b] = 0. *)
Lemma rot_shift x : length x = 2%nat -> rot_field x +v [0; 0] = rot_field x.
Proof. destruct x as [|a [|b [|? ?]]]; intro H; try discriminate. cbn. f_equal; [ring|f_equal; ring]. Qed.

Lemma rot_shift_lipschitz : lipschitz_field 2 1 (fun _ x => rot_field x +v [0; 0]).
Proof.
  destruct rot_lipschitz as (H1 & H2). split.
  - intros t x Hx. rewrite rot_shift by exact Hx. apply (H1 t x Hx).
  - intros t x y e Hx Hy N. rewrite !rot_shift by assumption. apply (H2 t x y e Hx Hy N).
Qed.

Lemma circle_shift_trajectory a b : trajectory 2 (fun _ x => rot_field x +v [0; 0]) a b circle.
Proof.
  destruct (circle_trajectory a b) as (H1 & H2). split; [exact H1|]. intros t Ht i. rewrite rot_shift by apply H1. apply (H2 t Ht i).
Qed.

Lemma circle_fifth t i : Rabs (coord i (rot_field (rot_field (rot_field (rot_field (rot_field (circle t) +v [0; 0])))))) <= 1.
Proof.
  rewrite rot_shift by reflexivity. pose proof (circle_speed t i) as H. unfold circle in *. cbn [rot_field] in *.
  rewrite ?Ropp_involutive. exact H.
Qed.

(** A nonlinear steady flow: the shear v = (1, cos x), whose particle from the origin is at (t, sin t). *)
Definition shear (x : list R) : list R := [1; cos (coord 0 x)].
Definition wave (t : R) : list R := [t; sin t].

Lemma wave_trajectory a b : trajectory 2 (fun _ => shear) a b wave.
Proof.
  split; [reflexivity|]. intros t _ [|[|i]]; cbn.
  - apply derivable_pt_lim_id.
  - apply derivable_pt_lim_sin.
  - destruct i; apply derivable_pt_lim_const.
Qed.

Lemma derivable_cos x : derivable_pt_lim cos x (- sin x). Proof. apply derivable_pt_lim_cos. Qed.
Lemma derivable_msin x : derivable_pt_lim (fun x => - sin x) x (- cos x).
Proof. apply (derivable_pt_lim_opp sin x (cos x)), derivable_pt_lim_sin. Qed.
Lemma derivable_mcos x : derivable_pt_lim (fun x => - cos x) x (sin x).
Proof. replace (sin x) with (- - sin x) by ring. apply (derivable_pt_lim_opp cos x (- sin x)), derivable_pt_lim_cos. Qed.

Lemma abs_sin x : Rabs (sin x) <= 1. Proof. apply Rabs_le. apply SIN_bound. Qed.
Lemma abs_cos x : Rabs (cos x) <= 1. Proof. apply Rabs_le. apply COS_bound. Qed.

Lemma shear_lipschitz : lipschitz_field 2 1 (fun _ => shear).
Proof.
  split; [reflexivity|]. intros t x y e Lx Ly [_ N]. split; [reflexivity|]. rewrite Rmult_1_l.
  assert (P : 0 <= e) by (apply Rle_trans with (2 := N 0%nat); apply Rabs_pos).
  intros [|[|i]]; cbn.
  - rewrite Rminus_diag_eq, Rabs_R0 by reflexivity. exact P.
  - apply Rle_trans with (2 := N 0%nat). rewrite <- (Rmult_1_l (Rabs (coord 0 x - coord 0 y))). apply (lipschitz_by cos (fun x => - sin x)); [apply derivable_cos|].
    intro. rewrite Rabs_Ropp. apply abs_sin.
  - destruct i; rewrite Rminus_diag_eq, Rabs_R0 by reflexivity; exact P.
Qed.

Lemma cos_taylor x z : Rabs (cos (x + z) - (cos x + - sin x * z + / 2 * (- cos x * z * z) + / 6 * (sin x * z * z * z))) <= Rabs z ^ 4.
Proof.
  set (t := x). set (s := x + z).
  assert (P0 : forall c0 c1 c2 c3 c4, poly t c0 c1 c2 c3 c4 t = c0) by (intros; unfold poly; field).
  assert (H1 : 0 <= 1) by lra.
  assert (T3 : forall c, Rabs (sin c - poly t (sin t) 0 0 0 0 c) <= 1 * Rabs (c - t) ^ 1).
  { intro c. apply (taylor_step sin cos _ (poly t 0 0 0 0 0) t c 1 0 H1); [intros; apply derivable_pt_lim_sin|intros; apply poly_derivative|apply P0|].
    intros c' _. replace (cos c' - poly t 0 0 0 0 0 c') with (cos c') by (unfold poly; field). cbn. rewrite Rmult_1_r. apply abs_cos. }
  assert (T2 : forall c, Rabs (- cos c - poly t (- cos t) (sin t) 0 0 0 c) <= 1 * Rabs (c - t) ^ 2).
  { intro c. apply (taylor_step (fun x => - cos x) sin _ (poly t (sin t) 0 0 0 0) t c 1 1 H1); [intros; apply derivable_mcos|intros; apply poly_derivative|apply P0|auto]. }
  assert (T1 : forall c, Rabs (- sin c - poly t (- sin t) (- cos t) (sin t) 0 0 c) <= 1 * Rabs (c - t) ^ 3).
  { intro c. apply (taylor_step (fun x => - sin x) (fun x => - cos x) _ (poly t (- cos t) (sin t) 0 0 0) t c 1 2 H1); [intros; apply derivable_msin|intros; apply poly_derivative|apply P0|auto]. }
  pose proof (taylor_step cos (fun x => - sin x) _ _ t s 1 3 H1 (fun c _ => derivable_cos c)
    (fun c _ => poly_derivative t (cos t) (- sin t) (- cos t) (sin t) 0 c) (P0 _ _ _ _ _) (fun c _ => T1 c)) as F.
  unfold s, t in *. replace (x + z - x) with z in F by ring. rewrite Rmult_1_l in F.
  match type of F with Rabs ?u <= _ => match goal with |- Rabs ?w <= _ => replace w with u; [exact F|] end end.
  unfold poly. field.
Qed.

Definition at1 (i : nat) (q : R) : R := match i with 1%nat => q | _ => 0 end.
Definition at0 (i : nat) (q : R) : R := match i with O => q | _ => 0 end.

Lemma shear_taylor r x : taylor3 2 1 r shear x.
Proof.
  exists (fun i j => at1 i (at0 j (- sin (coord 0 x)))), (fun i j k => at1 i (at0 j (at0 k (- cos (coord 0 x))))),
    (fun i j k l => at1 i (at0 j (at0 k (at0 l (sin (coord 0 x)))))).
  assert (Z : Rabs 0 <= 1) by (rewrite Rabs_R0; lra).
  assert (A1 : forall i q, Rabs q <= 1 -> Rabs (at1 i q) <= 1) by (intros i q H; destruct i as [|[|i]]; unfold at1; [exact Z|exact H|exact Z]).
  assert (A0 : forall i q, Rabs q <= 1 -> Rabs (at0 i q) <= 1) by (intros i q H; destruct i as [|i]; unfold at0; [exact H|exact Z]).
  split; [intros; apply A1, A0; rewrite Rabs_Ropp; apply abs_sin|].
  split; [intros; apply A1, A0, A0; rewrite Rabs_Ropp; apply abs_cos|].
  split; [intros; apply A1, A0, A0, A0, abs_sin|].
  intros y e Ly _ [_ N] i Hi. cbv zeta.
  assert (P : Rabs (coord 0 y - coord 0 x) <= e) by apply N.
  assert (P4 : Rabs (coord 0 y - coord 0 x) ^ 4 <= e ^ 4) by (apply pow_incr; split; [apply Rabs_pos|exact P]).
  rewrite Rmult_1_l.
  destruct i as [|[|i]]; [| |lia]; unfold total, at1, at0.
  - change (coord 0 (shear y)) with 1. change (coord 0 (shear x)) with 1.
    match goal with |- Rabs ?w <= _ => replace w with 0 by ring end. rewrite Rabs_R0.
    apply Rle_trans with (2 := P4). apply pow_le, Rabs_pos.
  - change (coord 1 (shear y)) with (cos (coord 0 y)). change (coord 1 (shear x)) with (cos (coord 0 x)).
    apply Rle_trans with (2 := P4). pose proof (cos_taylor (coord 0 x) (coord 0 y - coord 0 x)) as C.
    replace (coord 0 x + (coord 0 y - coord 0 x)) with (coord 0 y) in C by ring.
    match type of C with Rabs ?u <= _ => match goal with |- Rabs ?w <= _ => replace w with u; [exact C|] end end.
    ring.
Qed.

Lemma shear_case : forall n h, lipschitz_field 2 1 (fun _ => shear) /\ trajectory 2 (fun _ => shear) 0 (0 + INR n * h) wave /\
  forall t, between 0 (0 + INR n * h) t -> (forall i, Rabs (coord i (shear (wave t))) <= 1) /\ taylor3 2 1 1 shear (wave t).
Proof.
  intros n h. split; [exact shear_lipschitz|]. split; [apply wave_trajectory|]. intros t _. split; [|apply shear_taylor].
  intros [|[|i]]; cbn; [rewrite Rabs_R1; lra|apply abs_cos|destruct i; rewrite Rabs_R0; lra].
Qed.
