(** Order of the Runge-Kutta method: one in unsteady flows, four in steady linear flows. *)
From Coq Require Import Reals Lra Lia Psatz.
From Verif Require Import Base Num SpecIntegrate SpecOrder IntegrateReal OrderFacts.
Local Open Scope R_scope.

Lemma near_stage d c e f x y k l : length x = d -> length y = d -> length k = d -> length l = d ->
  near e x y -> near f k l -> near (e + Rabs c * f) (x +v c *v k) (y +v c *v l).
Proof.
  intros Lx Ly Lk Ll [_ H1] [_ H2]. split.
  - rewrite !vadd_length, !vscale_length, Lx, Ly, Lk, Ll. reflexivity.
  - intro i. rewrite !coord_vadd, !coord_vscale by (rewrite vscale_length; congruence).
    replace (coord i x + c * coord i k - (coord i y + c * coord i l)) with ((coord i x - coord i y) + c * (coord i k - coord i l)) by ring.
    apply abs_add2; [apply H1|apply abs_mul, H2].
Qed.

Lemma near_add d e f x y k l : length x = d -> length y = d -> length k = d -> length l = d ->
  near e x y -> near f k l -> near (e + f) (x +v k) (y +v l).
Proof.
  intros Lx Ly Lk Ll [_ H1] [_ H2]. split.
  - rewrite !vadd_length, Lx, Ly, Lk, Ll. reflexivity.
  - intro i. rewrite !coord_vadd by congruence.
    replace (coord i x + coord i k - (coord i y + coord i l)) with ((coord i x - coord i y) + (coord i k - coord i l)) by ring.
    apply abs_add2; [apply H1|apply H2].
Qed.

Lemma stage_length d c x k : length x = d -> length k = d -> length (x +v c *v k) = d.
Proof. intros Hx Hk. rewrite vadd_length, vscale_length, Hx, Hk. apply Nat.min_id. Qed.
Lemma sum_length d (x k : list R) : length x = d -> length k = d -> length (x +v k) = d.
Proof. intros Hx Hk. rewrite vadd_length, Hx, Hk. apply Nat.min_id. Qed.

Section RK4.
  Variables (d : nat) (v : R -> list R -> list R) (L : R).
  Hypothesis Hv : lipschitz_field d L v.
  Hypothesis HL : 0 <= L.

  Let v_len t x : length x = d -> length (v t x) = d. Proof. apply Hv. Qed.

  Lemma rk4_length t h x : length x = d -> length (textbook_rk4 Rops (v t) h x) = d.
  Proof.
    intro Hx. unfold textbook_rk4. cbv zeta. repeat (first [apply stage_length|apply sum_length|apply v_len|exact Hx|rewrite vscale_length]).
  Qed.

  Lemma rk4_spread e t h x y : length x = d -> length y = d -> near e x y ->
    let z := Rabs h * L in
    near ((1 + z + z * z / 2 + z * z * z / 6 + z * z * z * z / 24) * e) (textbook_rk4 Rops (v t) h x) (textbook_rk4 Rops (v t) h y).
  Proof.
    intros Hx Hy Hn z. unfold textbook_rk4. cbv zeta.
    change (o_mul Rops (o_half Rops) h) with (1 / 2 * h). change (o_div Rops h (o_ofZ Rops 6)) with (h / 6).
    change (o_ofZ Rops 2) with 2.
    assert (Step : forall c f u w k l, length u = d -> length w = d -> length k = d -> length l = d ->
      near e u w -> near f k l ->
      length (v t (u +v c *v k)) = d /\ length (v t (w +v c *v l)) = d /\
      near (L * (e + Rabs c * f)) (v t (u +v c *v k)) (v t (w +v c *v l))).
    { intros c f u w k l Lu Lw Lk Ll Hu Hk.
      pose proof (stage_length d c u k Lu Lk) as S1. pose proof (stage_length d c w l Lw Ll) as S2.
      split; [apply v_len; exact S1|]. split; [apply v_len; exact S2|].
      apply (proj2 Hv); [exact S1|exact S2|]. apply (near_stage d); assumption. }
    pose proof (proj2 Hv t x y e Hx Hy Hn) as K1. pose proof (v_len t x Hx) as L1x. pose proof (v_len t y Hy) as L1y.
    set (k1 := v t x) in *. set (l1 := v t y) in *.
    destruct (Step (1 / 2 * h) _ x y k1 l1 Hx Hy L1x L1y Hn K1) as (L2x & L2y & K2).
    set (k2 := v t (x +v (1 / 2 * h) *v k1)) in *. set (l2 := v t (y +v (1 / 2 * h) *v l1)) in *.
    destruct (Step (1 / 2 * h) _ x y k2 l2 Hx Hy L2x L2y Hn K2) as (L3x & L3y & K3).
    set (k3 := v t (x +v (1 / 2 * h) *v k2)) in *. set (l3 := v t (y +v (1 / 2 * h) *v l2)) in *.
    destruct (Step h _ x y k3 l3 Hx Hy L3x L3y Hn K3) as (L4x & L4y & K4).
    set (k4 := v t (x +v h *v k3)) in *. set (l4 := v t (y +v h *v l3)) in *.
    clearbody k1 l1 k2 l2 k3 l3 k4 l4.
    eapply near_le.
    - apply (near_stage d); [exact Hx|exact Hy| | |exact Hn|].
      3:{ apply (near_add d); [| | | | |exact K4]; try assumption.
          3:{ apply (near_stage d); [| | | | |exact K3]; try assumption.
              3:{ apply (near_stage d); [| | | |exact K1|exact K2]; assumption. }
              all: apply stage_length; assumption. }
          all: apply stage_length; [apply stage_length|]; assumption. }
      all: apply sum_length; [apply stage_length; [apply stage_length|]|]; assumption.
    - right. unfold z. rewrite (Rabs_mult (1 / 2) h). replace (h / 6) with (/ 6 * h) by field.
      rewrite (Rabs_mult (/ 6) h). rewrite (Rabs_pos_eq (1 / 2)), (Rabs_pos_eq (/ 6)), (Rabs_pos_eq 2) by lra.
      field.
  Qed.

  (** The four stages differ little from the first one. *)
  Lemma rk4_near_euler B t h x : length x = d -> Rabs h * L <= 1 -> (forall i, Rabs (coord i (v t x)) <= B) ->
    near (L * B * (h * h)) (textbook_rk4 Rops (v t) h x) (textbook_euler Rops (v t) h x).
  Proof.
    intros Hx Hz HB. pose proof (v_len t x Hx) as L1.
    assert (HB0 : 0 <= B) by (apply Rle_trans with (2 := HB 0%nat); apply Rabs_pos).
    pose proof (Rabs_pos h) as Ph.
    assert (Hz0 : 0 <= Rabs h * L) by (apply Rmult_le_pos; assumption).
    assert (Step : forall c f k, length k = d -> near f k (v t x) ->
      length (v t (x +v c *v k)) = d /\ near (L * (Rabs c * (B + f))) (v t (x +v c *v k)) (v t x)).
    { intros c f k Lk [_ Hk]. pose proof (stage_length d c x k Hx Lk) as S1. split; [apply v_len; exact S1|].
      apply (proj2 Hv); [exact S1|exact Hx|]. split; [congruence|]. intro i.
      rewrite coord_vadd, coord_vscale by (rewrite vscale_length; congruence).
      replace (coord i x + c * coord i k - coord i x) with (c * (coord i (v t x) + (coord i k - coord i (v t x)))) by ring.
      apply abs_mul, abs_add2; auto. }
    unfold textbook_rk4, textbook_euler. cbv zeta.
    change (o_mul Rops (o_half Rops) h) with (1 / 2 * h). change (o_div Rops h (o_ofZ Rops 6)) with (h / 6).
    change (o_ofZ Rops 2) with 2.
    assert (Hh : Rabs (1 / 2 * h) = Rabs h / 2) by (rewrite Rabs_mult, Rabs_pos_eq by lra; field).
    set (k1 := v t x) in *. pose proof (near_refl k1) as K1.
    destruct (Step (1 / 2 * h) 0 k1 L1 K1) as (L2 & K2). set (k2 := v t (x +v (1 / 2 * h) *v k1)) in *.
    rewrite Hh in K2. assert (F2 : L * (Rabs h / 2 * (B + 0)) = Rabs h * L * B / 2) by field. rewrite F2 in K2.
    set (z := Rabs h * L) in *. assert (HzB : 0 <= z * B) by (apply Rmult_le_pos; assumption).
    destruct (Step (1 / 2 * h) _ k2 L2 K2) as (L3 & K3). set (k3 := v t (x +v (1 / 2 * h) *v k2)) in *.
    rewrite Hh in K3. apply (near_le _ (3 / 4 * (z * B))) in K3.
    2:{ replace (L * (Rabs h / 2 * (B + z * B / 2))) with (z * B / 2 + z * (z * B) / 4) by (unfold z; field). nra. }
    destruct (Step h _ k3 L3 K3) as (L4 & K4). set (k4 := v t (x +v h *v k3)) in *.
    apply (near_le _ (7 / 4 * (z * B))) in K4.
    2:{ replace (L * (Rabs h * (B + 3 / 4 * (z * B)))) with (z * B + z * (z * B) * (3 / 4)) by (unfold z; field). nra. }
    clearbody k1 k2 k3 k4.
    assert (Sx : length (k1 +v 2 *v k2) = d) by (apply stage_length; assumption).
    assert (Sy : length (k1 +v 2 *v k2 +v 2 *v k3) = d) by (apply stage_length; assumption).
    assert (Sz : length (k1 +v 2 *v k2 +v 2 *v k3 +v k4) = d) by (apply sum_length; assumption).
    split.
    { rewrite !vadd_length, !vscale_length, L1, Hx. rewrite Sz. reflexivity. }
    intro i.
    rewrite (coord_vadd i x (_ *v (_ +v k4))), coord_vscale, (coord_vadd i _ k4), (coord_vadd i _ (2 *v k3)), (coord_vadd i k1 (2 *v k2)), (coord_vadd i x (h *v k1)), !coord_vscale
      by (rewrite ?vscale_length; congruence).
    destruct K2 as [_ K2]. destruct K3 as [_ K3]. destruct K4 as [_ K4].
    specialize (K2 i). specialize (K3 i). specialize (K4 i).
    replace (coord i x + h / 6 * (coord i k1 + 2 * coord i k2 + 2 * coord i k3 + coord i k4) - (coord i x + h * coord i k1))
      with (h * (/ 6 * (2 * (coord i k2 - coord i k1) + (2 * (coord i k3 - coord i k1) + (coord i k4 - coord i k1))))) by field.
    replace (L * B * (h * h)) with (Rabs h * (z * B)) by (rewrite <- abs_sq; unfold z; ring).
    apply abs_mul.
    apply Rle_trans with (Rabs (/ 6) * (Rabs 2 * (z * B / 2) + (Rabs 2 * (3 / 4 * (z * B)) + 7 / 4 * (z * B)))).
    - apply abs_mul. apply abs_add2; [apply abs_mul, K2|]. apply abs_add2; [apply abs_mul, K3|exact K4].
    - rewrite (Rabs_pos_eq (/ 6)), (Rabs_pos_eq 2) by lra. lra.
  Qed.
End RK4.

Lemma rk4_first_order d v L M B n h t0 y x : lipschitz_field d L v -> 0 <= L -> 0 <= M -> Rabs h * L <= 1 ->
  trajectory d v t0 (t0 + INR n * h) y -> rate t0 (t0 + INR n * h) M (fun t => v t (y t)) ->
  (forall t i, between t0 (t0 + INR n * h) t -> Rabs (coord i (v t (y t))) <= B) -> x = y t0 ->
  near (Rabs h * (INR n * Rabs h * (M + L * B) * exp (INR n * Rabs h * L)))
    (path Rops MRK4 (snapshots v t0 h n) x) (y (t0 + INR n * h)).
Proof.
  intros Hv HL HM Hz Hy Hr HB ->. cbn [path]. unfold snapshots. rewrite rk4_fold.
  assert (HB0 : 0 <= B) by (apply Rle_trans with (2 := HB t0 0%nat (between_l _ _)); apply Rabs_pos).
  pose proof (Rabs_pos h) as Ph. assert (Hz0 : 0 <= Rabs h * L) by (apply Rmult_le_pos; assumption).
  set (z := Rabs h * L) in *.
  apply near_le with (accumulate (1 + z + z * z / 2 + z * z * z / 6 + z * z * z * z / 24) (L * B * (h * h) + M * (h * h)) n 0).
  - apply (one_step_method d (textbook_rk4 Rops) v t0 (t0 + INR n * h)).
    + intros t x Hx. eapply rk4_length; eassumption.
    + apply Hy.
    + intros t H1 H2. eapply near_trans.
      * apply (rk4_near_euler d v L Hv HL B); [apply Hy|exact Hz|]. intro i. apply HB. exact H1.
      * eapply euler_local; eassumption.
    + intros e t x Hx Hn. apply (rk4_spread d v L Hv); [exact Hx|apply Hy|exact Hn].
    + intros j Hj. apply between_step. lia.
    + apply Hy.
    + cbn. rewrite Rmult_0_l, Rplus_0_r. apply near_refl.
  - assert (0 <= z * z) by nra. assert (0 <= z * z * z) by (apply Rmult_le_pos; assumption).
    assert (0 <= z * z * z * z) by (apply Rmult_le_pos; assumption).
    assert (0 <= h * h) by nra. assert (0 <= L * B) by (apply Rmult_le_pos; assumption).
    eapply Rle_trans; [apply (accumulate_bound _ _ _ _ z); try lra|].
    + assert (0 <= L * B * (h * h)) by (apply Rmult_le_pos; assumption). assert (0 <= M * (h * h)) by (apply Rmult_le_pos; assumption). lra.
    + apply exp_ge4. exact Hz0.
    + rewrite <- abs_sq. right. replace (INR n * Rabs h * L) with (INR n * z) by (unfold z; ring). ring.
Qed.

(* ---- linear steady fields ---- *)

Definition poly (t c0 c1 c2 c3 c4 x : R) : R :=
  c0 + (x - t) * c1 + (x - t) * (x - t) * (c2 / 2) + (x - t) * (x - t) * (x - t) * (c3 / 6) +
  (x - t) * (x - t) * (x - t) * (x - t) * (c4 / 24).

Lemma poly_derivative t c0 c1 c2 c3 c4 x : derivable_pt_lim (poly t c0 c1 c2 c3 c4) x (poly t c1 c2 c3 c4 0 x).
Proof.
  assert (I : derivable_pt_lim (fun x => x - t) x 1).
  { replace 1 with (1 - 0) by ring. apply (derivable_pt_lim_minus (fun x => x) (fun _ => t)); [apply derivable_pt_lim_id|apply derivable_pt_lim_const]. }
  assert (C : forall c, derivable_pt_lim (fun _ => c) x 0) by (intro; apply derivable_pt_lim_const).
  pose proof (derivable_pt_lim_mult (fun x => x - t) (fun x => x - t) x _ _ I I) as I2.
  pose proof (derivable_pt_lim_mult (fun x => (x - t) * (x - t)) (fun x => x - t) x _ _ I2 I) as I3.
  pose proof (derivable_pt_lim_mult (fun x => (x - t) * (x - t) * (x - t)) (fun x => x - t) x _ _ I3 I) as I4.
  pose proof (derivable_pt_lim_mult _ _ x _ _ I (C c1)) as D1.
  pose proof (derivable_pt_lim_mult (fun x => (x - t) * (x - t)) _ x _ _ I2 (C (c2 / 2))) as D2.
  pose proof (derivable_pt_lim_mult (fun x => (x - t) * (x - t) * (x - t)) _ x _ _ I3 (C (c3 / 6))) as D3.
  pose proof (derivable_pt_lim_mult (fun x => (x - t) * (x - t) * (x - t) * (x - t)) _ x _ _ I4 (C (c4 / 24))) as D4.
  pose proof (derivable_pt_lim_plus _ _ x _ _ (derivable_pt_lim_plus _ _ x _ _ (derivable_pt_lim_plus _ _ x _ _
    (derivable_pt_lim_plus _ _ x _ _ (C c0) D1) D2) D3) D4) as D.
  match type of D with derivable_pt_lim _ _ ?l => replace (poly t c1 c2 c3 c4 0 x) with l end; [exact D|].
  unfold poly, mult_fct. field.
Qed.

Lemma taylor5 (f0 f1 f2 f3 f4 f5 : R -> R) t s K : 0 <= K ->
  (forall c, between t s c -> derivable_pt_lim f0 c (f1 c)) -> (forall c, between t s c -> derivable_pt_lim f1 c (f2 c)) ->
  (forall c, between t s c -> derivable_pt_lim f2 c (f3 c)) -> (forall c, between t s c -> derivable_pt_lim f3 c (f4 c)) ->
  (forall c, between t s c -> derivable_pt_lim f4 c (f5 c)) -> (forall c, between t s c -> Rabs (f5 c) <= K) ->
  Rabs (f0 s - poly t (f0 t) (f1 t) (f2 t) (f3 t) (f4 t) s) <= K * Rabs (s - t) ^ 5.
Proof.
  intros HK H0 H1 H2 H3 H4 H5.
  assert (Sub : forall c c', between t s c -> between t c c' -> between t s c').
  { intros c c' Hc Hc'. apply (between_sub t s t c); [apply between_l|exact Hc|exact Hc']. }
  assert (P0 : forall c0 c1 c2 c3 c4, poly t c0 c1 c2 c3 c4 t = c0) by (intros; unfold poly; field).
  assert (T4 : forall c, between t s c -> Rabs (f4 c - poly t (f4 t) 0 0 0 0 c) <= K * Rabs (c - t) ^ 1).
  { intros c Hc. apply (taylor_step f4 f5 _ (poly t 0 0 0 0 0) t c K 0 HK); [intros; apply H4; eauto|intros; apply poly_derivative|apply P0|].
    intros c' Hc'. replace (f5 c' - poly t 0 0 0 0 0 c') with (f5 c') by (unfold poly; field). cbn. rewrite Rmult_1_r. apply H5. eauto. }
  assert (T3 : forall c, between t s c -> Rabs (f3 c - poly t (f3 t) (f4 t) 0 0 0 c) <= K * Rabs (c - t) ^ 2).
  { intros c Hc. apply (taylor_step f3 f4 _ (poly t (f4 t) 0 0 0 0) t c K 1 HK); [intros; apply H3; eauto|intros; apply poly_derivative|apply P0|eauto]. }
  assert (T2 : forall c, between t s c -> Rabs (f2 c - poly t (f2 t) (f3 t) (f4 t) 0 0 c) <= K * Rabs (c - t) ^ 3).
  { intros c Hc. apply (taylor_step f2 f3 _ (poly t (f3 t) (f4 t) 0 0 0) t c K 2 HK); [intros; apply H2; eauto|intros; apply poly_derivative|apply P0|eauto]. }
  assert (T1 : forall c, between t s c -> Rabs (f1 c - poly t (f1 t) (f2 t) (f3 t) (f4 t) 0 c) <= K * Rabs (c - t) ^ 4).
  { intros c Hc. apply (taylor_step f1 f2 _ (poly t (f2 t) (f3 t) (f4 t) 0 0) t c K 3 HK); [intros; apply H1; eauto|intros; apply poly_derivative|apply P0|eauto]. }
  apply (taylor_step f0 f1 _ (poly t (f1 t) (f2 t) (f3 t) (f4 t) 0) t s K 4 HK); [assumption|intros; apply poly_derivative|apply P0|assumption].
Qed.
