(** One step of each integrator in binary64, and histories of steps. *)
From Coq Require Import Reals Lia Lra Psatz Floats.
From Flocq Require Import Core BinarySingleNaN PrimFloat.
From Verif Require Import Base Num SpecIntegrate SpecOrder SpecFloat64 SpecRounding OrderFacts OrderRK4 IntegrateReal
  FloatArith FloatGrid FloatKernel FloatAxis FloatVec.
Local Open Scope R_scope.

Lemma near_up e f X Y : near e X Y -> e <= f -> near f X Y.
Proof. exact (near_le e f X Y). Qed.

Lemma near_tr e f x z w : near e x z -> near f z w -> near (e + f) x w.
Proof. apply near_trans. Qed.

(** 3/2 V - 1/2 W *)
Definition comb (V W : list R) : list R := vsub Rops (vscale Rops (3 / 2) V) (vscale Rops (1 / 2) W).
Lemma comb_len d V W : length V = d -> length W = d -> length (comb V W) = d.
Proof. intros HV HW. unfold comb. rewrite vsub_length, !vscale_length, HV, HW. apply Nat.min_id. Qed.
Lemma coord_comb d i V W : length V = d -> length W = d -> coord i (comb V W) = 3 / 2 * coord i V - 1 / 2 * coord i W.
Proof. intros HV HW. unfold comb. rewrite coord_vsub, !coord_vscale by (rewrite !vscale_length; congruence). reflexivity. Qed.
Lemma near_comb d e f V W V' W' : length V = d -> length W = d -> length V' = d -> length W' = d ->
  near e V V' -> near f W W' -> near (3 / 2 * e + 1 / 2 * f) (comb V W) (comb V' W').
Proof.
  intros L1 L2 L3 L4 [_ H1] [_ H2]. split; [rewrite (comb_len d), (comb_len d) by assumption; reflexivity|].
  intro i. rewrite !(coord_comb d) by assumption. specialize (H1 i). specialize (H2 i). apply Rabs_le_inv in H1, H2. apply Rabs_le. lra.
Qed.
Lemma sized_comb d P V W : length V = d -> length W = d -> sized P V -> sized P W -> sized (2 * P) (comb V W).
Proof.
  intros L1 L2 HV HW i. rewrite (coord_comb d) by assumption. specialize (HV i). specialize (HW i).
  apply Rabs_le_inv in HV, HW. apply Rabs_le. lra.
Qed.

Section Step.
  Context (lnF : PrimFloat.float -> PrimFloat.float).
  Local Notation O := (Fops lnF).
  Local Notation u := uround.
  Variables (d : nat) (B M delta L h : R) (hF : PrimFloat.float).
  Hypothesis HB : bpow radix2 (-100) <= B <= bpow radix2 800.
  Hypothesis HM : bpow radix2 (-500) <= M.
  Hypothesis Hd : 0 <= delta.
  Hypothesis HL : 0 <= L.
  Hypothesis HMd : M + delta <= bpow radix2 800.
  Hypothesis Hh : Rabs h <= bpow radix2 800.
  Hypothesis HhP : 6 * (Rabs h * (M + delta)) <= B.
  Hypothesis RhF : represents hF h.
  Local Notation P := (M + delta).

  Lemma P_pos : 0 < P. Proof. pose proof (bpow_gt_0 radix2 (-500)). lra. Qed.
  Lemma P_range : 0 <= P <= bpow radix2 800. Proof. pose proof P_pos. lra. Qed.
  Lemma B_pos : 0 < B. Proof. pose proof (bpow_gt_0 radix2 (-100)). lra. Qed.
  Lemma tiny_P : 1000 * tiny <= u * P.
  Proof.
    apply Rle_trans with (u * bpow radix2 (-500)).
    - rewrite uround_bpow, <- bpow_plus. apply Rle_trans with (bpow radix2 (10 + -1075)).
      + rewrite bpow_plus. change (bpow radix2 10) with 1024. unfold tiny. pose proof (bpow_gt_0 radix2 (-1075)). lra.
      + apply bpow_le. lia.
    - apply Rmult_le_compat_l; [destruct uround_val; lra|lra].
  Qed.

  Section Field.
    Variables (f : list PrimFloat.float -> list PrimFloat.float) (v : list R -> list R).
    Hypothesis Hev : evaluates d B delta f v.
    Hypothesis Hsp : speed d B M v.
    Hypothesis Hlip : lipschitz_field d L (fun _ => v).

    Lemma v_len x : length x = d -> length (v x) = d.
    Proof. exact (proj1 Hlip 0 x). Qed.
    Lemma v_lip x y e : length x = d -> length y = d -> near e x y -> near (L * e) (v x) (v y).
    Proof. exact (proj2 Hlip 0 x y e). Qed.

    Lemma velocity_F x X : length X = d -> stands x X -> sized B X ->
      exists V, stands (f x) V /\ length V = d /\ sized P V /\
        forall e Z, length Z = d -> near e X Z -> near (delta + L * e) V (v Z).
    Proof.
      intros HX Sx SX. destruct (Hev x X HX Sx SX) as (V & SV & NV). exists V. split; [exact SV|].
      assert (LV : length V = d) by (destruct NV as [-> _]; apply v_len; exact HX). split; [exact LV|].
      split; [exact (near_sized _ _ _ _ NV (Hsp X HX SX))|].
      intros e Z HZ NZ. eapply near_tr; [exact NV|]. apply v_lip; assumption.
    Qed.

    Lemma axpy_vec m c C c0 x X k K : 0 < m <= 16 -> represents c C -> Rabs (C - c0) <= 2 * u * Rabs c0 + 2 * tiny ->
      Rabs c0 <= bpow radix2 800 -> Rabs c0 * (m * P) <= 4 / 10 * B ->
      stands x X -> stands k K -> length X = d -> length K = d -> sized B X -> sized (m * P) K ->
      exists Z, stands (vadd O x (vscale O c k)) Z /\ length Z = d /\ near (3 * u * B) Z (X +v c0 *v K).
    Proof.
      intros Hm Rc HC Hc0 Hcm Sx Sk HX HK SX SK.
      destruct (zip_F _ (fun a b => a + c0 * b) B (m * P) (3 * u * B)
        ltac:(pose proof B_pos; destruct uround_val; apply Rmult_le_pos; lra)
        (axpy_F B P HB P_range lnF m c C c0 Hm Rc HC Hc0 Hcm) x X Sx k K Sk ltac:(congruence) SX SK) as (Z & SZ & NZ).
      rewrite zip_axpy. exists Z. split; [exact SZ|].
      assert (E : X +v c0 *v K = zip (fun a b => a + c0 * b) X K) by (rewrite zip_axpy; reflexivity).
      rewrite E. split; [|exact NZ]. destruct NZ as [-> _]. rewrite <- E. apply stage_length; assumption.
    Qed.

    (** [g] bounds the growth of positions; [r] is the new error of a step. *)
    Definition growth : R := 2 * (Rabs h * P) + 4 * u * B.
    Definition spread : R := 1 + 2 * (Rabs h * L).
    Definition fresh_error : R := 2 * (Rabs h * delta) + 8 * u * B.

    Lemma uB_small : 0 < u * B <= B / 1000000.
    Proof.
      pose proof B_pos. destruct uround_val. pose proof (small_mul B ltac:(lra)).
      assert (0 < u * B) by (apply Rmult_lt_0_compat; lra). lra.
    Qed.

    Lemma euler_F x X A : length X = d -> stands x X -> sized A X -> A <= B ->
      exists Y, stands (textbook_euler O f hF x) Y /\ length Y = d /\ sized (A + growth) Y /\
        forall e Z, length Z = d -> near e X Z -> near (spread * e + fresh_error) Y (textbook_euler Rops v h Z).
    Proof.
      intros HX Sx SX HA. pose proof uB_small as UB. pose proof P_pos as PP. pose proof (Rabs_pos h) as H0.
      assert (HhP0 : 0 <= Rabs h * P) by (apply Rmult_le_pos; lra).
      destruct (velocity_F x X HX Sx (sized_le _ _ _ SX HA)) as (V & SV & LV & PV & NV).
      destruct (axpy_vec 1 hF h h x X (f x) V) as (Y & SY & LY & NY); try assumption; try lra.
      { rewrite Rminus_diag_eq, Rabs_R0 by reflexivity. destruct tiny_small. pose proof (Rabs_pos h).
        destruct uround_val. assert (0 <= u * Rabs h) by (apply Rmult_le_pos; lra). lra. }
      { apply (sized_le A); assumption. }
      { rewrite Rmult_1_l. exact PV. }
      exists Y. split; [exact SY|]. split; [exact LY|]. split.
      - eapply sized_le; [eapply near_sized; [exact NY|apply sized_axpy; [congruence|exact SX|exact PV]]|]. unfold growth. lra.
      - intros e Z HZ NZ. unfold textbook_euler. pose proof (near_nonneg _ _ _ NZ) as E0.
        eapply near_up; [eapply near_tr; [exact NY|]; apply (near_stage d); [exact HX|exact HZ|exact LV|apply v_len; exact HZ|exact NZ|exact (NV e Z HZ NZ)]|].
        unfold spread, fresh_error. assert (0 <= Rabs h * delta) by (apply Rmult_le_pos; lra).
        assert (0 <= Rabs h * L * e) by (apply Rmult_le_pos; [apply Rmult_le_pos; lra|exact E0]). lra.
    Qed.

    Lemma ab2_F x X A wF W : length X = d -> stands x X -> sized A X -> A <= B -> stands wF W -> length W = d -> sized P W ->
      exists Y, stands (textbook_ab2 O f hF wF x) Y /\ length Y = d /\ sized (A + growth) Y /\
        forall e Z w, length Z = d -> near e X Z -> length w = d -> near (delta + L * e) W w ->
          near (spread * e + fresh_error) Y (textbook_ab2 Rops v h w Z).
    Proof.
      intros HX Sx SX HA SW LW PW. pose proof uB_small as UB. pose proof P_pos as PP. pose proof (Rabs_pos h) as H0.
      pose proof tiny_P as TP. destruct tiny_small as [T0 _]. destruct uround_val as [U0 U1].
      pose proof (small_mul P ltac:(lra)) as UP.
      assert (HhP0 : 0 <= Rabs h * P) by (apply Rmult_le_pos; lra).
      destruct (velocity_F x X HX Sx (sized_le _ _ _ SX HA)) as (V & SV & LV & PV & NV).
      destruct (zip_F _ (fun a b => 3 / 2 * a - 1 / 2 * b) P P (5 * u * P + 3 * tiny) ltac:(lra)
        (comb_F P P_range lnF _ _ rep_three_halves_F rep_half_F) (f x) V SV wF W SW ltac:(congruence) PV PW) as (D & SD & ND).
      change (zip (fun a b => 3 / 2 * a - 1 / 2 * b) V W) with (zip (fun a b => o_sub Rops (o_mul Rops (3 / 2) a) (o_mul Rops (1 / 2) b)) V W) in ND.
      rewrite <- zip_comb in ND. fold (comb V W) in ND.
      assert (LD : length D = d) by (destruct ND as [-> _]; apply (comb_len d); assumption).
      assert (PD : sized (21 / 10 * P) D).
      { eapply sized_le; [eapply near_sized; [exact ND|apply (sized_comb d); eassumption]|]. lra. }
      match type of SD with stands ?k _ => destruct (axpy_vec (21 / 10) hF h h x X k D) as (Y & SY & LY & NY); try assumption; try lra end.
      { rewrite Rminus_diag_eq, Rabs_R0 by reflexivity. assert (0 <= u * Rabs h) by (apply Rmult_le_pos; lra). lra. }
      { apply (sized_le A); assumption. }
      assert (EhP : Rabs h * (5 * u * P + 3 * tiny) <= 9 / 10 * (u * B)).
      { apply Rle_trans with (Rabs h * (51 / 10 * (u * P))).
        - apply Rmult_le_compat_l; [exact H0|lra].
        - replace (Rabs h * (51 / 10 * (u * P))) with (51 / 10 * (u * (Rabs h * P))) by ring.
          assert (u * (Rabs h * P) <= u * (B / 6)) by (apply Rmult_le_compat_l; lra). lra. }
      assert (NY2 : near (4 * u * B) Y (X +v h *v comb V W)).
      { eapply near_up; [eapply near_tr; [exact NY|apply (near_stage d); [exact HX|exact HX|exact LD|apply (comb_len d); assumption|apply near_refl|exact ND]]|]. lra. }
      unfold textbook_ab2. rewrite zip_comb. exists Y. split; [exact SY|]. split; [exact LY|]. split.
      - eapply sized_le; [eapply near_sized; [exact NY2|apply sized_axpy; [rewrite (comb_len d) by assumption; exact HX|exact SX|apply (sized_comb d); eassumption]]|].
        unfold growth. lra.
      - intros e Z w HZ NZ Lw Nw. pose proof (near_nonneg _ _ _ NZ) as E0.
        pose proof (v_len Z HZ) as LvZ.
        change (vsub Rops (vscale Rops (o_three_halves Rops) (v Z)) (vscale Rops (o_half Rops) w)) with (comb (v Z) w).
        eapply near_up; [eapply near_tr; [exact NY2|apply (near_stage d); [exact HX|exact HZ|apply (comb_len d); assumption|apply (comb_len d); assumption|exact NZ|apply (near_comb d); [assumption|assumption|assumption|assumption|exact (NV e Z HZ NZ)|exact Nw]]]|].
        unfold spread, fresh_error. lra.
    Qed.

    (** A stage of RK4: x + c k. *)
    Lemma stage_F c C c0 x X A k K : represents c C -> Rabs (C - c0) <= 2 * u * Rabs c0 + 2 * tiny -> Rabs c0 <= Rabs h ->
      length X = d -> stands x X -> sized A X -> A <= 3 / 4 * B -> stands k K -> length K = d -> sized P K ->
      exists V, stands (f (vadd O x (vscale O c k))) V /\ length V = d /\ sized P V /\
        forall e g Z w, length Z = d -> length w = d -> near e X Z -> near g K w ->
          near (delta + L * (3 * u * B + (e + Rabs c0 * g))) V (v (Z +v c0 *v w)).
    Proof.
      intros Rc HC Hc HX Sx SX HA Sk LK PK. pose proof uB_small as UB. pose proof P_pos as PP. pose proof (Rabs_pos h) as H0.
      pose proof (Rabs_pos c0) as C0.
      assert (Hc1 : Rabs c0 * P <= Rabs h * P) by (apply Rmult_le_compat_r; lra).
      destruct (axpy_vec 1 c C c0 x X k K) as (S & SS & LS & NS); try assumption; try lra.
      { apply (sized_le A); [assumption|lra]. }
      { rewrite Rmult_1_l. exact PK. }
      destruct (velocity_F (vadd O x (vscale O c k)) S LS SS) as (V & SV & LV & PV & NV).
      { eapply sized_le; [eapply near_sized; [exact NS|apply sized_axpy; [congruence|exact SX|exact PK]]|]. lra. }
      exists V. split; [exact SV|]. split; [exact LV|]. split; [exact PV|].
      intros e g Z w HZ Hw NZ Nw. apply NV; [apply stage_length; assumption|].
      eapply near_tr; [exact NS|]. apply (near_stage d); assumption.
    Qed.

    Lemma twice_vec m a A b B' : 0 < m <= 16 -> stands a A -> stands b B' -> length A = d -> length B' = d ->
      sized (m * P) A -> sized P B' ->
      exists Z, stands (vadd O a (vscale O (o_ofZ O 2) b)) Z /\ length Z = d /\ near ((m + 5) * u * P + 2 * tiny) Z (A +v 2 *v B').
    Proof.
      intros Hm Sa Sb LA LB SA SB. pose proof P_pos as PP. destruct tiny_small as [T0 _]. destruct uround_val as [U0 _].
      assert (0 <= (m + 5) * u * P) by (repeat apply Rmult_le_pos; lra).
      destruct (zip_F _ (fun a b => a + 2 * b) (m * P) P ((m + 5) * u * P + 2 * tiny) ltac:(lra)
        (twice_F P P_range lnF m (F_ofZ 2) Hm (int_rep 2 ltac:(lia))) a A Sa b B' Sb ltac:(congruence) SA SB) as (Z & SZ & NZ).
      rewrite zip_axpy. exists Z. split; [exact SZ|].
      assert (E : A +v 2 *v B' = zip (fun a b => a + 2 * b) A B') by (rewrite zip_axpy; reflexivity).
      rewrite E. split; [|exact NZ]. destruct NZ as [-> _]. rewrite <- E. apply stage_length; assumption.
    Qed.

    Lemma plus_vec m a A b B' : 0 < m <= 16 -> stands a A -> stands b B' -> length A = d -> length B' = d ->
      sized (m * P) A -> sized P B' ->
      exists Z, stands (vadd O a b) Z /\ length Z = d /\ near ((m + 5) * u * P + 2 * tiny) Z (A +v B').
    Proof.
      intros Hm Sa Sb LA LB SA SB. pose proof P_pos as PP. destruct tiny_small as [T0 _]. destruct uround_val as [U0 _].
      assert (0 <= (m + 5) * u * P) by (repeat apply Rmult_le_pos; lra).
      destruct (zip_F _ Rplus (m * P) P ((m + 5) * u * P + 2 * tiny) ltac:(lra)
        (plus_F P P_range lnF m Hm) a A Sa b B' Sb ltac:(congruence) SA SB) as (Z & SZ & NZ).
      rewrite zip_add. exists Z. split; [exact SZ|]. change (A +v B') with (zip Rplus A B').
      split; [|exact NZ]. destruct NZ as [-> _]. apply sum_length; assumption.
    Qed.

    (** The weighted sum of the four slopes. *)
    Definition slopes (a b c e : list R) : list R := (a +v 2 *v b) +v 2 *v c +v e.
    Lemma slopes_len a b c e : length a = d -> length b = d -> length c = d -> length e = d -> length (slopes a b c e) = d.
    Proof. intros. unfold slopes. apply sum_length; [apply stage_length; [apply stage_length|]|]; assumption. Qed.
    Lemma sized_slopes a b c e : length a = d -> length b = d -> length c = d -> length e = d ->
      sized P a -> sized P b -> sized P c -> sized P e -> sized (6 * P) (slopes a b c e).
    Proof.
      intros La Lb Lc Le Sa Sb Sc Se i. unfold slopes.
      assert (LEN : length (a +v 2 *v b) = d) by (apply stage_length; assumption).
      rewrite coord_vadd by (rewrite stage_length with (d := d) by assumption; congruence).
      rewrite coord_vadd by (rewrite vscale_length; congruence). rewrite coord_vadd by (rewrite vscale_length; congruence).
      rewrite !coord_vscale. specialize (Sa i). specialize (Sb i). specialize (Sc i). specialize (Se i).
      apply Rabs_le_inv in Sa, Sb, Sc, Se. apply Rabs_le. lra.
    Qed.
    Lemma near_slopes e1 e2 e3 e4 a b c e a' b' c' e' : length a = d -> length b = d -> length c = d -> length e = d ->
      length a' = d -> length b' = d -> length c' = d -> length e' = d ->
      near e1 a a' -> near e2 b b' -> near e3 c c' -> near e4 e e' ->
      near (e1 + 2 * e2 + 2 * e3 + e4) (slopes a b c e) (slopes a' b' c' e').
    Proof.
      intros. unfold slopes. rewrite <- (Rabs_pos_eq 2) at 1 2 by lra.
      apply (near_add d); [apply stage_length; [apply stage_length|]; assumption|apply stage_length; [apply stage_length|]; assumption|assumption|assumption| |assumption].
      apply (near_stage d); [apply stage_length; assumption|apply stage_length; assumption|assumption|assumption| |assumption].
      apply (near_stage d); assumption.
    Qed.

    Lemma sum_F k1 k2 k3 k4 K1 K2 K3 K4 : stands k1 K1 -> stands k2 K2 -> stands k3 K3 -> stands k4 K4 ->
      length K1 = d -> length K2 = d -> length K3 = d -> length K4 = d -> sized P K1 -> sized P K2 -> sized P K3 -> sized P K4 ->
      exists D, stands (vadd O (vadd O (vadd O k1 (vscale O (o_ofZ O 2) k2)) (vscale O (o_ofZ O 2) k3)) k4) D /\
        length D = d /\ near (25 * u * P) D (slopes K1 K2 K3 K4).
    Proof.
      intros S1 S2 S3 S4 L1 L2 L3 L4 P1 P2 P3 P4. pose proof P_pos as PP. pose proof tiny_P as TP.
      destruct tiny_small as [T0 _]. pose proof (small_mul P ltac:(lra)) as UP.
      destruct (twice_vec 1 k1 K1 k2 K2) as (A & SA & LA & NA); try assumption; try lra. { rewrite Rmult_1_l. exact P1. }
      assert (ZA : sized (31 / 10 * P) A).
      { eapply sized_le; [eapply near_sized; [exact NA|apply sized_axpy; [congruence|exact P1|exact P2]]|]. rewrite (Rabs_pos_eq 2) by lra. lra. }
      destruct (twice_vec (31 / 10) _ A k3 K3 ltac:(lra) SA S3) as (C & SC & LC & NC); try assumption.
      assert (ZC : sized (52 / 10 * P) C).
      { eapply sized_le; [eapply near_sized; [exact NC|apply sized_axpy; [congruence|exact ZA|exact P3]]|]. rewrite (Rabs_pos_eq 2) by lra. lra. }
      destruct (plus_vec (52 / 10) _ C k4 K4 ltac:(lra) SC S4) as (D & SD & LD & ND); try assumption.
      exists D. split; [exact SD|]. split; [exact LD|]. unfold slopes.
      assert (LB : length (K1 +v 2 *v K2) = d) by (apply stage_length; assumption).
      assert (LE : length ((K1 +v 2 *v K2) +v 2 *v K3) = d) by (apply stage_length; assumption).
      eapply near_up.
      - eapply near_tr; [exact ND|]. apply (near_add d); [exact LC|exact LE|exact L4|exact L4| |apply near_refl].
        eapply near_tr; [exact NC|]. apply (near_stage d); [exact LA|exact LB|exact L3|exact L3|exact NA|apply near_refl].
      - rewrite Rmult_0_r. lra.
    Qed.

    Lemma half_F : exists C, represents (o_mul O (o_half O) hF) C /\ Rabs (C - 1 / 2 * h) <= 2 * u * Rabs (1 / 2 * h) + 2 * tiny.
    Proof.
      assert (Hh2 : Rabs (1 / 2 * h) <= bpow radix2 1000).
      { rewrite Rabs_mult, (Rabs_pos_eq (1 / 2)) by lra. apply Rle_trans with (bpow radix2 800); [pose proof (Rabs_pos h); lra|apply bpow_le; lia]. }
      destruct (mul_rep _ _ _ _ rep_half_F RhF Hh2) as (e & t & He & Ht & R). eexists. split; [exact R|].
      replace (1 / 2 * h * (1 + e) + t - 1 / 2 * h) with (1 / 2 * h * e + t) by ring.
      eapply Rle_trans; [apply Rabs_triang|]. rewrite (Rabs_mult (1 / 2 * h)).
      assert (Rabs (1 / 2 * h) * Rabs e <= Rabs (1 / 2 * h) * u) by (apply Rmult_le_compat_l; [apply Rabs_pos|exact He]).
      pose proof (Rabs_pos (1 / 2 * h)). destruct uround_val. assert (0 <= Rabs (1 / 2 * h) * u) by (apply Rmult_le_pos; lra).
      destruct tiny_small. lra.
    Qed.

    Lemma sixth_F : exists C, represents (o_div O hF (o_ofZ O 6)) C /\ Rabs (C - h / 6) <= 2 * u * Rabs (h / 6) + 2 * tiny.
    Proof.
      assert (R6 : represents (F_ofZ 6) 6) by exact (int_rep 6 ltac:(lia)).
      assert (Hh6 : Rabs (h / 6) <= bpow radix2 1000).
      { unfold Rdiv. rewrite Rabs_mult, (Rabs_pos_eq (/ 6)) by lra. apply Rle_trans with (bpow radix2 800); [pose proof (Rabs_pos h); lra|apply bpow_le; lia]. }
      destruct (div_rep_any _ _ _ _ RhF R6 ltac:(lra) Hh6) as (e & t & He & Ht & R & _). eexists. split; [exact R|].
      replace (h / 6 * (1 + e) + t - h / 6) with (h / 6 * e + t) by ring.
      eapply Rle_trans; [apply Rabs_triang|]. rewrite (Rabs_mult (h / 6)).
      assert (Rabs (h / 6) * Rabs e <= Rabs (h / 6) * u) by (apply Rmult_le_compat_l; [apply Rabs_pos|exact He]).
      pose proof (Rabs_pos (h / 6)). destruct uround_val. assert (0 <= Rabs (h / 6) * u) by (apply Rmult_le_pos; lra).
      destruct tiny_small. lra.
    Qed.

    Lemma rk4_arith a x g e t : 0 <= a -> a * L <= 1 -> x = delta + L * e -> 0 <= e -> 0 <= g ->
      t = 37 / 30 * g ->
      let x2 := delta + L * (g + (e + 1 / 2 * a * x)) in
      let x3 := delta + L * (g + (e + 1 / 2 * a * x2)) in
      let x4 := delta + L * (g + (e + a * x3)) in
      t + (e + a / 6 * (x + 2 * x2 + 2 * x3 + x4)) <= (1 + 2 * (a * L)) * e + (2 * (a * delta) + 8 / 3 * g).
    Proof.
      intros Ha Hb Hx He Hg Ht x2 x3 x4.
      set (b := a * L) in *. assert (B0 : 0 <= b) by (apply Rmult_le_pos; lra).
      assert (E2 : a * x2 = a * x + b * g + 1 / 2 * (b * (a * x))) by (unfold x2, b; rewrite Hx; ring).
      assert (E3 : a * x3 = a * x + b * g + 1 / 2 * (b * (a * x2))) by (unfold x3, b; rewrite Hx; ring).
      assert (E4 : a * x4 = a * x + b * g + b * (a * x3)) by (unfold x4, b; rewrite Hx; ring).
      assert (X0 : 0 <= a * x) by (rewrite Hx; apply Rmult_le_pos; [exact Ha|]; assert (0 <= L * e) by (apply Rmult_le_pos; assumption); lra).
      assert (Ex : a * x = a * delta + b * e) by (rewrite Hx; unfold b; ring).
      replace (a / 6 * (x + 2 * x2 + 2 * x3 + x4)) with (/ 6 * (a * x + 2 * (a * x2) + 2 * (a * x3) + a * x4)) by field.
      set (y := a * x) in *. set (y2 := a * x2) in *. set (y3 := a * x3) in *. set (y4 := a * x4) in *. clearbody y y2 y3 y4. clearbody b.
      assert (BG : 0 <= b * g <= g) by (split; [apply Rmult_le_pos; lra|]; rewrite <- (Rmult_1_l g) at 2; apply Rmult_le_compat_r; lra).
      assert (Y2 : 0 <= y2 <= 3 / 2 * y + b * g).
      { assert (0 <= b * y <= y) by (split; [apply Rmult_le_pos; lra|]; rewrite <- (Rmult_1_l y) at 2; apply Rmult_le_compat_r; lra). lra. }
      assert (Y3 : 0 <= y3 <= 7 / 4 * y + 3 / 2 * (b * g)).
      { assert (0 <= b * y2 <= y2) by (split; [apply Rmult_le_pos; lra|]; rewrite <- (Rmult_1_l y2) at 2; apply Rmult_le_compat_r; lra). lra. }
      assert (Y4 : 0 <= y4 <= 11 / 4 * y + 5 / 2 * (b * g)).
      { assert (0 <= b * y3 <= y3) by (split; [apply Rmult_le_pos; lra|]; rewrite <- (Rmult_1_l y3) at 2; apply Rmult_le_compat_r; lra). lra. }
      lra.
    Qed.

    Lemma rk4_F x X A : Rabs h * L <= 1 -> length X = d -> stands x X -> sized A X -> A <= 3 / 4 * B ->
      exists Y, stands (textbook_rk4 O f hF x) Y /\ length Y = d /\ sized (A + growth) Y /\
        forall e Z, length Z = d -> near e X Z -> near (spread * e + fresh_error) Y (textbook_rk4 Rops v h Z).
    Proof.
      intros HhL HX Sx SX HA. pose proof uB_small as UB. pose proof P_pos as PP. pose proof (Rabs_pos h) as H0.
      destruct tiny_small as [T0 _]. destruct uround_val as [U0 U1]. pose proof (small_mul P ltac:(lra)) as UP.
      assert (HhP0 : 0 <= Rabs h * P) by (apply Rmult_le_pos; lra).
      assert (HB34 : A <= B) by lra.
      destruct half_F as (C & RC & HC). destruct sixth_F as (C6 & RC6 & HC6).
      assert (Hc2 : Rabs (1 / 2 * h) = 1 / 2 * Rabs h) by (rewrite Rabs_mult, (Rabs_pos_eq (1 / 2)) by lra; reflexivity).
      assert (Hc6 : Rabs (h / 6) = Rabs h / 6) by (unfold Rdiv; rewrite Rabs_mult, (Rabs_pos_eq (/ 6)) by lra; reflexivity).
      destruct (velocity_F x X HX Sx (sized_le _ _ _ SX HB34)) as (K1 & S1 & L1 & P1 & N1).
      set (k1 := f x) in *.
      destruct (stage_F _ C (1 / 2 * h) x X A k1 K1 RC HC ltac:(lra) HX Sx SX HA S1 L1 P1) as (K2 & S2 & L2 & P2 & N2).
      set (k2 := f (vadd O x (vscale O (o_mul O (o_half O) hF) k1))) in *.
      destruct (stage_F _ C (1 / 2 * h) x X A k2 K2 RC HC ltac:(lra) HX Sx SX HA S2 L2 P2) as (K3 & S3 & L3 & P3 & N3).
      set (k3 := f (vadd O x (vscale O (o_mul O (o_half O) hF) k2))) in *.
      destruct (stage_F hF h h x X A k3 K3 RhF ltac:(rewrite Rminus_diag_eq, Rabs_R0 by reflexivity; assert (0 <= u * Rabs h) by (apply Rmult_le_pos; lra); lra)
        ltac:(lra) HX Sx SX HA S3 L3 P3) as (K4 & S4 & L4 & P4 & N4).
      set (k4 := f (vadd O x (vscale O hF k3))) in *.
      destruct (sum_F k1 k2 k3 k4 K1 K2 K3 K4 S1 S2 S3 S4 L1 L2 L3 L4 P1 P2 P3 P4) as (D & SD & LD & ND).
      assert (PD : sized (63 / 10 * P) D).
      { eapply sized_le; [eapply near_sized; [exact ND|apply sized_slopes; assumption]|]. lra. }
      match type of SD with stands ?k _ => destruct (axpy_vec (63 / 10) (o_div O hF (o_ofZ O 6)) C6 (h / 6) x X k D) as (Y & SY & LY & NY); try assumption; try lra end.
      { rewrite Hc6. lra. }
      { apply (sized_le A); assumption. }
      assert (EhP : Rabs (h / 6) * (25 * u * P) <= 7 / 10 * (u * B)).
      { rewrite Hc6. replace (Rabs h / 6 * (25 * u * P)) with (25 / 6 * (u * (Rabs h * P))) by field.
        assert (u * (Rabs h * P) <= u * (B / 6)) by (apply Rmult_le_compat_l; lra). lra. }
      pose proof (slopes_len _ _ _ _ L1 L2 L3 L4) as LS.
      assert (NY2 : near (37 / 10 * (u * B)) Y (X +v (h / 6) *v slopes K1 K2 K3 K4)).
      { eapply near_up; [eapply near_tr; [exact NY|apply (near_stage d); [exact HX|exact HX|exact LD|exact LS|apply near_refl|exact ND]]|]. lra. }
      exists Y. split; [exact SY|]. split; [exact LY|]. split.
      - eapply sized_le; [eapply near_sized; [exact NY2|apply sized_axpy; [congruence|exact SX|apply sized_slopes; assumption]]|].
        rewrite Hc6. unfold growth. lra.
      - intros e Z HZ NZ. pose proof (near_nonneg _ _ _ NZ) as E0. unfold textbook_rk4. cbv zeta.
        change (o_mul Rops (o_half Rops) h) with (1 / 2 * h). change (o_div Rops h (o_ofZ Rops 6)) with (h / 6).
        change (o_ofZ Rops 2) with 2.
        pose proof (N1 e Z HZ NZ) as M1. pose proof (v_len Z HZ) as J1. set (l1 := v Z) in *.
        pose proof (N2 e _ Z l1 HZ J1 NZ M1) as M2. assert (J2 : length (v (Z +v (1 / 2 * h) *v l1)) = d) by (apply v_len, stage_length; assumption).
        set (l2 := v (Z +v (1 / 2 * h) *v l1)) in *.
        pose proof (N3 e _ Z l2 HZ J2 NZ M2) as M3. assert (J3 : length (v (Z +v (1 / 2 * h) *v l2)) = d) by (apply v_len, stage_length; assumption).
        set (l3 := v (Z +v (1 / 2 * h) *v l2)) in *.
        pose proof (N4 e _ Z l3 HZ J3 NZ M3) as M4. assert (J4 : length (v (Z +v h *v l3)) = d) by (apply v_len, stage_length; assumption).
        set (l4 := v (Z +v h *v l3)) in *. fold (slopes l1 l2 l3 l4). clearbody l1 l2 l3 l4.
        pose proof (slopes_len _ _ _ _ J1 J2 J3 J4) as LS'.
        eapply near_up; [eapply near_tr; [exact NY2|apply (near_stage d); [exact HX|exact HZ|exact LS|exact LS'|exact NZ|apply near_slopes; try eassumption]]|].
        rewrite Hc6, Hc2. unfold spread, fresh_error.
        pose proof (rk4_arith (Rabs h) (delta + L * e) (3 * u * B) e (37 / 10 * (u * B)) H0 HhL eq_refl E0 ltac:(lra) ltac:(lra)) as F.
        cbv zeta in F. lra.
    Qed.
  End Field.
End Step.
