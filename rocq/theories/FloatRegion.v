(** Time integration in binary64 of a field that is only known in a region around the start of the particle. *)
From Coq Require Import Reals Lia Lra Psatz Floats.
From Flocq Require Import Core BinarySingleNaN PrimFloat.
From Verif Require Import Base Num Integrate SpecIntegrate SpecOrder SpecFloat64 SpecRounding SpecFloatRun SpecGridRun OrderFacts OrderRK4 IntegrateReal
  IntegrateMisc FloatArith FloatGrid FloatKernel FloatAxis FloatVec FloatSteps FloatPath.
Local Open Scope R_scope.

Lemma near_len e X Y : near e X Y -> length X = length Y.
Proof. intros [H _]. exact H. Qed.
Lemma near_sym e X Y : near e X Y -> near e Y X.
Proof. intros [H1 H2]. split; [symmetry; exact H1|]. intro i. rewrite Rabs_minus_sym. apply H2. Qed.
Lemma near_axpy d t X K c A Q : length X = d -> length K = d -> near A X c -> sized Q K -> near (A + Rabs t * Q) (X +v t *v K) c.
Proof.
  intros HX HK [HL HN] HQ. split; [rewrite (stage_length d t X K HX HK); congruence|]. intro i.
  rewrite coord_vadd, coord_vscale by (rewrite vscale_length; congruence).
  replace (coord i X + t * coord i K - coord i c) with ((coord i X - coord i c) + t * coord i K) by ring.
  apply abs_add2; [apply HN|apply abs_mul, HQ].
Qed.

Section Region.
  Context (lnF : PrimFloat.float -> PrimFloat.float).
  Local Notation O := (Fops lnF).
  Local Notation u := uround.
  Variables (d : nat) (B M delta L h : R) (hF : PrimFloat.float) (c : list R) (rho : R).
  Hypothesis HB : bpow radix2 (-100) <= B <= bpow radix2 800.
  Hypothesis HM : bpow radix2 (-500) <= M.
  Hypothesis Hd : 0 <= delta.
  Hypothesis HL : 0 <= L.
  Hypothesis HMd : M + delta <= bpow radix2 800.
  Hypothesis Hh : Rabs h <= bpow radix2 800.
  Hypothesis HhP : 6 * (Rabs h * (M + delta)) <= B.
  Hypothesis RhF : represents hF h.
  Hypothesis Hc : length c = d.
  Hypothesis HcB : forall X, near rho X c -> sized B X.
  Local Notation P := (M + delta).
  Local Notation gr := (growth B M delta h).
  Local Notation sp := (spread L h).
  Local Notation fe := (fresh_error B delta h).
  (** Floating-point vectors in the region. *)
  Definition inD (x : list PrimFloat.float) : Prop := exists X, stands x X /\ near rho X c.

  Section Field.
    Variables (f : list PrimFloat.float -> list PrimFloat.float) (v : list R -> list R).
    Hypothesis Hev : forall x X, stands x X -> near rho X c -> exists V, stands (f x) V /\ near delta V (v X).
    Hypothesis Hsp : forall X, near rho X c -> sized M (v X).
    Hypothesis Hlip : lipschitz_field d L (fun _ => v).

    Lemma near_d A X : near A X c -> length X = d.
    Proof. intros [H _]. congruence. Qed.

    Lemma velocity_D x X : stands x X -> near rho X c ->
      exists V, stands (f x) V /\ length V = d /\ sized P V /\
        forall e Z, length Z = d -> near e X Z -> near (delta + L * e) V (v Z).
    Proof.
      intros Sx SX. destruct (Hev x X Sx SX) as (V & SV & NV). exists V. split; [exact SV|].
      assert (LV : length V = d) by (destruct NV as [-> _]; apply (v_len d L _ Hlip); apply (near_d rho); exact SX). split; [exact LV|].
      split; [exact (near_sized _ _ _ _ NV (Hsp X SX))|].
      intros e Z HZ NZ. eapply near_tr; [exact NV|]. apply (v_lip d L _ Hlip); [apply (near_d rho); exact SX|exact HZ|exact NZ].
    Qed.

    Lemma gr_ge : Rabs h * P <= gr /\ 0 <= gr /\ 3 * u * B <= gr - 2 * (Rabs h * P) /\ 0 <= Rabs h * P.
    Proof.
      pose proof (uB_small B HB). pose proof (P_pos M delta HM Hd). pose proof (Rabs_pos h).
      assert (0 <= Rabs h * P) by (apply Rmult_le_pos; lra). unfold growth. lra.
    Qed.

    Lemma euler_D x X A : stands x X -> near A X c -> A <= rho ->
      exists Y, stands (textbook_euler O f hF x) Y /\ near (A + gr) Y c /\ inD x /\
        forall e Z, length Z = d -> near e X Z -> near (sp * e + fe) Y (textbook_euler Rops v h Z).
    Proof.
      intros Sx SX HA. pose proof (uB_small B HB) as UB. pose proof (P_pos M delta HM Hd) as PP. pose proof (Rabs_pos h) as H0.
      assert (HhP0 : 0 <= Rabs h * P) by (apply Rmult_le_pos; lra).
      pose proof (near_d A X SX) as HX. pose proof (near_le _ _ _ _ SX HA) as SR.
      destruct (velocity_D x X Sx SR) as (V & SV & LV & PV & NV).
      destruct (axpy_vec lnF d B M delta HB HM Hd HMd 1 hF h h x X (f x) V) as (Y & SY & LY & NY); try assumption; try lra.
      { rewrite Rminus_diag_eq, Rabs_R0 by reflexivity. destruct tiny_small.
        destruct uround_val. assert (0 <= u * Rabs h) by (apply Rmult_le_pos; lra). lra. }
      { apply HcB. exact SR. }
      { rewrite Rmult_1_l. exact PV. }
      exists Y. split; [exact SY|]. split; [|split; [exists X; split; assumption|]].
      - eapply near_le; [eapply near_trans; [exact NY|apply (near_axpy d); [exact HX|exact LV|exact SX|exact PV]]|]. unfold growth. lra.
      - intros e Z HZ NZ. unfold textbook_euler. pose proof (near_nonneg _ _ _ NZ) as E0.
        eapply near_up; [eapply near_tr; [exact NY|]; apply (near_stage d); [exact HX|exact HZ|exact LV|apply (v_len d L _ Hlip); exact HZ|exact NZ|exact (NV e Z HZ NZ)]|].
        unfold spread, fresh_error. assert (0 <= Rabs h * delta) by (apply Rmult_le_pos; lra).
        assert (0 <= Rabs h * L * e) by (apply Rmult_le_pos; [apply Rmult_le_pos; lra|exact E0]). lra.
    Qed.

    Lemma ab2_D x X A wF W : stands x X -> near A X c -> A <= rho -> stands wF W -> length W = d -> sized P W ->
      exists Y, stands (textbook_ab2 O f hF wF x) Y /\ near (A + gr) Y c /\ inD x /\
        forall e Z w, length Z = d -> near e X Z -> length w = d -> near (delta + L * e) W w ->
          near (sp * e + fe) Y (textbook_ab2 Rops v h w Z).
    Proof.
      intros Sx SX HA SW LW PW. pose proof (uB_small B HB) as UB. pose proof (P_pos M delta HM Hd) as PP. pose proof (Rabs_pos h) as H0.
      pose proof (tiny_P M delta HM Hd) as TP. destruct tiny_small as [T0 _]. destruct uround_val as [U0 U1].
      pose proof (small_mul P ltac:(lra)) as UP.
      assert (HhP0 : 0 <= Rabs h * P) by (apply Rmult_le_pos; lra).
      pose proof (near_d A X SX) as HX. pose proof (near_le _ _ _ _ SX HA) as SR.
      destruct (velocity_D x X Sx SR) as (V & SV & LV & PV & NV).
      destruct (zip_F _ (fun a b => 3 / 2 * a - 1 / 2 * b) P P (5 * u * P + 3 * tiny) ltac:(lra)
        (comb_F P (P_range M delta HM Hd HMd) lnF _ _ rep_three_halves_F rep_half_F) (f x) V SV wF W SW ltac:(congruence) PV PW) as (Dv & SD & ND).
      change (zip (fun a b => 3 / 2 * a - 1 / 2 * b) V W) with (zip (fun a b => o_sub Rops (o_mul Rops (3 / 2) a) (o_mul Rops (1 / 2) b)) V W) in ND.
      rewrite <- zip_comb in ND. fold (comb V W) in ND.
      assert (LD : length Dv = d) by (destruct ND as [-> _]; apply (comb_len d); assumption).
      assert (PD : sized (21 / 10 * P) Dv).
      { eapply sized_le; [eapply near_sized; [exact ND|apply (sized_comb d); eassumption]|]. lra. }
      match type of SD with stands ?k _ => destruct (axpy_vec lnF d B M delta HB HM Hd HMd (21 / 10) hF h h x X k Dv) as (Y & SY & LY & NY); try assumption; try lra end.
      { rewrite Rminus_diag_eq, Rabs_R0 by reflexivity. assert (0 <= u * Rabs h) by (apply Rmult_le_pos; lra). lra. }
      { apply HcB. exact SR. }
      assert (EhP : Rabs h * (5 * u * P + 3 * tiny) <= 9 / 10 * (u * B)).
      { apply Rle_trans with (Rabs h * (51 / 10 * (u * P))).
        - apply Rmult_le_compat_l; [exact H0|lra].
        - replace (Rabs h * (51 / 10 * (u * P))) with (51 / 10 * (u * (Rabs h * P))) by ring.
          assert (u * (Rabs h * P) <= u * (B / 6)) by (apply Rmult_le_compat_l; lra). lra. }
      assert (NY2 : near (4 * u * B) Y (X +v h *v comb V W)).
      { eapply near_up; [eapply near_tr; [exact NY|apply (near_stage d); [exact HX|exact HX|exact LD|apply (comb_len d); assumption|apply near_refl|exact ND]]|]. lra. }
      unfold textbook_ab2. rewrite zip_comb. exists Y. split; [exact SY|]. split; [|split; [exists X; split; assumption|]].
      - eapply near_le; [eapply near_trans; [exact NY2|apply (near_axpy d); [exact HX|apply (comb_len d); eassumption|exact SX|apply (sized_comb d); eassumption]]|].
        unfold growth. lra.
      - intros e Z w HZ NZ Lw Nw. pose proof (near_nonneg _ _ _ NZ) as E0.
        pose proof (v_len d L _ Hlip Z HZ) as LvZ.
        change (vsub Rops (vscale Rops (o_three_halves Rops) (v Z)) (vscale Rops (o_half Rops) w)) with (comb (v Z) w).
        eapply near_up; [eapply near_tr; [exact NY2|apply (near_stage d); [exact HX|exact HZ|apply (comb_len d); assumption|apply (comb_len d); assumption|exact NZ|apply (near_comb d); [assumption|assumption|assumption|assumption|exact (NV e Z HZ NZ)|exact Nw]]]|].
        unfold spread, fresh_error. lra.
    Qed.

    Lemma stage_D cF C c0 x X A k K : represents cF C -> Rabs (C - c0) <= 2 * u * Rabs c0 + 2 * tiny -> Rabs c0 <= Rabs h ->
      stands x X -> near A X c -> A + gr <= rho -> stands k K -> length K = d -> sized P K ->
      inD (vadd O x (vscale O cF k)) /\
      exists V, stands (f (vadd O x (vscale O cF k))) V /\ length V = d /\ sized P V /\
        forall e g Z w, length Z = d -> length w = d -> near e X Z -> near g K w ->
          near (delta + L * (3 * u * B + (e + Rabs c0 * g))) V (v (Z +v c0 *v w)).
    Proof.
      intros Rc HC Hc0 Sx SX HA Sk LK PK. pose proof (uB_small B HB) as UB. pose proof (P_pos M delta HM Hd) as PP. pose proof (Rabs_pos h) as H0.
      pose proof (Rabs_pos c0) as C0. destruct gr_ge as (G1 & G2 & G3 & G4).
      pose proof (near_d A X SX) as HX. assert (SR : near rho X c) by (eapply near_le; [exact SX|lra]).
      assert (Hc1 : Rabs c0 * P <= Rabs h * P) by (apply Rmult_le_compat_r; lra).
      destruct (axpy_vec lnF d B M delta HB HM Hd HMd 1 cF C c0 x X k K) as (S & SS & LS & NS); try assumption; try lra.
      { apply HcB. exact SR. }
      { rewrite Rmult_1_l. exact PK. }
      assert (NS' : near rho S c).
      { eapply near_le; [eapply near_trans; [exact NS|apply (near_axpy d); [exact HX|exact LK|exact SX|exact PK]]|]. lra. }
      destruct (velocity_D (vadd O x (vscale O cF k)) S SS NS') as (V & SV & LV & PV & NV).
      split; [exists S; split; assumption|].
      exists V. split; [exact SV|]. split; [exact LV|]. split; [exact PV|].
      intros e g Z w HZ Hw NZ Nw. apply NV; [apply stage_length; assumption|].
      eapply near_tr; [exact NS|]. apply (near_stage d); assumption.
    Qed.

    Lemma rk4_D x X A : Rabs h * L <= 1 -> stands x X -> near A X c -> A + gr <= rho ->
      exists Y, stands (textbook_rk4 O f hF x) Y /\ near (A + gr) Y c /\ rk4_asks O inD f hF x /\
        forall e Z, length Z = d -> near e X Z -> near (sp * e + fe) Y (textbook_rk4 Rops v h Z).
    Proof.
      intros HhL Sx SX HA. pose proof (uB_small B HB) as UB. pose proof (P_pos M delta HM Hd) as PP. pose proof (Rabs_pos h) as H0.
      destruct tiny_small as [T0 _]. destruct uround_val as [U0 U1]. pose proof (small_mul P ltac:(lra)) as UP.
      destruct gr_ge as (G1 & G2 & G3 & HhP0).
      pose proof (near_d A X SX) as HX. assert (SR : near rho X c) by (eapply near_le; [exact SX|lra]).
      destruct (half_F lnF h hF Hh RhF) as (C & RC & HC). destruct (sixth_F lnF h hF Hh RhF) as (C6 & RC6 & HC6).
      assert (Hc2 : Rabs (1 / 2 * h) = 1 / 2 * Rabs h) by (rewrite Rabs_mult, (Rabs_pos_eq (1 / 2)) by lra; reflexivity).
      assert (Hc6 : Rabs (h / 6) = Rabs h / 6) by (unfold Rdiv; rewrite Rabs_mult, (Rabs_pos_eq (/ 6)) by lra; reflexivity).
      destruct (velocity_D x X Sx SR) as (K1 & S1 & L1 & P1 & N1).
      set (k1 := f x) in *.
      destruct (stage_D _ C (1 / 2 * h) x X A k1 K1 RC HC ltac:(lra) Sx SX HA S1 L1 P1) as (Q2 & K2 & S2 & L2 & P2 & N2).
      set (k2 := f (vadd O x (vscale O (o_mul O (o_half O) hF) k1))) in *.
      destruct (stage_D _ C (1 / 2 * h) x X A k2 K2 RC HC ltac:(lra) Sx SX HA S2 L2 P2) as (Q3 & K3 & S3 & L3 & P3 & N3).
      set (k3 := f (vadd O x (vscale O (o_mul O (o_half O) hF) k2))) in *.
      destruct (stage_D hF h h x X A k3 K3 RhF ltac:(rewrite Rminus_diag_eq, Rabs_R0 by reflexivity; assert (0 <= u * Rabs h) by (apply Rmult_le_pos; lra); lra)
        ltac:(lra) Sx SX HA S3 L3 P3) as (Q4 & K4 & S4 & L4 & P4 & N4).
      assert (AS : rk4_asks O inD f hF x).
      { split; [exists X; split; assumption|]. split; [exact Q2|]. split; [exact Q3|exact Q4]. }
      set (k4 := f (vadd O x (vscale O hF k3))) in *.
      destruct (sum_F lnF d M delta HM Hd HMd k1 k2 k3 k4 K1 K2 K3 K4 S1 S2 S3 S4 L1 L2 L3 L4 P1 P2 P3 P4) as (Dv & SD & LD & ND).
      assert (PD : sized (63 / 10 * P) Dv).
      { eapply sized_le; [eapply near_sized; [exact ND|apply (sized_slopes d M delta); assumption]|]. lra. }
      match type of SD with stands ?k _ => destruct (axpy_vec lnF d B M delta HB HM Hd HMd (63 / 10) (o_div O hF (o_ofZ O 6)) C6 (h / 6) x X k Dv) as (Y & SY & LY & NY); try assumption; try lra end.
      { rewrite Hc6. lra. }
      { apply HcB. exact SR. }
      assert (EhP : Rabs (h / 6) * (25 * u * P) <= 7 / 10 * (u * B)).
      { rewrite Hc6. replace (Rabs h / 6 * (25 * u * P)) with (25 / 6 * (u * (Rabs h * P))) by field.
        assert (u * (Rabs h * P) <= u * (B / 6)) by (apply Rmult_le_compat_l; lra). lra. }
      pose proof (slopes_len d _ _ _ _ L1 L2 L3 L4) as LS.
      assert (NY2 : near (37 / 10 * (u * B)) Y (X +v (h / 6) *v slopes K1 K2 K3 K4)).
      { eapply near_up; [eapply near_tr; [exact NY|apply (near_stage d); [exact HX|exact HX|exact LD|exact LS|apply near_refl|exact ND]]|]. lra. }
      exists Y. split; [exact SY|]. split; [|split; [exact AS|]].
      - eapply near_le; [eapply near_trans; [exact NY2|apply (near_axpy d); [exact HX|exact LS|exact SX|apply (sized_slopes d M delta); assumption]]|].
        rewrite Hc6. unfold growth. lra.
      - intros e Z HZ NZ. pose proof (near_nonneg _ _ _ NZ) as E0. unfold textbook_rk4. cbv zeta.
        change (o_mul Rops (o_half Rops) h) with (1 / 2 * h). change (o_div Rops h (o_ofZ Rops 6)) with (h / 6).
        change (o_ofZ Rops 2) with 2. pose proof (v_len d L _ Hlip) as VL.
        pose proof (N1 e Z HZ NZ) as M1. pose proof (VL Z HZ) as J1. set (l1 := v Z) in *.
        pose proof (N2 e _ Z l1 HZ J1 NZ M1) as M2. assert (J2 : length (v (Z +v (1 / 2 * h) *v l1)) = d) by (apply VL, stage_length; assumption).
        set (l2 := v (Z +v (1 / 2 * h) *v l1)) in *.
        pose proof (N3 e _ Z l2 HZ J2 NZ M2) as M3. assert (J3 : length (v (Z +v (1 / 2 * h) *v l2)) = d) by (apply VL, stage_length; assumption).
        set (l3 := v (Z +v (1 / 2 * h) *v l2)) in *.
        pose proof (N4 e _ Z l3 HZ J3 NZ M3) as M4. assert (J4 : length (v (Z +v h *v l3)) = d) by (apply VL, stage_length; assumption).
        set (l4 := v (Z +v h *v l3)) in *. fold (slopes l1 l2 l3 l4). clearbody l1 l2 l3 l4.
        pose proof (slopes_len d _ _ _ _ J1 J2 J3 J4) as LS'.
        eapply near_up; [eapply near_tr; [exact NY2|apply (near_stage d); [exact HX|exact HZ|exact LS|exact LS'|exact NZ|apply (near_slopes d); try eassumption]]|].
        rewrite Hc6, Hc2. unfold spread, fresh_error.
        pose proof (rk4_arith delta L Hd HL (Rabs h) (delta + L * e) (3 * u * B) e (37 / 10 * (u * B)) H0 HhL eq_refl E0 ltac:(lra) ltac:(lra)) as F.
        cbv zeta in F. lra.
    Qed.
  End Field.

  (* ---- histories ---- *)
  Variables (N : nat) (f : nat -> list PrimFloat.float -> list PrimFloat.float) (v : nat -> list R -> list R).
  Hypothesis Hf : forall k, (k < N)%nat ->
    (forall x X, stands x X -> near rho X c -> exists V, stands (f k x) V /\ near delta V (v k X)) /\
    (forall X, near rho X c -> sized M (v k X)) /\ lipschitz_field d L (fun _ => v k).

  Lemma room_D n A : A + INR (S n) * gr <= rho -> A <= rho /\ A + gr <= rho /\ A + gr + INR n * gr <= rho.
  Proof.
    intro HA. destruct gr_ge as (_ & G & _). rewrite S_INR in HA. assert (0 <= INR n * gr) by (apply Rmult_le_pos; [apply pos_INR|assumption]). lra.
  Qed.

  Lemma euler_history n : forall j x X A, (j + n <= N)%nat -> stands x X -> near A X c -> A + INR n * gr <= rho ->
    let sF := map (fun k => (f k, hF)) (seq j n) in let sR := map (fun k => (v k, h)) (seq j n) in
    euler_asks O inD sF x /\ exists Y, stands (euler_path O sF x) Y /\
      forall e Z, length Z = d -> near e X Z -> near (accumulate sp fe n e) Y (euler_path Rops sR Z).
  Proof.
    induction n as [|n IH]; intros j x X A Hj Sx SX HA; cbn zeta.
    - split; [exact I|]. exists X. split; [exact Sx|]. intros e Z HZ NZ. exact NZ.
    - destruct (room_D n A HA) as (HA0 & HA1 & HA2). destruct (Hf j ltac:(lia)) as (E1 & E2 & E3).
      destruct (euler_D (f j) (v j) E1 E2 E3 x X A Sx SX HA0) as (Y & SY & NY & QY & KY).
      destruct (IH (S j) _ Y (A + gr) ltac:(lia) SY NY HA2) as (Q & Y' & SY' & KY').
      cbn [seq map euler_asks euler_path accumulate]. split; [split; [exact QY|exact Q]|]. exists Y'. split; [exact SY'|].
      intros e Z HZ NZ. apply KY'; [|apply KY; assumption]. apply stage_length; [exact HZ|apply (v_len d L _ E3); exact HZ].
  Qed.

  Lemma rk4_history n : Rabs h * L <= 1 -> forall j x X A, (j + n <= N)%nat -> stands x X -> near A X c -> A + INR n * gr <= rho ->
    let sF := map (fun k => (f k, hF)) (seq j n) in let sR := map (fun k => (v k, h)) (seq j n) in
    rk4_path_asks O inD sF x /\ exists Y, stands (rk4_path O sF x) Y /\
      forall e Z, length Z = d -> near e X Z -> near (accumulate sp fe n e) Y (rk4_path Rops sR Z).
  Proof.
    intro HhL. induction n as [|n IH]; intros j x X A Hj Sx SX HA; cbn zeta.
    - split; [exact I|]. exists X. split; [exact Sx|]. intros e Z HZ NZ. exact NZ.
    - destruct (room_D n A HA) as (HA0 & HA1 & HA2). destruct (Hf j ltac:(lia)) as (E1 & E2 & E3).
      destruct (rk4_D (f j) (v j) E1 E2 E3 x X A HhL Sx SX HA1) as (Y & SY & NY & QY & KY).
      destruct (IH (S j) _ Y (A + gr) ltac:(lia) SY NY HA2) as (Q & Y' & SY' & KY').
      cbn [seq map rk4_path_asks rk4_path accumulate]. split; [split; [exact QY|exact Q]|]. exists Y'. split; [exact SY'|].
      intros e Z HZ NZ. apply KY'; [|apply KY; assumption]. apply (rk4_length d (fun _ => v j) L E3 0 h Z HZ).
  Qed.

  Lemma ab2_history_D n : forall j x X A wF W, (j + n <= N)%nat -> stands x X -> near A X c -> A + INR n * gr <= rho ->
    remembers d M delta wF W ->
    let sF := map (fun k => (f k, hF)) (seq j n) in let sR := map (fun k => (v k, h)) (seq j n) in
    ab2_asks O inD sF wF x /\ exists Y, stands (ab2_path O sF wF x) Y /\
      forall e Z w, length Z = d -> near e X Z -> memory_near d delta L e W w ->
        near (accumulate sp fe n e) Y (ab2_path Rops sR w Z).
  Proof.
    induction n as [|n IH]; intros j x X A wF W Hj Sx SX HA HW; cbn zeta.
    - split; [exact I|]. exists X. split; [exact Sx|]. intros e Z w HZ NZ _. exact NZ.
    - destruct (room_D n A HA) as (HA0 & HA1 & HA2). destruct (Hf j ltac:(lia)) as (E1 & E2 & E3).
      destruct (velocity_D (f j) (v j) E1 E2 E3 x X Sx (near_le _ _ _ _ SX HA0)) as (V & SV & LV & PV & NV).
      assert (ST : exists Y, stands (match wF with None => textbook_euler O (f j) hF x | Some w => textbook_ab2 O (f j) hF w x end) Y /\
        near (A + gr) Y c /\ inD x /\ forall e Z w, length Z = d -> near e X Z -> memory_near d delta L e W w ->
          near (sp * e + fe) Y (match w with None => textbook_euler Rops (v j) h Z | Some w => textbook_ab2 Rops (v j) h w Z end) /\
          length (match w with None => textbook_euler Rops (v j) h Z | Some w => textbook_ab2 Rops (v j) h w Z end) = d).
      { destruct wF as [wF|], W as [W|]; cbn in HW; try contradiction.
        - destruct HW as (SW & LW & PW).
          destruct (ab2_D (f j) (v j) E1 E2 E3 x X A wF W Sx SX HA0 SW LW PW) as (Y & SY & ZY & QY & NY).
          exists Y. split; [exact SY|]. split; [exact ZY|]. split; [exact QY|].
          intros e Z [w|] HZ NZ Hm; cbn in Hm; [|contradiction]. destruct Hm as [Lw Nw].
          pose proof (NY e Z w HZ NZ Lw Nw) as NN. split; [exact NN|]. destruct NN as [<- _]. exact (near_d _ _ ZY).
        - destruct (euler_D (f j) (v j) E1 E2 E3 x X A Sx SX HA0) as (Y & SY & ZY & QY & NY).
          exists Y. split; [exact SY|]. split; [exact ZY|]. split; [exact QY|].
          intros e Z [w|] HZ NZ Hm; cbn in Hm; [contradiction|].
          pose proof (NY e Z HZ NZ) as NN. split; [exact NN|]. destruct NN as [<- _]. exact (near_d _ _ ZY). }
      destruct ST as (Y & SY & ZY & QY & NY).
      destruct (IH (S j) _ Y (A + gr) (Some (f j x)) (Some V) ltac:(lia) SY ZY HA2 (conj SV (conj LV PV))) as (AQ & Q & SQ & NQ).
      cbn [seq map ab2_asks ab2_path accumulate]. split; [split; [exact QY|exact AQ]|].
      exists Q. split; [exact SQ|]. intros e Z w HZ NZ Hm. destruct (NY e Z w HZ NZ Hm) as [NN LN].
      apply NQ; [exact LN|exact NN|].
      split; [apply (v_len d L _ E3); exact HZ|]. eapply near_up; [exact (NV e Z HZ NZ)|].
      pose proof (near_nonneg _ _ _ NZ).
      assert (L * e <= L * (sp * e + fe)) by (apply Rmult_le_compat_l; [exact HL|apply (sp_ge B delta L h HB Hd HL); assumption]). lra.
  Qed.

  Lemma history_D m n x X A : (m = MRK4 -> Rabs h * L <= 1) -> (n <= N)%nat -> stands x X -> near A X c -> A + INR n * gr <= rho ->
    asks O inD m (steps f hF n) x /\ exists Y, stands (path O m (steps f hF n) x) Y /\
      forall e Z, length Z = d -> near e X Z -> near (accumulate sp fe n e) Y (path Rops m (steps v h n) Z).
  Proof.
    intros Hm Hn Sx SX HA. destruct m; cbn [asks path]; unfold steps.
    - apply (euler_history n 0 x X A); try assumption; lia.
    - destruct (ab2_history_D n 0 x X A None None ltac:(lia) Sx SX HA I) as (Q & Y & SY & KY). split; [exact Q|].
      exists Y. split; [exact SY|]. intros e Z HZ NZ. apply KY; [exact HZ|exact NZ|exact I].
    - apply (rk4_history n (Hm eq_refl) 0 x X A); try assumption; lia.
  Qed.
End Region.
