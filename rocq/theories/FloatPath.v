(** Histories of steps of each integrator in binary64. *)
From Coq Require Import Reals Lia Lra Psatz Floats.
From Flocq Require Import Core BinarySingleNaN PrimFloat.
From Verif Require Import Base Num Particles Integrate SpecIntegrate SpecOrder SpecFloat64 SpecRounding OrderFacts OrderRK4 IntegrateReal
  IntegrateMisc FloatArith FloatGrid FloatKernel FloatAxis FloatVec FloatSteps.
Local Open Scope R_scope.

Section Path.
  Context (lnF : PrimFloat.float -> PrimFloat.float).
  Local Notation O := (Fops lnF).
  Local Notation u := uround.
  Variables (N d : nat) (B M delta L h : R) (hF : PrimFloat.float).
  Variables (f : nat -> list PrimFloat.float -> list PrimFloat.float) (v : nat -> list R -> list R).
  Hypothesis HB : bpow radix2 (-100) <= B <= bpow radix2 800.
  Hypothesis HM : bpow radix2 (-500) <= M.
  Hypothesis Hd : 0 <= delta.
  Hypothesis HL : 0 <= L.
  Hypothesis HMd : M + delta <= bpow radix2 800.
  Hypothesis Hh : Rabs h <= bpow radix2 800.
  Hypothesis HhP : 6 * (Rabs h * (M + delta)) <= B.
  Hypothesis RhF : represents hF h.
  Hypothesis Hf : forall k, (k < N)%nat ->
    evaluates d B delta (f k) (v k) /\ speed d B M (v k) /\ lipschitz_field d L (fun _ => v k).
  Local Notation P := (M + delta).
  Local Notation gr := (growth B M delta h).
  Local Notation sp := (spread L h).
  Local Notation fe := (fresh_error B delta h).

  Lemma gr_pos : 0 <= gr.
  Proof.
    pose proof (uB_small B HB). pose proof (P_pos M delta HM Hd). pose proof (Rabs_pos h).
    assert (0 <= Rabs h * P) by (apply Rmult_le_pos; lra). unfold growth. lra.
  Qed.
  Lemma room n A : A + INR (S n) * gr <= 3 / 4 * B -> A <= 3 / 4 * B /\ A + gr + INR n * gr <= 3 / 4 * B.
  Proof.
    intro HA. pose proof gr_pos. rewrite S_INR in HA. assert (0 <= INR n * gr) by (apply Rmult_le_pos; [apply pos_INR|assumption]). lra.
  Qed.
  Lemma B0' : 0 < B. Proof. exact (B_pos B HB). Qed.

  Lemma one_step (FF : (list PrimFloat.float -> list PrimFloat.float) -> list PrimFloat.float -> list PrimFloat.float)
      (FR : (list R -> list R) -> list R -> list R) :
    (forall k, (k < N)%nat -> forall x X A, length X = d -> stands x X -> sized A X -> A <= 3 / 4 * B ->
      exists Y, stands (FF (f k) x) Y /\ length Y = d /\ sized (A + gr) Y /\
        forall e Z, length Z = d -> near e X Z -> near (sp * e + fe) Y (FR (v k) Z)) ->
    (forall k, (k < N)%nat -> forall Z, length Z = d -> length (FR (v k) Z) = d) ->
    forall n j x X A, (j + n <= N)%nat -> length X = d -> stands x X -> sized A X -> A + INR n * gr <= 3 / 4 * B ->
    exists Y, stands (fold_left (fun x vh => FF (fst vh) x) (map (fun k => (f k, hF)) (seq j n)) x) Y /\
      length Y = d /\
      forall e Z, length Z = d -> near e X Z ->
        near (accumulate sp fe n e) Y (fold_left (fun x vh => FR (fst vh) x) (map (fun k => (v k, h)) (seq j n)) Z).
  Proof.
    intros HS HR. induction n as [|n IH]; intros j x X A Hj HX Sx SX HA.
    - exists X. split; [exact Sx|]. split; [exact HX|]. intros e Z HZ NZ. exact NZ.
    - destruct (room n A HA) as [HA0 HA1].
      destruct (HS j ltac:(lia) x X A HX Sx SX HA0) as (Y & SY & LY & ZY & NY).
      destruct (IH (S j) (FF (f j) x) Y (A + gr) ltac:(lia) LY SY ZY HA1) as (W & SW & LW & NW).
      exists W. split; [exact SW|]. split; [exact LW|]. intros e Z HZ NZ.
      cbn [seq map fold_left fst accumulate]. apply NW; [apply HR; [lia|exact HZ]|]. apply NY; assumption.
  Qed.

  Lemma euler_foldO {T} (OO : ops T) steps x : euler_path OO steps x = fold_left (fun x vh => textbook_euler OO (fst vh) (snd vh) x) steps x.
  Proof. revert x. induction steps as [|[w g] r IH]; intro x; [reflexivity|]. cbn. apply IH. Qed.
  Lemma rk4_foldO {T} (OO : ops T) steps x : rk4_path OO steps x = fold_left (fun x vh => textbook_rk4 OO (fst vh) (snd vh) x) steps x.
  Proof. revert x. induction steps as [|[w g] r IH]; intro x; [reflexivity|]. cbn. apply IH. Qed.

  Lemma fold_const {T S} (g : (list T -> list T) -> T -> S -> S) (w : nat -> list T -> list T) (c : T) l x :
    fold_left (fun x vh => g (fst vh) (snd vh) x) (map (fun k => (w k, c)) l) x =
    fold_left (fun x vh => g (fst vh) c x) (map (fun k => (w k, c)) l) x.
  Proof. revert x. induction l as [|a l IH]; intro x; [reflexivity|]. cbn. apply IH. Qed.

  Definition tracks (m : method) (n : nat) : Prop :=
    forall x X A, length X = d -> stands x X -> sized A X -> A + INR n * gr <= 3 / 4 * B ->
    exists Y, stands (path O m (steps f hF n) x) Y /\ length Y = d /\
      forall e Z, length Z = d -> near e X Z -> near (accumulate sp fe n e) Y (path Rops m (steps v h n) Z).

  Lemma euler_tracks n : (n <= N)%nat -> tracks MEuler n.
  Proof.
    intros Hn x X A HX Sx SX HA. unfold path. rewrite euler_foldO. unfold steps. rewrite fold_const.
    destruct (one_step (fun w x => textbook_euler O w hF x) (fun w x => textbook_euler Rops w h x)) with (n := n) (j := 0%nat) (x := x) (X := X) (A := A)
      as (Y & SY & LY & NY); try assumption.
    - intros k Hk x' X' A' H1 H2 H3 H4. destruct (Hf k Hk) as (E1 & E2 & E3). pose proof B0'. apply (euler_F lnF d B M delta L h hF); try assumption. lra.
    - intros k Hk Z HZ. destruct (Hf k Hk) as (_ & _ & E3). apply stage_length; [exact HZ|apply (v_len d L _ E3); exact HZ].
    - exists Y. split; [exact SY|]. split; [exact LY|]. intros e Z HZ NZ. rewrite euler_foldO, fold_const. apply NY; assumption.
  Qed.

  Lemma rk4_tracks n : Rabs h * L <= 1 -> (n <= N)%nat -> tracks MRK4 n.
  Proof.
    intros HhL Hn x X A HX Sx SX HA. unfold path. rewrite rk4_foldO. unfold steps. rewrite fold_const.
    destruct (one_step (fun w x => textbook_rk4 O w hF x) (fun w x => textbook_rk4 Rops w h x)) with (n := n) (j := 0%nat) (x := x) (X := X) (A := A)
      as (Y & SY & LY & NY); try assumption.
    - intros k Hk x' X' A' H1 H2 H3 H4. destruct (Hf k Hk) as (E1 & E2 & E3). apply (rk4_F lnF d B M delta L h hF); assumption.
    - intros k Hk Z HZ. destruct (Hf k Hk) as (_ & _ & E3). apply (rk4_length d (fun _ => v k) L E3 0 h Z HZ).
    - exists Y. split; [exact SY|]. split; [exact LY|]. intros e Z HZ NZ. rewrite rk4_foldO, fold_const. apply NY; assumption.
  Qed.

  (** The remembered velocity, if any. *)
  Definition remembers (wF : option (list PrimFloat.float)) (W : option (list R)) : Prop :=
    match wF, W with
    | None, None => True
    | Some a, Some b => stands a b /\ length b = d /\ sized P b
    | _, _ => False
    end.
  Definition memory_near (e : R) (W w : option (list R)) : Prop :=
    match W, w with
    | None, None => True
    | Some a, Some b => length b = d /\ near (delta + L * e) a b
    | _, _ => False
    end.

  Lemma sp_ge e : 0 <= e -> e <= sp * e + fe.
  Proof.
    intro He. pose proof (uB_small B HB). pose proof (Rabs_pos h). unfold spread, fresh_error.
    assert (0 <= Rabs h * delta) by (apply Rmult_le_pos; lra).
    assert (0 <= Rabs h * L * e) by (apply Rmult_le_pos; [apply Rmult_le_pos; lra|exact He]). lra.
  Qed.

  Lemma ab2_history n : forall j x X A wF W, (j + n <= N)%nat -> length X = d -> stands x X -> sized A X -> A + INR n * gr <= 3 / 4 * B ->
    remembers wF W ->
    exists Y, stands (ab2_path O (map (fun k => (f k, hF)) (seq j n)) wF x) Y /\ length Y = d /\
      forall e Z w, length Z = d -> near e X Z -> memory_near e W w ->
        near (accumulate sp fe n e) Y (ab2_path Rops (map (fun k => (v k, h)) (seq j n)) w Z).
  Proof.
    induction n as [|n IH]; intros j x X A wF W Hj HX Sx SX HA HW.
    - exists X. split; [exact Sx|]. split; [exact HX|]. intros e Z w HZ NZ _. exact NZ.
    - destruct (room n A HA) as [HA0 HA1]. pose proof B0' as BP. assert (HAB : A <= B) by lra. destruct (Hf j ltac:(lia)) as (E1 & E2 & E3).
      destruct (velocity_F d B M delta L (f j) (v j) E1 E2 E3 x X HX Sx (sized_le _ _ _ SX HAB)) as (V & SV & LV & PV & NV).
      assert (ST : exists Y, stands (match wF with None => textbook_euler O (f j) hF x | Some w => textbook_ab2 O (f j) hF w x end) Y /\
        length Y = d /\ sized (A + gr) Y /\ forall e Z w, length Z = d -> near e X Z -> memory_near e W w ->
          near (sp * e + fe) Y (match w with None => textbook_euler Rops (v j) h Z | Some w => textbook_ab2 Rops (v j) h w Z end) /\
          length (match w with None => textbook_euler Rops (v j) h Z | Some w => textbook_ab2 Rops (v j) h w Z end) = d).
      { destruct wF as [wF|], W as [W|]; cbn in HW; try contradiction.
        - destruct HW as (SW & LW & PW).
          destruct (ab2_F lnF d B M delta L h hF HB HM Hd HMd Hh HhP RhF (f j) (v j) E1 E2 E3 x X A wF W HX Sx SX HAB SW LW PW) as (Y & SY & LY & ZY & NY).
          exists Y. split; [exact SY|]. split; [exact LY|]. split; [exact ZY|].
          intros e Z [w|] HZ NZ Hm; cbn in Hm; [|contradiction]. destruct Hm as [Lw Nw].
          pose proof (NY e Z w HZ NZ Lw Nw) as NN. split; [exact NN|]. destruct NN as [<- _]. exact LY.
        - destruct (euler_F lnF d B M delta L h hF HB HM Hd HL HMd Hh HhP RhF (f j) (v j) E1 E2 E3 x X A HX Sx SX HAB) as (Y & SY & LY & ZY & NY).
          exists Y. split; [exact SY|]. split; [exact LY|]. split; [exact ZY|].
          intros e Z [w|] HZ NZ Hm; cbn in Hm; [contradiction|].
          pose proof (NY e Z HZ NZ) as NN. split; [exact NN|]. destruct NN as [<- _]. exact LY. }
      destruct ST as (Y & SY & LY & ZY & NY).
      destruct (IH (S j) _ Y (A + gr) (Some (f j x)) (Some V) ltac:(lia) LY SY ZY HA1 (conj SV (conj LV PV))) as (Q & SQ & LQ & NQ).
      exists Q. split; [exact SQ|]. split; [exact LQ|]. intros e Z w HZ NZ Hm. destruct (NY e Z w HZ NZ Hm) as [NN LN].
      cbn [seq map ab2_path accumulate]. apply NQ; [exact LN|exact NN|].
      split; [apply (v_len d L _ E3); exact HZ|]. eapply near_up; [exact (NV e Z HZ NZ)|].
      pose proof (near_nonneg _ _ _ NZ). assert (L * e <= L * (sp * e + fe)) by (apply Rmult_le_compat_l; [exact HL|apply sp_ge; assumption]). lra.
  Qed.

  Lemma ab2_tracks n : (n <= N)%nat -> tracks MAB2 n.
  Proof.
    intros Hn x X A HX Sx SX HA. unfold path, steps.
    destruct (ab2_history n 0 x X A None None ltac:(lia) HX Sx SX HA I) as (Y & SY & LY & NY).
    exists Y. split; [exact SY|]. split; [exact LY|]. intros e Z HZ NZ. apply NY; [exact HZ|exact NZ|exact I].
  Qed.

  Lemma all_track m n : (m = MRK4 -> Rabs h * L <= 1) -> (n <= N)%nat -> tracks m n.
  Proof. intros Hm Hn. destruct m; [apply euler_tracks|apply ab2_tracks|apply rk4_tracks; [apply Hm; reflexivity|]]; exact Hn. Qed.
End Path.

Lemma point_rounds lnF m d B B0 M delta L n h hF f v :
  / 2 ^ 100 <= B <= 2 ^ 800 -> / 2 ^ 500 <= M -> 0 <= delta -> 0 <= L -> M + delta <= 2 ^ 800 -> Rabs h <= 2 ^ 800 ->
  INR n <= 2 ^ 47 -> 2 * (B0 + 3 * (INR n * Rabs h * (M + delta))) <= B -> (m = MRK4 -> Rabs h * L <= 1) -> represents hF h ->
  (forall k, (k < n)%nat -> evaluates d B delta (f k) (v k) /\ speed d B M (v k) /\ lipschitz_field d L (fun _ => v k)) ->
  forall x X, length X = d -> stands x X -> sized B0 X ->
  exists Y, stands (path (Fops lnF) m (steps f hF n) x) Y /\
    near (INR n * (2 * Rabs h * delta + B / 2 ^ 50) * exp (2 * (INR n * Rabs h * L))) Y (path Rops m (steps v h n) X).
Proof.
  intros HB HM Hd HL HMd Hh Hn HhP Hm Rh Hf x X HX Sx SX.
  assert (B00 : 0 <= B0) by (pose proof (SX 0%nat); pose proof (Rabs_pos (coord 0 X)); lra).
  destruct n as [|n].
  { exists X. assert (E : forall T (OO : ops T) g w (z : list T), path OO m (steps g w 0) z = z) by (intros; destruct m; reflexivity).
    rewrite !E. split; [exact Sx|]. eapply near_le; [apply near_refl|]. cbn [INR]. lra. }
  rewrite (pow_bpow 100), (pow_bpow 800), <- bpow_opp in HB. rewrite (pow_bpow 500), <- bpow_opp in HM.
  rewrite (pow_bpow 800) in HMd, Hh. rewrite (pow_bpow 47) in Hn.
  change (- Z.of_nat 100)%Z with (-100)%Z in HB. change (Z.of_nat 800) with 800%Z in *. change (- Z.of_nat 500)%Z with (-500)%Z in HM.
  change (Z.of_nat 47) with 47%Z in Hn.
  assert (PP : 0 < M + delta) by (pose proof (bpow_gt_0 radix2 (-500)); lra). pose proof (Rabs_pos h) as H0.
  assert (HP0 : 0 <= Rabs h * (M + delta)) by (apply Rmult_le_pos; lra).
  assert (N1 : 1 <= INR (S n)) by (rewrite S_INR; pose proof (pos_INR n); lra).
  assert (HN : Rabs h * (M + delta) <= INR (S n) * Rabs h * (M + delta)).
  { rewrite Rmult_assoc, <- (Rmult_1_l (Rabs h * (M + delta))) at 1. apply Rmult_le_compat_r; assumption. }
  assert (H6 : 6 * (Rabs h * (M + delta)) <= B) by lra.
  assert (BP : 0 < B) by (pose proof (bpow_gt_0 radix2 (-100)); lra).
  assert (UN : INR (S n) * (uround * B) <= B / 64).
  { assert (E : INR (S n) * uround <= / 64).
    { apply Rle_trans with (bpow radix2 47 * bpow radix2 (-53)).
      - rewrite uround_bpow. apply Rmult_le_compat_r; [apply bpow_ge_0|exact Hn].
      - rewrite <- bpow_plus. cbn. lra. }
    rewrite <- Rmult_assoc. apply Rle_trans with (/ 64 * B); [apply Rmult_le_compat_r; lra|lra]. }
  destruct (all_track lnF (S n) d B M delta L h hF f v HB HM Hd HL HMd Hh H6 Rh Hf m (S n) Hm (le_n _) x X B0 HX Sx SX) as (Y & SY & LY & NY).
  { unfold growth. replace (INR (S n) * (2 * (Rabs h * (M + delta)) + 4 * uround * B))
      with (2 * (INR (S n) * Rabs h * (M + delta)) + 4 * (INR (S n) * (uround * B))) by ring. lra. }
  exists Y. split; [exact SY|]. eapply near_le; [apply (NY 0 X HX), near_refl|].
  assert (HdP : 0 <= Rabs h * delta) by (apply Rmult_le_pos; lra). assert (HhL : 0 <= Rabs h * L) by (apply Rmult_le_pos; lra).
  assert (U0 : 0 < uround * B) by (apply Rmult_lt_0_compat; [destruct uround_val; lra|lra]).
  eapply Rle_trans; [apply (accumulate_bound _ _ _ _ (2 * (Rabs h * L)))|].
  - unfold spread. lra.
  - unfold fresh_error. lra.
  - lra.
  - unfold spread. eapply Rle_trans; [|apply exp_ge]. lra.
  - rewrite Rplus_0_l. apply Req_le. unfold fresh_error.
    replace (B / 2 ^ 50) with (8 * uround * B).
    + f_equal; [ring|]. f_equal. ring.
    + unfold Rdiv. rewrite pow_bpow, <- bpow_opp, uround_bpow. change 8 with (bpow radix2 3). rewrite <- bpow_plus. change (3 + -53)%Z with (- Z.of_nat 50)%Z. ring.
Qed.
