(** A flow that meets the hypotheses of the convergence theorems: the expansion v = x. *)
From Coq Require Import Reals Lra Lia Psatz.
From Verif Require Import Base Num Particles Jacobian Integrate SpecFtle SpecSeeds SpecIntegrate SpecSolver SpecOrder SpecConverge
  OrderFacts ConvergeFacts.
Local Open Scope R_scope.

Definition cross2 : group2 R := Group2 (-1, 0) (1, 0) (0, 1) (0, -1).
Definition cross3 : group3 R := Group3 (-1, 0, 0) (1, 0, 0) (0, 1, 0) (0, -1, 0) (0, 0, 1) (0, 0, -1).
Definition expand2 (t : R) (x : R * R) : R * R := (fst x * exp t, snd x * exp t).
Definition expand3 (t : R) (x : vec3) : vec3 := (v0 x * exp t, v1 x * exp t, v2 x * exp t).

Lemma id_lipschitz d : lipschitz_field d 1 (fun _ x => x).
Proof. split; [auto|]. intros t x y e _ _ H. eapply near_le; [exact H|lra]. Qed.

Lemma exp_derivative a t : derivable_pt_lim (fun s => a * exp s) t (a * exp t).
Proof.
  assert (D : derivable_pt_lim (fun s => a * exp s) t (0 * exp t + a * exp t)).
  { apply (derivable_pt_lim_mult (fun _ => a) exp); [apply derivable_pt_lim_const|apply derivable_pt_lim_exp]. }
  replace (0 * exp t + a * exp t) with (a * exp t) in D by ring. exact D.
Qed.

Lemma exp_rate a b x s t : between a b s -> between a b t ->
  Rabs (x * exp s - x * exp t) <= Rabs x * exp (Rmax a b) * Rabs (s - t).
Proof.
  intros Hs Ht. destruct (mean_value (fun r => x * exp r) (fun r => x * exp r) t s) as (c & Hc & E); [intros; apply exp_derivative|].
  rewrite E, Rabs_mult. apply Rmult_le_compat_r; [apply Rabs_pos|]. rewrite Rabs_mult. apply Rmult_le_compat_l; [apply Rabs_pos|].
  rewrite Rabs_pos_eq by (left; apply exp_pos).
  assert (Hb : between a b c) by (apply (between_sub a b t s); assumption).
  destruct Hb as [_ [H|H]]; [left; apply exp_increasing; exact H|rewrite H; right; reflexivity].
Qed.

Lemma expand_carries2 T x : carries2 (fun _ x => x) 0 (0 + T) expand2 x.
Proof.
  destruct x as [p q]. split; [unfold expand2; cbn; rewrite exp_0; f_equal; ring|]. split.
  - split; [reflexivity|]. intros t _ [|[|i]]; unfold coord; cbn.
    + apply exp_derivative.
    + apply exp_derivative.
    + destruct i; apply derivable_pt_lim_const.
  - exists (Rmax (Rabs p) (Rabs q) * exp (Rmax 0 (0 + T))).
    pose proof (exp_pos (Rmax 0 (0 + T))) as PE. pose proof (Rabs_pos p) as Pp. pose proof (Rmax_l (Rabs p) (Rabs q)) as Ml.
    pose proof (Rmax_r (Rabs p) (Rabs q)) as Mr.
    intros s t Hs Ht [|[|i]]; unfold coord; cbn [nth row2 expand2 fst snd].
    + eapply Rle_trans; [apply (exp_rate _ _ p s t Hs Ht)|]. apply Rmult_le_compat_r; [apply Rabs_pos|]. apply Rmult_le_compat_r; lra.
    + eapply Rle_trans; [apply (exp_rate _ _ q s t Hs Ht)|]. apply Rmult_le_compat_r; [apply Rabs_pos|]. apply Rmult_le_compat_r; lra.
    + replace (match i with O => 0 | S _ => 0 end - match i with O => 0 | S _ => 0 end) with 0 by ring. rewrite Rabs_R0.
      apply Rmult_le_pos; [|apply Rabs_pos]. apply Rmult_le_pos; lra.
Qed.

Lemma expand_carries3 T x : carries3 (fun _ x => x) 0 (0 + T) expand3 x.
Proof.
  destruct x as [[p q] r]. split; [unfold expand3, v0, v1, v2; cbn; rewrite exp_0; f_equal; [f_equal|]; ring|]. split.
  - split; [reflexivity|]. intros t _ [|[|[|i]]]; unfold coord; cbn.
    + apply exp_derivative.
    + apply exp_derivative.
    + apply exp_derivative.
    + destruct i; apply derivable_pt_lim_const.
  - set (m := Rabs p + Rabs q + Rabs r). exists (m * exp (Rmax 0 (0 + T))).
    pose proof (exp_pos (Rmax 0 (0 + T))) as PE. pose proof (Rabs_pos p) as Pp. pose proof (Rabs_pos q) as Pq. pose proof (Rabs_pos r) as Pr.
    intros s t Hs Ht [|[|[|i]]]; unfold coord, v0, v1, v2; cbn [nth row3 expand3 fst snd v0 v1 v2].
    + eapply Rle_trans; [apply (exp_rate _ _ p s t Hs Ht)|]. apply Rmult_le_compat_r; [apply Rabs_pos|]. apply Rmult_le_compat_r; unfold m; lra.
    + eapply Rle_trans; [apply (exp_rate _ _ q s t Hs Ht)|]. apply Rmult_le_compat_r; [apply Rabs_pos|]. apply Rmult_le_compat_r; unfold m; lra.
    + eapply Rle_trans; [apply (exp_rate _ _ r s t Hs Ht)|]. apply Rmult_le_compat_r; [apply Rabs_pos|]. apply Rmult_le_compat_r; unfold m; lra.
    + replace (match i with O => 0 | S _ => 0 end - match i with O => 0 | S _ => 0 end) with 0 by ring. rewrite Rabs_R0.
      apply Rmult_le_pos; [|apply Rabs_pos]. apply Rmult_le_pos; unfold m; lra.
Qed.

Lemma cross_aligned2 : axis_aligned2 cross2.
Proof. unfold axis_aligned2, cross2. cbn. repeat split; lra. Qed.
Lemma cross_aligned3 : axis_aligned3 cross3.
Proof. unfold axis_aligned3, cross3, v0, v1, v2. cbn. repeat split; lra. Qed.
Lemma expand_gradient2 t : gradient2 cross2 (image2 (expand2 t) cross2) <> M22 0 0 0 0.
Proof. unfold gradient2, cross2, expand2. cbn. intro H. injection H as H _ _ _. pose proof (exp_pos t). lra. Qed.
Lemma expand_gradient3 t : gradient3 cross3 (image3 (expand3 t) cross3) <> M33 0 0 0 0 0 0 0 0 0.
Proof. unfold gradient3, cross3, expand3, v0, v1, v2. cbn. intro H. injection H as H _ _ _ _ _ _ _ _. pose proof (exp_pos t). lra. Qed.
