(** Order of accuracy of the time integrators. *)
From Coq Require Import Reals Lra Lia Psatz.
From Verif Require Import Base Num SpecIntegrate SpecOrder IntegrateReal.
Local Open Scope R_scope.

(* ---- coordinates ---- *)

Lemma coord_vadd i x y : length x = length y -> coord i (x +v y) = coord i x + coord i y.
Proof.
  unfold coord. revert i y. induction x as [|a x IH]; intros i [|b y] H; try discriminate; destruct i; cbn; try lra.
  apply IH. cbn in H. lia.
Qed.
Lemma coord_vsub i x y : length x = length y -> coord i (vsub Rops x y) = coord i x - coord i y.
Proof.
  unfold coord. revert i y. induction x as [|a x IH]; intros i [|b y] H; try discriminate; destruct i; cbn; try lra.
  apply IH. cbn in H. lia.
Qed.
Lemma coord_vscale i c x : coord i (c *v x) = c * coord i x.
Proof. unfold coord. revert i. induction x as [|a x IH]; intros [|i]; cbn; try lra. apply IH. Qed.

Lemma near_nonneg e x y : near e x y -> 0 <= e.
Proof. intros [_ H]. apply Rle_trans with (2 := H 0%nat). apply Rabs_pos. Qed.
Lemma near_le e e' x y : near e x y -> e <= e' -> near e' x y.
Proof. intros [H1 H2] H. split; [exact H1|]. intro i. specialize (H2 i). lra. Qed.
Lemma near_refl x : near 0 x x.
Proof. split; [reflexivity|]. intro i. unfold Rminus. rewrite Rplus_opp_r, Rabs_R0. lra. Qed.

(** |a - b| for sums. *)
Lemma abs_add2 a b k l : Rabs a <= k -> Rabs b <= l -> Rabs (a + b) <= k + l.
Proof. intros. pose proof (Rabs_triang a b). lra. Qed.
Lemma abs_mul c a k : Rabs a <= k -> Rabs (c * a) <= Rabs c * k.
Proof. intro H. rewrite Rabs_mult. apply Rmult_le_compat_l; [apply Rabs_pos|exact H]. Qed.

(* ---- intervals and the mean value theorem ---- *)

Lemma between_sub a b s t c : between a b s -> between a b t -> between s t c -> between a b c.
Proof. unfold between, Rmin, Rmax. repeat destruct (Rle_dec _ _); lra. Qed.
Lemma between_l a b : between a b a.
Proof. unfold between, Rmin, Rmax. repeat destruct (Rle_dec _ _); lra. Qed.
Lemma between_r a b : between a b b.
Proof. unfold between, Rmin, Rmax. repeat destruct (Rle_dec _ _); lra. Qed.
Lemma between_dist s t c : between s t c -> Rabs (c - s) <= Rabs (t - s) /\ Rabs (c - t) <= Rabs (t - s).
Proof.
  unfold between, Rmin, Rmax, Rabs. intro H.
  split; repeat destruct (Rcase_abs _); revert H; repeat destruct (Rle_dec _ _); lra.
Qed.

Lemma between_step t0 h n k : (k <= n)%nat -> between t0 (t0 + INR n * h) (t0 + INR k * h).
Proof.
  intro H. apply le_INR in H. pose proof (pos_INR k) as Hk.
  assert (K : (0 <= INR k * h <= INR n * h) \/ (INR n * h <= INR k * h <= 0)).
  { destruct (Rle_or_lt 0 h); [left|right]; split; nra. }
  unfold between, Rmin, Rmax. repeat destruct (Rle_dec _ _); lra.
Qed.

Lemma mean_value f g s t : (forall c, between s t c -> derivable_pt_lim f c (g c)) ->
  exists c, between s t c /\ f t - f s = g c * (t - s).
Proof.
  intro H. destruct (Rtotal_order s t) as [L|[E|L]].
  - destruct (MVT_cor2 f g s t L) as (c & E & Hc).
    + intros c Hc. apply H. unfold between, Rmin, Rmax. repeat destruct (Rle_dec _ _); lra.
    + exists c. split; [|exact E]. unfold between, Rmin, Rmax. repeat destruct (Rle_dec _ _); lra.
  - subst t. exists s. split; [apply between_l|ring].
  - destruct (MVT_cor2 f g t s L) as (c & E & Hc).
    + intros c Hc. apply H. unfold between, Rmin, Rmax. repeat destruct (Rle_dec _ _); lra.
    + exists c. split; [unfold between, Rmin, Rmax; repeat destruct (Rle_dec _ _); lra|]. lra.
Qed.

(** One more order: F' = G, Q' = P, Q(t) = F(t) and G - P small make F - Q smaller. *)
Lemma taylor_step F G Q P t s K m : 0 <= K ->
  (forall c, between t s c -> derivable_pt_lim F c (G c)) ->
  (forall c, between t s c -> derivable_pt_lim Q c (P c)) -> Q t = F t ->
  (forall c, between t s c -> Rabs (G c - P c) <= K * Rabs (c - t) ^ m) ->
  Rabs (F s - Q s) <= K * Rabs (s - t) ^ S m.
Proof.
  intros HK HF HQ E HG.
  destruct (mean_value (fun x => F x - Q x) (fun x => G x - P x) t s) as (c & Hc & Ec).
  { intros c Hc. apply (derivable_pt_lim_minus F Q c); [apply HF|apply HQ]; exact Hc. }
  rewrite E in Ec. replace (F s - Q s) with ((G c - P c) * (s - t)) by lra.
  rewrite Rabs_mult. cbn [pow]. rewrite (Rmult_comm (Rabs (s - t))), <- Rmult_assoc.
  apply Rmult_le_compat_r; [apply Rabs_pos|]. apply Rle_trans with (1 := HG c Hc).
  apply Rmult_le_compat_l; [exact HK|]. apply pow_incr. split; [apply Rabs_pos|].
  apply (between_dist t s c Hc).
Qed.

(* ---- accumulation of errors ---- *)

Lemma one_plus_pow z n : 0 <= z -> 1 <= (1 + z) ^ n.
Proof. intro H. apply pow_R1_Rle. lra. Qed.

Lemma exp_pow z n : exp z ^ n = exp (INR n * z).
Proof.
  induction n as [|n IH]; [rewrite Rmult_0_l, exp_0; reflexivity|].
  cbn [pow]. rewrite IH, <- exp_plus. f_equal. rewrite S_INR. ring.
Qed.

(** e_{k+1} <= q e_k + r *)
Fixpoint accumulate (q r : R) (n : nat) (e : R) : R :=
  match n with 0%nat => e | S n' => accumulate q r n' (q * e + r) end.

Lemma accumulate_bound q r n e Q : 1 <= q -> 0 <= r -> 0 <= e -> q <= exp Q ->
  accumulate q r n e <= (e + INR n * r) * exp (INR n * Q).
Proof.
  intros Hq Hr He HQ. assert (H : accumulate q r n e <= (e + INR n * r) * q ^ n).
  { clear HQ. revert e He. induction n as [|n IH]; intros e He; [cbn; lra|].
    cbn [accumulate]. apply Rle_trans with ((q * e + r + INR n * r) * q ^ n); [apply IH; nra|].
    rewrite S_INR. cbn [pow]. rewrite (Rmult_comm q (q ^ n)), <- Rmult_assoc, (Rmult_comm _ q), <- Rmult_assoc.
    apply Rmult_le_compat_r; [apply pow_le; lra|]. pose proof (pos_INR n).
    assert (0 <= INR n * r) by (apply Rmult_le_pos; lra). nra. }
  apply Rle_trans with (1 := H). rewrite <- exp_pow. apply Rmult_le_compat_l.
  - pose proof (pos_INR n). assert (0 <= INR n * r) by (apply Rmult_le_pos; lra). lra.
  - apply pow_incr. lra.
Qed.

Lemma exp_ge z : 1 + z <= exp z.
Proof.
  destruct (Req_dec z 0) as [-> | Hz]; [rewrite exp_0; lra|]. left. apply exp_ineq1. exact Hz.
Qed.

Lemma exp_ge4 z : 0 <= z -> 1 + z + z * z / 2 + z * z * z / 6 + z * z * z * z / 24 <= exp z.
Proof.
  intro Hz. pose proof (proj2_sig (exist_exp z)) as H. change (proj1_sig (exist_exp z)) with (exp z) in H.
  assert (G : forall n, 0 <= / INR (fact n) * z ^ n).
  { intro n. apply Rmult_le_pos; [|apply pow_le; exact Hz]. left. apply Rinv_0_lt_compat, INR_fact_lt_0. }
  pose proof (sum_incr (fun n => / INR (fact n) * z ^ n) 4 (exp z)) as S.
  assert (E : sum_f_R0 (fun n => / INR (fact n) * z ^ n) 4 = 1 + z + z * z / 2 + z * z * z / 6 + z * z * z * z / 24).
  { cbn -[INR]. replace (INR 1) with 1 by reflexivity. replace (INR 2) with 2 by reflexivity.
    replace (INR 6) with 6 by (cbn; lra). replace (INR 24) with 24 by (cbn; lra). field. }
  rewrite <- E. apply S; [|exact G]. exact H.
Qed.

(* ---- Euler ---- *)

Section Local.
  Variables (d : nat) (v : R -> list R -> list R) (L : R) (a b : R) (y : R -> list R).
  Hypothesis Hv : lipschitz_field d L v.
  Hypothesis HL : 0 <= L.
  Hypothesis Hy : trajectory d v a b y.

  Lemma y_length t : length (y t) = d.
  Proof. apply Hy. Qed.
  Lemma v_length t x : length x = d -> length (v t x) = d.
  Proof. apply Hv. Qed.
  Lemma vy_length t : length (v t (y t)) = d.
  Proof. apply v_length, y_length. Qed.

  (** One Euler step from a point of the trajectory. *)
  Lemma euler_local M t h : rate a b M (fun s => v s (y s)) -> between a b t -> between a b (t + h) ->
    near (M * (h * h)) (textbook_euler Rops (v t) h (y t)) (y (t + h)).
  Proof.
    intros HM Ht Hth. unfold textbook_euler. split.
    { rewrite vadd_length, vscale_length, vy_length, !y_length. apply Nat.min_id. }
    intro i. rewrite coord_vadd, coord_vscale by (rewrite vscale_length, vy_length, y_length; reflexivity).
    destruct (mean_value (fun s => coord i (y s)) (fun s => coord i (v s (y s))) t (t + h)) as (c & Hc & E).
    { intros c Hc. apply Hy. apply (between_sub a b t (t + h)); assumption. }
    replace (coord i (y t) + h * coord i (v t (y t)) - coord i (y (t + h)))
      with ((coord i (v t (y t)) - coord i (v c (y c))) * h) by lra.
    rewrite Rabs_mult. pose proof (HM t c Ht (between_sub a b _ _ _ Ht Hth Hc) i) as H1.
    destruct (between_dist _ _ _ Hc) as [H2 _]. replace (t + h - t) with h in H2 by ring.
    rewrite Rabs_minus_sym in H2.
    assert (HM0 : 0 <= M * Rabs (t - c)) by (apply Rle_trans with (2 := H1); apply Rabs_pos).
    pose proof (Rabs_pos h) as Ph. pose proof (Rabs_pos (t - c)) as Pc.
    replace (h * h) with (Rabs h * Rabs h) by (rewrite <- Rabs_mult; apply Rabs_pos_eq; nra).
    destruct (Req_dec (Rabs h) 0) as [Z|Z]; [rewrite Z; lra|].
    destruct (Rle_or_lt 0 M) as [P|P].
    - rewrite <- Rmult_assoc. apply Rmult_le_compat_r; [exact Ph|]. apply Rle_trans with (1 := H1). apply Rmult_le_compat_l; assumption.
    - (* M < 0 would make the rate of change negative *)
      exfalso. pose proof (HM t (t + h) Ht Hth i) as H3. pose proof (Rabs_pos (coord i (v t (y t)) - coord i (v (t + h) (y (t + h))))).
      replace (t - (t + h)) with (- h) in H3 by ring. rewrite Rabs_Ropp in H3. nra.
  Qed.

  Lemma euler_spread e t h x : length x = d -> near e x (y t) ->
    near ((1 + Rabs h * L) * e) (textbook_euler Rops (v t) h x) (textbook_euler Rops (v t) h (y t)).
  Proof.
    intros Hx Hn. unfold textbook_euler.
    pose proof (proj2 Hv t x (y t) e Hx (y_length t) Hn) as [_ Hd].
    split.
    { rewrite !vadd_length, !vscale_length, vy_length, v_length, y_length, Hx by exact Hx. reflexivity. }
    intro i. rewrite !coord_vadd, !coord_vscale by (rewrite vscale_length, ?vy_length, ?v_length, ?y_length, ?Hx; auto).
    replace (coord i x + h * coord i (v t x) - (coord i (y t) + h * coord i (v t (y t))))
      with ((coord i x - coord i (y t)) + h * (coord i (v t x) - coord i (v t (y t)))) by ring.
    replace ((1 + Rabs h * L) * e) with (e + Rabs h * (L * e)) by ring.
    apply abs_add2; [apply Hn|apply abs_mul, Hd].
  Qed.

  Lemma near_trans e f x z w : near e x z -> near f z w -> near (e + f) x w.
  Proof.
    intros [L1 H1] [L2 H2]. split; [congruence|]. intro i.
    replace (coord i x - coord i w) with ((coord i x - coord i z) + (coord i z - coord i w)) by ring.
    apply abs_add2; auto.
  Qed.

  Lemma euler_length h t x : length x = d -> length (textbook_euler Rops (v t) h x) = d.
  Proof. intro H. unfold textbook_euler. rewrite vadd_length, vscale_length, v_length, H by exact H. apply Nat.min_id. Qed.
End Local.

(** A one-step method whose local error is [r] and whose steps spread errors by [q]. *)
Lemma one_step_method d (step : (list R -> list R) -> R -> list R -> list R) v a b y t0 h q r :
  (forall t x, length x = d -> length (step (v t) h x) = d) -> (forall t, length (y t) = d) ->
  (forall t, between a b t -> between a b (t + h) -> near r (step (v t) h (y t)) (y (t + h))) ->
  (forall e t x, length x = d -> near e x (y t) -> near (q * e) (step (v t) h x) (step (v t) h (y t))) ->
  forall n k e x, (forall j, (k <= j <= k + n)%nat -> between a b (t0 + INR j * h)) ->
  length x = d -> near e x (y (t0 + INR k * h)) ->
  near (accumulate q r n e)
    (fold_left (fun x vh => step (fst vh) (snd vh) x) (map (fun k => (v (t0 + INR k * h), h)) (seq k n)) x)
    (y (t0 + INR (k + n) * h)).
Proof.
  intros Hlen Hyl Hloc Hspr. induction n as [|n IH]; intros k e x Hb Hx Hn.
  - cbn. rewrite Nat.add_0_r. exact Hn.
  - cbn [seq map fold_left accumulate fst snd]. replace (k + S n)%nat with (S k + n)%nat by lia.
    apply IH.
    + intros j Hj. apply Hb. lia.
    + apply Hlen. exact Hx.
    + replace (t0 + INR (S k) * h) with (t0 + INR k * h + h) by (rewrite S_INR; ring).
      eapply near_trans; [apply Hspr; [exact Hx|exact Hn]|]. apply Hloc; [apply Hb; lia|].
      replace (t0 + INR k * h + h) with (t0 + INR (S k) * h) by (rewrite S_INR; ring). apply Hb. lia.
Qed.

Lemma euler_fold steps x : euler_path Rops steps x = fold_left (fun x vh => textbook_euler Rops (fst vh) (snd vh) x) steps x.
Proof. revert x. induction steps as [|[v h] steps IH]; intro x; [reflexivity|]. apply IH. Qed.
Lemma rk4_fold steps x : rk4_path Rops steps x = fold_left (fun x vh => textbook_rk4 Rops (fst vh) (snd vh) x) steps x.
Proof. revert x. induction steps as [|[v h] steps IH]; intro x; [reflexivity|]. apply IH. Qed.

Lemma rate_nonneg a b K f : a <> b -> rate a b K f -> 0 <= K.
Proof.
  intros Hab H. specialize (H a b (between_l a b) (between_r a b) 0%nat).
  assert (0 < Rabs (a - b)) by (apply Rabs_pos_lt; lra).
  pose proof (Rabs_pos (coord 0 (f a) - coord 0 (f b))). nra.
Qed.

Lemma abs_sq h : Rabs h * Rabs h = h * h.
Proof. rewrite <- Rabs_mult. apply Rabs_pos_eq. nra. Qed.

Lemma euler_order d v L M n h t0 y x : lipschitz_field d L v -> 0 <= L -> 0 <= M ->
  trajectory d v t0 (t0 + INR n * h) y -> rate t0 (t0 + INR n * h) M (fun t => v t (y t)) -> x = y t0 ->
  near (Rabs h * (INR n * Rabs h * M * exp (INR n * Rabs h * L)))
    (path Rops MEuler (snapshots v t0 h n) x) (y (t0 + INR n * h)).
Proof.
  intros Hv HL HM Hy Hr ->. cbn [path]. unfold snapshots. rewrite euler_fold.
  apply near_le with (accumulate (1 + Rabs h * L) (M * (h * h)) n 0).
  - apply (one_step_method d (textbook_euler Rops) v t0 (t0 + INR n * h)).
    + intros t x Hx. eapply euler_length; eassumption.
    + apply Hy.
    + intros t H1 H2. eapply euler_local; eassumption.
    + intros e t x Hx Hn. eapply euler_spread; eassumption.
    + intros j Hj. apply between_step. lia.
    + apply Hy.
    + cbn. rewrite Rmult_0_l, Rplus_0_r. apply near_refl.
  - pose proof (Rabs_pos h). assert (0 <= Rabs h * L) by (apply Rmult_le_pos; assumption).
    eapply Rle_trans; [apply (accumulate_bound _ _ _ _ (Rabs h * L)); try lra|].
    + apply Rmult_le_pos; [exact HM|nra].
    + apply exp_ge.
    + rewrite <- abs_sq. right. replace (INR n * Rabs h * L) with (INR n * (Rabs h * L)) by ring. ring.
Qed.
