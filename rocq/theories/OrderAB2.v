(** Second order of the Adams-Bashforth method. *)
From Coq Require Import Reals Lra Lia Psatz.
From Verif Require Import Base Num SpecIntegrate SpecOrder IntegrateReal OrderFacts.
Local Open Scope R_scope.

(** Velocity and position expanded around [t]. *)
Lemma expand1 G A t s K : 0 <= K -> (forall c, between t s c -> derivable_pt_lim G c (A c)) ->
  (forall c, between t s c -> Rabs (A c - A t) <= K * Rabs (c - t)) ->
  Rabs (G s - (G t + (s - t) * A t)) <= K * Rabs (s - t) ^ 2.
Proof.
  intros HK HG HA. apply (taylor_step G A (fun x => G t + (x - t) * A t) (fun _ => A t) t s K 1 HK HG).
  - intros c _.
    assert (H : derivable_pt_lim (fun x => G t + (x - t) * A t) c (0 + ((1 - 0) * A t + (c - t) * 0))).
    { apply (derivable_pt_lim_plus (fun _ => G t) (fun x => (x - t) * A t)); [apply derivable_pt_lim_const|].
      apply (derivable_pt_lim_mult (fun x => x - t) (fun _ => A t)); [|apply derivable_pt_lim_const].
      apply (derivable_pt_lim_minus (fun x => x) (fun _ => t)); [apply derivable_pt_lim_id|apply derivable_pt_lim_const]. }
    replace (0 + ((1 - 0) * A t + (c - t) * 0)) with (A t) in H by ring. exact H.
  - ring.
  - intros c Hc. rewrite pow_1. apply HA. exact Hc.
Qed.

Lemma expand2 Y G A t s K : 0 <= K -> (forall c, between t s c -> derivable_pt_lim Y c (G c)) ->
  (forall c, between t s c -> derivable_pt_lim G c (A c)) ->
  (forall c, between t s c -> Rabs (A c - A t) <= K * Rabs (c - t)) ->
  Rabs (Y s - (Y t + (s - t) * G t + (s - t) * (s - t) * (A t / 2))) <= K * Rabs (s - t) ^ 3.
Proof.
  intros HK HY HG HA.
  apply (taylor_step Y G (fun x => Y t + (x - t) * G t + (x - t) * (x - t) * (A t / 2)) (fun x => G t + (x - t) * A t) t s K 2 HK HY).
  - intros c _. assert (I : derivable_pt_lim (fun x => x - t) c 1).
    { replace 1 with (1 - 0) by ring. apply (derivable_pt_lim_minus (fun x => x) (fun _ => t)); [apply derivable_pt_lim_id|apply derivable_pt_lim_const]. }
    replace (G t + (c - t) * A t) with
      ((0 + (1 * G t + (c - t) * 0)) + ((1 * (c - t) + (c - t) * 1) * (A t / 2) + (c - t) * (c - t) * 0)) by field.
    apply (derivable_pt_lim_plus (fun x => Y t + (x - t) * G t) (fun x => (x - t) * (x - t) * (A t / 2))).
    + apply (derivable_pt_lim_plus (fun _ => Y t)); [apply derivable_pt_lim_const|].
      apply (derivable_pt_lim_mult (fun x => x - t) (fun _ => G t)); [exact I|apply derivable_pt_lim_const].
    + apply (derivable_pt_lim_mult (fun x => (x - t) * (x - t)) (fun _ => A t / 2)); [|apply derivable_pt_lim_const].
      apply (derivable_pt_lim_mult (fun x => x - t) (fun x => x - t)); exact I.
  - ring.
  - intros c Hc. apply expand1; [exact HK| |].
    + intros c' Hc'. apply HG. apply (between_sub t s t c); [apply between_l|exact Hc|exact Hc'].
    + intros c' Hc'. apply HA. apply (between_sub t s t c); [apply between_l|exact Hc|exact Hc'].
Qed.

Section AB2.
  Variables (d : nat) (v : R -> list R -> list R) (L K : R) (a b : R) (y acc : R -> list R).
  Hypothesis Hv : lipschitz_field d L v.
  Hypothesis HL : 0 <= L.
  Hypothesis HK : 0 <= K.
  Hypothesis Hy : trajectory d v a b y.
  Hypothesis Hacc : derivative a b (fun t => v t (y t)) acc.
  Hypothesis HaccK : rate a b K acc.

  Let y_len t : length (y t) = d. Proof. apply Hy. Qed.
  Let v_len t x : length x = d -> length (v t x) = d. Proof. apply Hv. Qed.

  (** One step from the trajectory, with the velocity of the trajectory one step earlier. *)
  Lemma ab2_local t h : between a b (t - h) -> between a b t -> between a b (t + h) ->
    near (3 / 2 * K * (Rabs h * (h * h))) (textbook_ab2 Rops (v t) h (v (t - h) (y (t - h))) (y t)) (y (t + h)).
  Proof.
    intros H0 H1 H2. unfold textbook_ab2. split.
    { rewrite vadd_length, vscale_length, vsub_length, !vscale_length, !v_len, !y_len by apply y_len. rewrite !Nat.min_id. reflexivity. }
    intro i.
    rewrite coord_vadd, coord_vscale, coord_vsub, !coord_vscale
      by (rewrite ?vscale_length, ?vsub_length, ?vscale_length, ?v_len, ?y_len by apply y_len; rewrite ?Nat.min_id; reflexivity).
    change (o_three_halves Rops) with (3 / 2). change (o_half Rops) with (1 / 2).
    assert (E1 : Rabs (coord i (v (t - h) (y (t - h))) - (coord i (v t (y t)) + (t - h - t) * coord i (acc t))) <= K * Rabs (t - h - t) ^ 2).
    { apply (expand1 (fun s => coord i (v s (y s))) (fun s => coord i (acc s))); [exact HK| |].
      - intros c Hc. apply Hacc. apply (between_sub a b t (t - h)); assumption.
      - intros c Hc. apply HaccK; [|exact H1]. apply (between_sub a b t (t - h)); assumption. }
    assert (E2 : Rabs (coord i (y (t + h)) - (coord i (y t) + (t + h - t) * coord i (v t (y t)) + (t + h - t) * (t + h - t) * (coord i (acc t) / 2))) <= K * Rabs (t + h - t) ^ 3).
    { apply (expand2 (fun s => coord i (y s)) (fun s => coord i (v s (y s))) (fun s => coord i (acc s))); [exact HK| | |].
      - intros c Hc. apply Hy. apply (between_sub a b t (t + h)); assumption.
      - intros c Hc. apply Hacc. apply (between_sub a b t (t + h)); assumption.
      - intros c Hc. apply HaccK; [|exact H1]. apply (between_sub a b t (t + h)); assumption. }
    replace (t - h - t) with (- h) in E1 by ring. replace (t + h - t) with h in E2 by ring.
    rewrite Rabs_Ropp in E1. cbn [pow] in E1, E2. rewrite Rmult_1_r in E1, E2. rewrite (abs_sq h) in E1, E2.
    set (g0 := coord i (v (t - h) (y (t - h)))) in *. set (g := coord i (v t (y t))) in *.
    set (A := coord i (acc t)) in *. set (y0 := coord i (y t)) in *. set (y1 := coord i (y (t + h))) in *.
    replace (y0 + h * (3 / 2 * g - 1 / 2 * g0) - y1)
      with (- (y1 - (y0 + h * g + h * h * (A / 2))) + (- (h / 2)) * (g0 - (g + - h * A))) by field.
    replace (3 / 2 * K * (Rabs h * (h * h))) with (K * (Rabs h * (h * h)) + Rabs (- (h / 2)) * (K * (h * h))).
    - apply abs_add2; [rewrite Rabs_Ropp; exact E2|apply abs_mul; exact E1].
    - rewrite Rabs_Ropp. unfold Rdiv at 1. rewrite Rabs_mult, (Rabs_pos_eq (/ 2)) by lra. field.
  Qed.

  Lemma ab2_spread e t h x vp vp0 : length x = d -> length vp = d -> near e x (y t) -> near (L * e) vp vp0 ->
    near ((1 + 2 * (Rabs h * L)) * e) (textbook_ab2 Rops (v t) h vp x) (textbook_ab2 Rops (v t) h vp0 (y t)).
  Proof.
    intros Hx Hvp Hn Hp. pose proof (proj2 Hv t x (y t) e Hx (y_len t) Hn) as [_ Hd].
    pose proof (proj1 Hp) as Hl. rewrite Hvp in Hl.
    unfold textbook_ab2. split.
    { rewrite !vadd_length, !vscale_length, !vsub_length, !vscale_length, !v_len, y_len, Hx, <- Hl, Hvp by (apply y_len || exact Hx). reflexivity. }
    intro i.
    rewrite !coord_vadd, !coord_vscale, !coord_vsub, !coord_vscale
      by (rewrite ?vscale_length, ?vsub_length, ?vscale_length, ?v_len, ?y_len, ?Hx, <- ?Hl, ?Hvp by (apply y_len || exact Hx); rewrite ?Nat.min_id; reflexivity).
    change (o_three_halves Rops) with (3 / 2). change (o_half Rops) with (1 / 2).
    set (g := coord i (v t x)) in *. 
    replace (coord i x + h * (3 / 2 * g - 1 / 2 * coord i vp) -
             (coord i (y t) + h * (3 / 2 * coord i (v t (y t)) - 1 / 2 * coord i vp0)))
      with ((coord i x - coord i (y t)) + ((3 / 2 * h) * (g - coord i (v t (y t))) + (- (1 / 2) * h) * (coord i vp - coord i vp0))) by ring.
    replace ((1 + 2 * (Rabs h * L)) * e) with (e + (Rabs (3 / 2 * h) * (L * e) + Rabs (- (1 / 2) * h) * (L * e))).
    - apply abs_add2; [apply Hn|]. apply abs_add2; [apply abs_mul, Hd|apply abs_mul, Hp].
    - rewrite !Rabs_mult, Rabs_Ropp, (Rabs_pos_eq (3 / 2)), (Rabs_pos_eq (1 / 2)) by lra. field.
  Qed.

  Lemma ab2_len t h vp x : length x = d -> length vp = d -> length (textbook_ab2 Rops (v t) h vp x) = d.
  Proof.
    intros Hx Hp. unfold textbook_ab2. rewrite vadd_length, vscale_length, vsub_length, !vscale_length, v_len, Hx, Hp by exact Hx.
    rewrite !Nat.min_id. reflexivity.
  Qed.

  Lemma ab2_steps t0 h r : 0 <= r ->
    (forall t, between a b (t - h) -> between a b t -> between a b (t + h) ->
       near r (textbook_ab2 Rops (v t) h (v (t - h) (y (t - h))) (y t)) (y (t + h))) ->
    forall n k e x vp,
    (forall j, (k <= j <= S k + n)%nat -> between a b (t0 + INR j * h)) ->
    length x = d -> length vp = d -> near e x (y (t0 + INR (S k) * h)) ->
    near (L * e) vp (v (t0 + INR k * h) (y (t0 + INR k * h))) ->
    near (accumulate (1 + 2 * (Rabs h * L)) r n e)
      (ab2_path Rops (map (fun k => (v (t0 + INR k * h), h)) (seq (S k) n)) (Some vp) x)
      (y (t0 + INR (S k + n) * h)).
  Proof.
    intros Hr Hloc. induction n as [|n IH]; intros k e x vp Hb Hx Hp Hn Hvn.
    - cbn [seq map ab2_path accumulate]. rewrite Nat.add_0_r. exact Hn.
    - cbn [seq map ab2_path accumulate]. replace (S k + S n)%nat with (S (S k) + n)%nat by lia.
      assert (E1 : t0 + INR (S (S k)) * h = t0 + INR (S k) * h + h) by (rewrite (S_INR (S k)); ring).
      assert (E0 : t0 + INR k * h = t0 + INR (S k) * h - h) by (rewrite (S_INR k); ring).
      pose proof (near_nonneg _ _ _ Hn) as He.
      assert (Hz : 0 <= Rabs h * L) by (apply Rmult_le_pos; [apply Rabs_pos|exact HL]).
      apply IH.
      + intros j Hj. apply Hb. lia.
      + apply ab2_len; assumption.
      + apply v_len. exact Hx.
      + rewrite E1. eapply near_trans; [apply ab2_spread; eassumption|].
        rewrite E0. apply Hloc.
        * rewrite <- E0. apply Hb. lia.
        * apply Hb. lia.
        * rewrite <- E1. apply Hb. lia.
      + eapply near_le; [apply (proj2 Hv _ _ _ e Hx (y_len _) Hn)|]. apply Rmult_le_compat_l; [exact HL|]. nra.
  Qed.
End AB2.

(** With only the acceleration bounded. *)
Lemma ab2_local_first d v L M a b y t h : lipschitz_field d L v -> trajectory d v a b y ->
  rate a b M (fun t => v t (y t)) -> between a b (t - h) -> between a b t -> between a b (t + h) ->
  near (3 / 2 * M * (h * h)) (textbook_ab2 Rops (v t) h (v (t - h) (y (t - h))) (y t)) (y (t + h)).
Proof.
  intros Hv Hy Hr H0 H1 H2. destruct (euler_local d v L a b y Hv Hy M t h Hr H1 H2) as [_ E]. destruct Hy as (Ly & _). destruct Hv as (Lv & _).
  unfold textbook_ab2. split.
  { rewrite vadd_length, vscale_length, vsub_length, !vscale_length, !Lv, !Ly by apply Ly. rewrite !Nat.min_id. reflexivity. }
  intro i. specialize (E i). specialize (Hr (t - h) t H0 H1 i). cbv beta in Hr.
  unfold textbook_euler in E. rewrite coord_vadd, coord_vscale in E by (rewrite vscale_length, Lv by apply Ly; apply Ly).
  rewrite coord_vadd, coord_vscale, coord_vsub, !coord_vscale
    by (rewrite ?vscale_length, ?vsub_length, ?vscale_length, ?Lv, ?Ly by apply Ly; rewrite ?Nat.min_id; reflexivity).
  change (o_three_halves Rops) with (3 / 2). change (o_half Rops) with (1 / 2).
  replace (t - h - t) with (- h) in Hr by ring. rewrite Rabs_Ropp in Hr.
  set (g0 := coord i (v (t - h) (y (t - h)))) in *. set (g := coord i (v t (y t))) in *.
  replace (coord i (y t) + h * (3 / 2 * g - 1 / 2 * g0) - coord i (y (t + h)))
    with ((coord i (y t) + h * g - coord i (y (t + h))) + (- (h / 2)) * (g0 - g)) by field.
  replace (3 / 2 * M * (h * h)) with (M * (h * h) + Rabs (- (h / 2)) * (M * Rabs h)).
  - apply abs_add2; [exact E|apply abs_mul; exact Hr].
  - rewrite Rabs_Ropp. unfold Rdiv at 1. rewrite Rabs_mult, (Rabs_pos_eq (/ 2)) by lra. rewrite <- (abs_sq h). field.
Qed.

Lemma ab2_global_error d v L M r n h t0 y : lipschitz_field d L v -> 0 <= L -> 0 <= M -> 0 <= r ->
  trajectory d v t0 (t0 + INR n * h) y -> rate t0 (t0 + INR n * h) M (fun t => v t (y t)) ->
  (forall t, between t0 (t0 + INR n * h) (t - h) -> between t0 (t0 + INR n * h) t -> between t0 (t0 + INR n * h) (t + h) ->
     near r (textbook_ab2 Rops (v t) h (v (t - h) (y (t - h))) (y t)) (y (t + h))) ->
  near ((M * (h * h) + INR n * r) * exp (2 * (INR n * Rabs h * L)))
    (path Rops MAB2 (snapshots v t0 h n) (y t0)) (y (t0 + INR n * h)).
Proof.
  intros Hv HL HM Hrr Hy Hr Hloc. cbn [path]. unfold snapshots.
  assert (HMh : 0 <= M * (h * h)) by (apply Rmult_le_pos; [exact HM|nra]). destruct n as [|n].
  - cbn [seq map ab2_path]. change (INR 0) with 0. replace (t0 + 0 * h) with t0 by ring. eapply near_le; [apply near_refl|].
    apply Rmult_le_pos; [lra|]. left. apply exp_pos.
  - cbn [seq map ab2_path].
    assert (HB : forall j, (j <= S n)%nat -> between t0 (t0 + INR (S n) * h) (t0 + INR j * h)) by (intros; apply between_step; assumption).
    assert (E0 : t0 + INR 0 * h = t0) by (cbn; ring).
    assert (E1 : t0 + INR 1 * h = t0 + h) by (cbn; ring).
    assert (HLoc : near (M * (h * h)) (textbook_euler Rops (v t0) h (y t0)) (y (t0 + h))).
    { eapply euler_local; try eassumption; [apply between_l|]. rewrite <- E1. apply HB. lia. }
    pose proof (Rabs_pos h) as Ph. assert (Hz : 0 <= Rabs h * L) by (apply Rmult_le_pos; assumption).
    rewrite E0. eapply near_le.
    + apply (ab2_steps d v L t0 (t0 + INR (S n) * h) y Hv HL Hy t0 h r Hrr Hloc n 0 (M * (h * h))).
      * intros j Hj. apply HB. lia.
      * eapply euler_length; [exact Hv|]. apply Hy.
      * apply Hv. apply Hy.
      * rewrite E1. exact HLoc.
      * rewrite E0. eapply near_le; [apply near_refl|]. apply Rmult_le_pos; assumption.
    + eapply Rle_trans; [apply (accumulate_bound _ _ _ _ (2 * (Rabs h * L))); try lra|].
      * apply exp_ge.
      * replace (2 * (INR (S n) * Rabs h * L)) with (INR (S n) * (2 * (Rabs h * L))) by ring.
        rewrite S_INR. pose proof (pos_INR n). apply Rmult_le_compat.
        -- assert (0 <= INR n * r) by (apply Rmult_le_pos; assumption). lra.
        -- left. apply exp_pos.
        -- nra.
        -- assert (X : INR n * (2 * (Rabs h * L)) <= (INR n + 1) * (2 * (Rabs h * L))) by nra.
           destruct X as [X|X]; [left; apply exp_increasing; exact X|right; rewrite X; reflexivity].
Qed.

Lemma ab2_order d v L M K n h t0 y acc x : lipschitz_field d L v -> 0 <= L -> 0 <= M -> 0 <= K ->
  trajectory d v t0 (t0 + INR n * h) y -> rate t0 (t0 + INR n * h) M (fun t => v t (y t)) ->
  derivative t0 (t0 + INR n * h) (fun t => v t (y t)) acc -> rate t0 (t0 + INR n * h) K acc -> x = y t0 ->
  near (h * h * ((M + 3 / 2 * K * (INR n * Rabs h)) * exp (2 * (INR n * Rabs h * L))))
    (path Rops MAB2 (snapshots v t0 h n) x) (y (t0 + INR n * h)).
Proof.
  intros Hv HL HM HK Hy Hr Ha HaK ->. eapply near_le.
  - apply (ab2_global_error d v L M (3 / 2 * K * (Rabs h * (h * h)))); try assumption.
    + apply Rmult_le_pos; [lra|]. apply Rmult_le_pos; [apply Rabs_pos|nra].
    + intros t H0 H1 H2. eapply ab2_local; eassumption.
  - right. ring.
Qed.

Lemma ab2_first_order d v L M n h t0 y x : lipschitz_field d L v -> 0 <= L -> 0 <= M ->
  trajectory d v t0 (t0 + INR n * h) y -> rate t0 (t0 + INR n * h) M (fun t => v t (y t)) -> x = y t0 ->
  near (Rabs h * ((Rabs h + 3 / 2 * (INR n * Rabs h)) * M * exp (2 * (INR n * Rabs h * L))))
    (path Rops MAB2 (snapshots v t0 h n) x) (y (t0 + INR n * h)).
Proof.
  intros Hv HL HM Hy Hr ->. eapply near_le.
  - apply (ab2_global_error d v L M (3 / 2 * M * (h * h))); try assumption.
    + apply Rmult_le_pos; [lra|nra].
    + intros t H0 H1 H2. eapply ab2_local_first; eassumption.
  - rewrite <- (abs_sq h). right. ring.
Qed.
