(** How accurate SciPy's interpolators are between dense samples of a velocity. *)
From Coq Require Import Reals Lia Lra Psatz Floats.
From Flocq Require Import Core.
From Verif Require Import Base Num NdArray Interpolate Readers SpecSeeds SpecFiles SpecInterp SpecGrid SpecOrder SpecFloat64 SpecFloatGrid SpecScatter OrderFacts.
Local Open Scope R_scope.

Lemma apart_pos p q : 0 <= apart p q.
Proof. apply sqrt_pos. Qed.

Lemma apart_coords p q : Rabs (fst p - fst q) <= apart p q /\ Rabs (snd p - snd q) <= apart p q.
Proof.
  unfold apart. set (a := fst p - fst q). set (b := snd p - snd q). pose proof (pow2_ge_0 a). pose proof (pow2_ge_0 b).
  split; [rewrite <- (sqrt_Rsqr_abs a)|rewrite <- (sqrt_Rsqr_abs b)]; apply sqrt_le_1_alt; unfold Rsqr; nra.
Qed.

Lemma apart_near p q e : apart q p <= e -> near e (row2 p) (row2 q).
Proof.
  intro H. destruct (apart_coords q p) as [A B]. destruct p as [a b], q as [c d]. cbn [fst snd] in A, B. pose proof (Rabs_pos (c - a)).
  rewrite Rabs_minus_sym in A, B. split; [reflexivity|]. intros [|[|k]]; cbn [coord nth row2]; [lra|lra|].
  unfold coord. destruct k; cbn [nth]; rewrite Rminus_diag_eq, Rabs_R0 by reflexivity; rewrite Rabs_minus_sym in A; lra.
Qed.

Lemma weighted_near c b ws : forall xs, length ws = length xs -> Forall (fun w => 0 <= w) ws -> Forall2 (fun w x => w <> 0 -> Rabs (x - c) <= b) ws xs ->
  0 <= total ws /\ Rabs (weighted ws xs - total ws * c) <= total ws * b.
Proof.
  unfold weighted. induction ws as [|w ws IH]; intros [|x xs] HL Hw HF; try discriminate HL; cbn [total combine map fold_right fst snd].
  - split; [lra|]. rewrite Rmult_0_l, Rminus_0_r, Rabs_R0. lra.
  - inversion Hw as [|? ? W1 W2]; subst. inversion HF as [|? ? ? ? F1 F2]; subst. destruct (IH xs) as [A B]; [cbn in HL; lia|assumption|assumption|].
    fold (total ws). fold (total (map (fun p => fst p * snd p) (combine ws xs))). split; [lra|].
    apply Rabs_le_inv in B.
    assert (X : Rabs (w * x - w * c) <= w * b).
    { destruct (Req_dec w 0) as [-> |N]; [rewrite !Rmult_0_l, Rminus_0_r, Rabs_R0; lra|].
      replace (w * x - w * c) with (w * (x - c)) by ring. rewrite Rabs_mult, (Rabs_pos_eq w) by lra. apply Rmult_le_compat_l; [lra|exact (F1 N)]. }
    apply Rabs_le_inv in X. apply Rabs_le. split; nra.
Qed.

Lemma mean_near (v : list R -> list R) L eps r eta Ps Vs q V : lipschitz_field 2 L (fun _ => v) -> 0 <= L -> 0 <= r -> samples_of v eps Ps Vs -> mean_around r eta Ps Vs q V ->
  near (eps + L * r + eta) (row2 V) (v (row2 q)).
Proof.
  intros [HL1 HL2] L0 R0 HS (ws & Wl & W0 & W1 & WF & A & B).
  assert (C : forall i proj, (forall W, coord i (row2 W) = proj W) -> Rabs (weighted ws (map proj Vs) - coord i (v (row2 q))) <= eps + L * r).
  { intros i proj Hp.
    assert (LV : length Ps = length Vs) by (clear - HS; induction HS; cbn; congruence).
    destruct (weighted_near (coord i (v (row2 q))) (eps + L * r) ws (map proj Vs)) as [_ X]; [rewrite map_length; congruence|exact W0| |].
    - clear - HS WF HL2 Hp. revert Vs HS. induction WF as [|w P ws Ps HW _ IH]; intros Vs HS; inversion HS as [|? U ? ? H1 H2]; subst; cbn [map]; constructor; [|apply IH; exact H2].
      intro N. pose proof (apart_near _ _ _ (HW N)) as HN. destruct H1 as [_ H1]. specialize (H1 i). rewrite Hp in H1.
      destruct (HL2 0 (row2 P) (row2 q) r ltac:(destruct P; reflexivity) ltac:(destruct q; reflexivity) HN) as [_ H3]. specialize (H3 i).
      apply Rabs_le_inv in H1, H3. apply Rabs_le. lra.
    - rewrite W1, !Rmult_1_l in X. exact X. }
  pose proof (C 0%nat fst ltac:(intros []; reflexivity)) as C0. pose proof (C 1%nat snd ltac:(intros []; reflexivity)) as C1.
  assert (E0 : 0 <= eps + L * r + eta) by (pose proof (Rabs_pos (weighted ws (map fst Vs) - coord 0 (v (row2 q)))); pose proof (Rabs_pos (fst V - weighted ws (map fst Vs))); lra).
  assert (LQ : length (v (row2 q)) = 2%nat) by (apply (HL1 0); destruct q; reflexivity).
  split; [rewrite LQ; destruct V; reflexivity|]. apply Rabs_le_inv in A, B, C0, C1.
  intros [|[|i]]; [destruct V; cbn [coord nth row2 fst snd] in *; apply Rabs_le; unfold coord in *; lra|destruct V; cbn [coord nth row2 fst snd] in *; apply Rabs_le; unfold coord in *; lra|].
  unfold coord. rewrite (nth_overflow (v (row2 q))) by lia. destruct V. cbn [row2 nth]. destruct i; cbn [nth]; rewrite Rminus_diag_eq, Rabs_R0 by reflexivity; exact E0.
Qed.

(** Interpolants that are weighted means of samples nearby. *)
Lemma means_scattered fs scp k D delta L r eps eta v velocities coordinates : 0 <= L -> 0 <= r ->
  (forall j, (j < length velocities)%nat -> lipschitz_field 2 L (fun _ => v j)) -> eps + L * r + eta <= delta ->
  files_hold fs (fun j points values => exists Ps Vs answer, samples_of (v j) eps Ps Vs /\
     built_by scp k points values answer /\ evaluates D answer (mean_around r eta Ps Vs)) velocities coordinates ->
  scattered fs scp k D delta v velocities coordinates.
Proof.
  intros L0 R0 HL Hd HF j Hj. destruct (HF j Hj) as (vf & cf & dv & dc & points & values & A1 & A2 & A3 & A4 & A5 & A6 & A7 & Ps & Vs & answer & B1 & B2 & g & B3 & B4).
  exists vf, cf, dv, dc, points, values. do 7 (split; [assumption|]). exists answer. split; [exact B2|]. exists g. split; [exact B3|].
  intros p q S I. destruct (B4 p q S I) as (V & SV & HV). exists V. split; [exact SV|].
  eapply near_le; [exact (mean_near (v j) L eps r eta Ps Vs q V (HL j Hj) L0 R0 B1 HV)|exact Hd].
Qed.

Fixpoint only (n i : nat) : list R :=
  match n with
  | O => []
  | S n' => match i with O => 1 :: repeat 0 n' | S i' => 0 :: only n' i' end
  end.

Lemma only_len n : forall i, length (only n i) = n.
Proof. induction n as [|n IH]; intros [|i]; cbn; try reflexivity; f_equal; [apply repeat_length|apply IH]. Qed.

Lemma total_zero n : total (repeat 0 n) = 0.
Proof. induction n; cbn; [reflexivity|]. unfold total in IHn. lra. Qed.

Lemma only_total n : forall i, (i < n)%nat -> total (only n i) = 1.
Proof.
  induction n as [|n IH]; intros [|i] Hi; try lia; cbn [only total fold_right].
  - fold (total (repeat 0 n)). rewrite total_zero. lra.
  - fold (total (only n i)). rewrite IH by lia. lra.
Qed.

Lemma only_pos n : forall i, Forall (fun w => 0 <= w) (only n i).
Proof.
  induction n as [|n IH]; intros [|i]; cbn [only]; constructor; try lra; [|apply IH].
  clear IH. induction n; cbn; constructor; [lra|assumption].
Qed.

Lemma weighted_zero n : forall xs, weighted (repeat 0 n) xs = 0.
Proof.
  unfold weighted. induction n as [|n IH]; intros [|x xs]; cbn [repeat combine map total fold_right fst snd]; try reflexivity.
  fold (total (map (fun p => fst p * snd p) (combine (repeat 0 n) xs))). rewrite IH. lra.
Qed.

Lemma only_weighted x xs : forall i, nth_error xs i = Some x -> weighted (only (length xs) i) xs = x.
Proof.
  unfold weighted. induction xs as [|y xs IH]; intros [|i] E; try discriminate; cbn [length only combine map total fold_right fst snd].
  - injection E as ->. fold (total (map (fun p => fst p * snd p) (combine (repeat 0 (length xs)) xs))). fold (weighted (repeat 0 (length xs)) xs). rewrite weighted_zero. lra.
  - fold (total (map (fun p => fst p * snd p) (combine (only (length xs) i) xs))). rewrite (IH i E). lra.
Qed.

Lemma only_reach (Q : R * R -> Prop) P Ps : forall i, nth_error Ps i = Some P -> Q P -> Forall2 (fun w X => w <> 0 -> Q X) (only (length Ps) i) Ps.
Proof.
  induction Ps as [|X Ps IH]; intros [|i] E HQ; try discriminate; cbn [length only].
  - injection E as ->. constructor; [intros _; exact HQ|]. clear. induction Ps; cbn; constructor; [intro H; contradiction (H eq_refl)|assumption].
  - constructor; [intro H; contradiction (H eq_refl)|]. apply IH; assumption.
Qed.

(** Nearest neighbours in dense samples. *)
Lemma nearest_means fs scp (D : R * R -> Prop) r eps v velocities coordinates : accurate_nearest scp -> (forall q, D q -> moderate q) -> (exists q, D q) ->
  sampled_at fs r eps D v velocities coordinates ->
  files_hold fs (fun j points values => exists Ps Vs answer, samples_of (v j) eps Ps Vs /\
     built_by scp ByNearest points values answer /\ evaluates D answer (mean_around ((1 + / 2 ^ 40) * r + / 2 ^ 500) 0 Ps Vs)) velocities coordinates.
Proof.
  intros Hn HD (q0 & Hq0) HF.
  assert (P40 : 0 < / 2 ^ 40) by (apply Rinv_0_lt_compat, pow_lt; lra). assert (P500 : 0 < / 2 ^ 500) by (apply Rinv_0_lt_compat, pow_lt; lra).
  intros j Hj. destruct (HF j Hj) as (vf & cf & dv & dc & points & values & A1 & A2 & A3 & A4 & A5 & A6 & A7 & Ps & Vs & S1 & S2 & S3 & S4 & S5).
  exists vf, cf, dv, dc, points, values. do 7 (split; [assumption|]).
  assert (LP : length points = length Ps) by (clear - S1; induction S1; cbn; congruence).
  assert (LV : length values = length Vs) by (clear - S3; induction S3; cbn; congruence).
  assert (NE : points <> []).
  { intro E. subst points. destruct Ps; [|discriminate LP]. destruct (S5 q0 Hq0) as (P & [] & _). }
  destruct (Hn points Ps values Vs NE S1 S2 S3 A7) as (C1 & g & C2 & C3).
  exists Ps, Vs, (near_c scp (arr2 points) values). split; [exact S4|]. split; [split; [exact C1|reflexivity]|].
  exists g. split.
  - intros ps Hps. apply C2. revert Hps. apply Forall_impl. intros p (q & Sp & I). exists q. split; [exact Sp|exact (HD q I)].
  - intros p q Sp I. destruct (C3 p q Sp (HD q I)) as (V & SV & i & P & E1 & E2 & E3). exists V. split; [exact SV|].
    assert (Hi : (i < length Ps)%nat) by (apply nth_error_Some; congruence).
    exists (only (length Ps) i). split; [apply only_len|]. split; [apply only_pos|]. split; [apply only_total; exact Hi|]. split; [|split].
    + apply (only_reach (fun X => apart q X <= (1 + / 2 ^ 40) * r + / 2 ^ 500) P); [exact E1|]. destruct (S5 q I) as (P' & I' & R').
      apply Rle_trans with (1 := E3 P' I'). assert ((1 + / 2 ^ 40) * apart q P' <= (1 + / 2 ^ 40) * r) by (apply Rmult_le_compat_l; lra). lra.
    + replace (length Ps) with (length (map fst Vs)) by (rewrite map_length; congruence).
      rewrite (only_weighted (fst V)) by (rewrite nth_error_map, E2; reflexivity). rewrite Rminus_diag_eq, Rabs_R0 by reflexivity. lra.
    + replace (length Ps) with (length (map snd Vs)) by (rewrite map_length; congruence).
      rewrite (only_weighted (snd V)) by (rewrite nth_error_map, E2; reflexivity). rewrite Rminus_diag_eq, Rabs_R0 by reflexivity. lra.
Qed.

Lemma nearest_scattered fs scp (D : R * R -> Prop) delta L r eps v velocities coordinates : accurate_nearest scp -> 0 <= L -> 0 <= r ->
  (forall j, (j < length velocities)%nat -> lipschitz_field 2 L (fun _ => v j)) -> (forall q, D q -> moderate q) -> (exists q, D q) ->
  eps + L * ((1 + / 2 ^ 40) * r + / 2 ^ 500) <= delta ->
  sampled_at fs r eps D v velocities coordinates ->
  scattered fs scp ByNearest D delta v velocities coordinates.
Proof.
  intros Hn L0 R0 HL HD Hq Hd HF.
  assert (P40 : 0 < / 2 ^ 40) by (apply Rinv_0_lt_compat, pow_lt; lra). assert (P500 : 0 < / 2 ^ 500) by (apply Rinv_0_lt_compat, pow_lt; lra).
  apply (means_scattered fs scp ByNearest D delta L ((1 + / 2 ^ 40) * r + / 2 ^ 500) eps 0); [exact L0| |exact HL|lra|apply nearest_means; assumption].
  assert (0 <= (1 + / 2 ^ 40) * r) by (apply Rmult_le_pos; lra). lra.
Qed.
