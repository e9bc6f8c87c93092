(** RK4 in a steady linear field: fourth order. *)
From Coq Require Import Reals Lia Lra Psatz.
From Verif Require Import Base Num SpecIntegrate SpecOrder IntegrateReal OrderFacts OrderRK4.
Local Open Scope R_scope.

Lemma coord_out i x : (length x <= i)%nat -> coord i x = 0.
Proof. intro H. apply nth_overflow. exact H. Qed.

(** One neighbourhood for all coordinates. *)
Lemma uniform_delta d (f g : R -> list R) t eps : 0 < eps ->
  (forall i, derivable_pt_lim (fun s => coord i (f s)) t (coord i (g t))) ->
  exists delta : posreal, forall i h, (i < d)%nat -> h <> 0 -> Rabs h < delta ->
    Rabs ((coord i (f (t + h)) - coord i (f t)) / h - coord i (g t)) < eps.
Proof.
  intros He D. induction d as [|d (d1 & H1)].
  - exists (mkposreal 1 Rlt_0_1). intros. lia.
  - destruct (D d eps He) as (d2 & H2).
    assert (P : 0 < Rmin d1 d2) by (apply Rmin_pos; [apply d1|apply d2]).
    exists (mkposreal _ P). cbn. intros i h Hi Hh Hd.
    assert (Rabs h < d1) by (eapply Rlt_le_trans; [exact Hd|apply Rmin_l]).
    assert (Rabs h < d2) by (eapply Rlt_le_trans; [exact Hd|apply Rmin_r]).
    destruct (Nat.eq_dec i d) as [->|N]; [apply H2; assumption|apply H1; [lia|assumption|assumption]].
Qed.

Section Linear.
  Context (d : nat) (A : list R -> list R) (b : list R) (L : R).
  Context (HA : linear_on d A) (Hb : length b = d) (HL : 0 <= L)
    (Lip : forall x y e, length x = d -> length y = d -> near e x y -> near (L * e) (A x) (A y)).

  Lemma derivative_linear u w f g : (forall t, length (f t) = d) -> (forall t, length (g t) = d) ->
    derivative u w f g -> derivative u w (fun t => A (f t)) (fun t => A (g t)).
  Proof.
    intros Lf Lg D t Ht i eps He.
    assert (He' : 0 < eps / (L + 1)) by (apply Rdiv_lt_0_compat; lra).
    destruct (uniform_delta d f g t (eps / (L + 1)) He' (D t Ht)) as (delta & Hd).
    exists delta. intros h Hh Hdh. destruct HA as (HAl & HAa & HAs).
    assert (Lw : length (f t +v h *v g t) = d) by (rewrite vadd_length, vscale_length, Lf, Lg; apply Nat.min_id).
    assert (Ph : 0 < Rabs h) by (apply Rabs_pos_lt; exact Hh).
    assert (N : near (eps / (L + 1) * Rabs h) (f (t + h)) (f t +v h *v g t)).
    { split; [rewrite Lw; apply Lf|]. intro j. destruct (le_lt_dec d j) as [Hj|Hj].
      - rewrite !coord_out by (rewrite ?Lw, ?Lf; exact Hj). rewrite Rminus_0_r, Rabs_R0. apply Rmult_le_pos; lra.
      - rewrite coord_vadd, coord_vscale by (rewrite vscale_length, Lf, Lg; reflexivity).
        specialize (Hd j h Hj Hh Hdh).
        replace (coord j (f (t + h)) - (coord j (f t) + h * coord j (g t)))
          with (h * ((coord j (f (t + h)) - coord j (f t)) / h - coord j (g t))) by (field; exact Hh).
        rewrite Rabs_mult, Rmult_comm. apply Rmult_le_compat_r; lra. }
    apply Lip in N; [|apply Lf|exact Lw]. destruct N as [_ N]. specialize (N i).
    rewrite HAa, HAs, coord_vadd, coord_vscale in N
      by (rewrite ?vscale_length, ?HAl; rewrite ?vscale_length; rewrite ?Lf, ?Lg; reflexivity).
    set (a1 := coord i (A (f (t + h)))) in *. set (a0 := coord i (A (f t))) in *. set (g0 := coord i (A (g t))) in *.
    replace ((a1 - a0) / h - g0) with ((a1 - (a0 + h * g0)) / h) by (field; exact Hh).
    unfold Rdiv at 1. rewrite Rabs_mult, Rabs_inv.
    apply Rle_lt_trans with (L * (eps / (L + 1) * Rabs h) * / Rabs h).
    - apply Rmult_le_compat_r; [|exact N]. left. apply Rinv_0_lt_compat. exact Ph.
    - replace (L * (eps / (L + 1) * Rabs h) * / Rabs h) with (L * (eps / (L + 1))) by (field; lra).
      apply Rmult_lt_reg_r with (L + 1); [lra|]. replace (L * (eps / (L + 1)) * (L + 1)) with (L * eps) by (field; lra). nra.
  Qed.

  Lemma derivative_shift u w f g : (forall t, length (f t) = d) -> derivative u w f g -> derivative u w (fun t => f t +v b) g.
  Proof.
    intros Lf D t Ht i eps He. destruct (D t Ht i eps He) as (delta & H). exists delta. intros h Hh Hd.
    specialize (H h Hh Hd). rewrite !coord_vadd by (rewrite Lf, Hb; reflexivity).
    replace (coord i (f (t + h)) + coord i b - (coord i (f t) + coord i b)) with (coord i (f (t + h)) - coord i (f t)) by ring.
    exact H.
  Qed.

  Context (y : R -> list R) (u w : R) (Hy : trajectory d (fun _ x => A x +v b) u w y).

  Let f1 t := A (y t) +v b.

  Lemma rk4_linear_local K t h : 0 <= K -> between u w t -> between u w (t + h) ->
    (forall s i, between u w s -> Rabs (coord i (A (A (A (A (f1 s)))))) <= K) ->
    near (K * Rabs h ^ 5) (textbook_rk4 Rops (fun x => A x +v b) h (y t)) (y (t + h)).
  Proof.
    intros HK Ht Hth HB. destruct Hy as (Ly & Dy).
    pose proof (fun s => proj1 HA _ (Ly s)) as LAy.
    assert (L1 : forall s, length (f1 s) = d) by (intro s; unfold f1; rewrite vadd_length, LAy, Hb; apply Nat.min_id).
    pose proof (fun s => proj1 HA _ (L1 s)) as L2. pose proof (fun s => proj1 HA _ (L2 s)) as L3.
    pose proof (fun s => proj1 HA _ (L3 s)) as L4.
    assert (D0 : derivative u w y f1) by exact Dy.
    assert (D1 : derivative u w f1 (fun s => A (f1 s))).
    { apply (derivative_shift u w (fun s => A (y s))); [exact LAy|]. apply derivative_linear; assumption. }
    pose proof (derivative_linear u w _ _ L1 L2 D1) as D2. cbv beta in D2.
    pose proof (derivative_linear u w _ _ L2 L3 D2) as D3. cbv beta in D3.
    pose proof (derivative_linear u w _ _ L3 L4 D3) as D4. cbv beta in D4.
    rewrite (rk4_taylor d) by (try assumption; apply Ly).
    split; [rewrite (taylor4_length d) by (try assumption; apply Ly); symmetry; apply Ly|].
    intro i. rewrite Rabs_minus_sym.
    assert (Sub : forall c, between t (t + h) c -> between u w c) by (intros c; apply between_sub; assumption).
    pose proof (taylor5 (fun s => coord i (y s)) (fun s => coord i (f1 s)) (fun s => coord i (A (f1 s)))
      (fun s => coord i (A (A (f1 s)))) (fun s => coord i (A (A (A (f1 s))))) (fun s => coord i (A (A (A (A (f1 s))))))
      t (t + h) K HK (fun c Hc => D0 c (Sub c Hc) i) (fun c Hc => D1 c (Sub c Hc) i) (fun c Hc => D2 c (Sub c Hc) i)
      (fun c Hc => D3 c (Sub c Hc) i) (fun c Hc => D4 c (Sub c Hc) i) (fun c Hc => HB c i (Sub c Hc))) as T.
    cbv beta in T. replace (t + h - t) with h in T by ring.
    match goal with |- Rabs (_ - ?z) <= _ => match type of T with Rabs (_ - ?w) <= _ => replace z with w; [exact T|] end end.
    unfold taylor4. cbv zeta. fold (f1 t).
    assert (S1 : length (h *v f1 t +v (h * h / 2) *v A (f1 t)) = d) by (rewrite vadd_length, !vscale_length, L1, L2; apply Nat.min_id).
    assert (S2 : length (h *v f1 t +v (h * h / 2) *v A (f1 t) +v (h * h * h / 6) *v A (A (f1 t))) = d) by (rewrite vadd_length, S1, vscale_length, L3; apply Nat.min_id).
    rewrite (coord_vadd i (y t)), (coord_vadd i _ (_ *v A (A (A (f1 t))))), (coord_vadd i _ (_ *v A (A (f1 t)))), (coord_vadd i (h *v f1 t)), !coord_vscale
      by (rewrite ?vadd_length, ?S2, ?S1, ?vscale_length, ?Ly, ?L1, ?L2, ?L3, ?L4, ?Nat.min_id; reflexivity).
    unfold poly. replace (t + h - t) with h by ring. field.
  Qed.
End Linear.

Lemma field_linear_lipschitz d A b L : length b = d -> linear_on d A -> lipschitz_field d L (fun _ x => A x +v b) ->
  forall x y e, length x = d -> length y = d -> near e x y -> near (L * e) (A x) (A y).
Proof.
  intros Hb HA (_ & H) x y e Hx Hy N. destruct (H 0 x y e Hx Hy N) as (_ & H'). destruct HA as (HAl & _).
  split; [rewrite !HAl by assumption; reflexivity|]. intro i. specialize (H' i).
  rewrite !coord_vadd in H' by (rewrite HAl by assumption; congruence).
  replace (coord i (A x) - coord i (A y)) with (coord i (A x) + coord i b - (coord i (A y) + coord i b)) by ring. exact H'.
Qed.

Lemma rk4_linear_order d A b L K n h t0 y x : linear_on d A -> length b = d ->
  lipschitz_field d L (fun _ x => A x +v b) -> 0 <= L -> 0 <= K ->
  trajectory d (fun _ x => A x +v b) t0 (t0 + INR n * h) y ->
  (forall s i, between t0 (t0 + INR n * h) s -> Rabs (coord i (A (A (A (A (A (y s) +v b)))))) <= K) -> x = y t0 ->
  near (h ^ 4 * (INR n * Rabs h * K * exp (INR n * Rabs h * L)))
    (path Rops MRK4 (snapshots (fun _ x => A x +v b) t0 h n) x) (y (t0 + INR n * h)).
Proof.
  intros HA Hb Hv HL HK Hy HB ->. cbn [path]. unfold snapshots. rewrite rk4_fold.
  pose proof (Rabs_pos h) as Ph. assert (Hz0 : 0 <= Rabs h * L) by (apply Rmult_le_pos; assumption).
  set (z := Rabs h * L) in *. assert (P5 : 0 <= Rabs h ^ 5) by (apply pow_le; exact Ph).
  apply near_le with (accumulate (1 + z + z * z / 2 + z * z * z / 6 + z * z * z * z / 24) (K * Rabs h ^ 5) n 0).
  - apply (one_step_method d (textbook_rk4 Rops) (fun _ x => A x +v b) t0 (t0 + INR n * h)).
    + intros t x Hx. eapply (rk4_length d (fun _ x => A x +v b)); eassumption.
    + apply Hy.
    + intros t H1 H2. eapply (rk4_linear_local d A b L); try eassumption. apply field_linear_lipschitz with (b := b); assumption.
    + intros e t x Hx Hn. apply (rk4_spread d (fun _ x => A x +v b) L Hv e t h x (y t)); [exact Hx|apply Hy|exact Hn].
    + intros j Hj. apply between_step. lia.
    + apply Hy.
    + cbn. rewrite Rmult_0_l, Rplus_0_r. apply near_refl.
  - assert (0 <= z * z) by nra. assert (0 <= z * z * z) by (apply Rmult_le_pos; assumption).
    assert (0 <= z * z * z * z) by (apply Rmult_le_pos; assumption).
    eapply Rle_trans; [apply (accumulate_bound _ _ _ _ z); try lra|].
    + apply Rmult_le_pos; assumption.
    + apply exp_ge4. exact Hz0.
    + right. replace (INR n * Rabs h * L) with (INR n * z) by (unfold z; ring).
      replace (h ^ 4) with (Rabs h ^ 4) by (replace (Rabs h ^ 4) with ((Rabs h * Rabs h) * (Rabs h * Rabs h)) by ring; rewrite abs_sq; ring). ring.
Qed.

(* ---- the snapshot per step costs RK4 its order in unsteady flows ---- *)

(** The uniformly accelerated flow v = t. *)
Definition accel (t : R) (_ : list R) : list R := [t].

Lemma accel_rk4 t h x : textbook_rk4 Rops (accel t) h [x] = [x + h * t].
Proof. unfold textbook_rk4, accel. cbn. f_equal. field. Qed.

Lemma accel_path t0 h n : forall k x,
  fold_left (fun x vh => textbook_rk4 Rops (fst vh) (snd vh) x) (map (fun j => (accel (t0 + INR j * h), h)) (seq k n)) [x]
  = [x + INR n * h * t0 + h * h * (INR n * INR k + INR n * (INR n - 1) / 2)].
Proof.
  induction n as [|n IH]; intros k x.
  - cbn. f_equal. field.
  - cbn [seq map fold_left fst snd]. rewrite accel_rk4, IH. f_equal. rewrite !S_INR. field.
Qed.

Lemma accel_error h n : path Rops MRK4 (snapshots accel 0 h n) [0] = [(INR n * h) * (INR n * h) / 2 - h * (INR n * h) / 2].
Proof. cbn [path]. unfold snapshots. rewrite rk4_fold, accel_path. f_equal. cbn [INR]. field. Qed.
