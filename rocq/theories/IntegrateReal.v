(** Integration over exact reals: C14, C22-C26, C85. *)
From Coq Require Import Reals Lra Lia.
From Verif Require Import Base Num Particles Jacobian Integrate SpecFtle SpecSeeds ParticleFacts JacobianFacts
  SpecIntegrate IntegrateFacts IntegratePoint.
Local Open Scope R_scope.

(* ---- vector algebra on lists ---- *)
Lemma vadd_comm x y : x +v y = y +v x.
Proof. revert y; induction x as [|a x IH]; intros [|b y]; cbn; try reflexivity. rewrite IH. f_equal. ring. Qed.
Lemma vadd_assoc x y z : (x +v y) +v z = x +v (y +v z).
Proof. revert y z; induction x as [|a x IH]; intros [|b y] [|c z]; cbn; try reflexivity. rewrite IH. f_equal. ring. Qed.
Lemma vscale_vadd c x y : c *v (x +v y) = c *v x +v c *v y.
Proof. revert y; induction x as [|a x IH]; intros [|b y]; cbn; try reflexivity.
  f_equal; [ring|]. apply IH. Qed.
Lemma vadd_length x y : length (x +v y) = Nat.min (length x) (length y).
Proof. revert y; induction x as [|a x IH]; intros [|b y]; cbn; auto. Qed.
Lemma vscale_length c x : length (c *v x) = length x.
Proof. apply map_length. Qed.
Lemma vsub_length x y : length (vsub Rops x y) = Nat.min (length x) (length y).
Proof. revert y; induction x as [|a x IH]; intros [|b y]; cbn; auto. Qed.
Lemma vscale_1 x : 1 *v x = x.
Proof. unfold vscale. cbn. rewrite <- (map_id x) at 2. apply map_ext. intro. ring. Qed.
Lemma vscale_vscale a b x : a *v (b *v x) = (a * b) *v x.
Proof. unfold vscale. rewrite map_map. apply map_ext. intro. cbn. ring. Qed.

(* ---- C22 ---- *)
Lemma vadd_zero x c : length x = length c -> x +v (0 *v c) = x.
Proof.
  revert c; induction x as [|a x IH]; intros [|b c] H; cbn in *; try reflexivity; try discriminate.
  f_equal; [ring|]. apply IH. lia.
Qed.
Lemma vadd_scale2 x c a b : (x +v a *v c) +v b *v c = x +v (a + b) *v c.
Proof. revert c; induction x as [|p x IH]; intros [|q c]; cbn; try reflexivity. f_equal; [ring|]. apply IH. Qed.

Definition sum (l : list R) : R := fold_right Rplus 0 l.

Lemma euler_const c h x : textbook_euler Rops (fun _ => c) h x = x +v h *v c.
Proof. reflexivity. Qed.
Lemma ab2_const c h x : textbook_ab2 Rops (fun _ => c) h c x = x +v h *v c.
Proof.
  unfold textbook_ab2. f_equal. induction c as [|a c IH]; cbn; [reflexivity|]. f_equal; [|apply IH].
  unfold o_three_halves, o_half. cbn. field.
Qed.
Lemma rk4_const c h x : textbook_rk4 Rops (fun _ => c) h x = x +v h *v c.
Proof.
  unfold textbook_rk4. cbv beta zeta. f_equal. induction c as [|a c IH]; cbn; [reflexivity|]. f_equal; [|apply IH].
  field.
Qed.

Lemma uniform_path m c hs x : length x = length c ->
  path Rops m (map (fun h => ((fun _ => c), h)) hs) x = x +v sum hs *v c.
Proof.
  intro Hl.
  assert (Hlen : forall a, length (x +v a *v c) = length c).
  { intro a. rewrite vadd_length, vscale_length. lia. }
  destruct m; cbn [path].
  - assert (G : forall a, euler_path Rops (map (fun h => ((fun _ => c), h)) hs) (x +v a *v c) = x +v (a + sum hs) *v c).
    { induction hs as [|h hs IH]; intro a; cbn [map euler_path sum fold_right]; [rewrite Rplus_0_r; reflexivity|].
      rewrite euler_const, vadd_scale2, IH. unfold sum. rewrite Rplus_assoc. reflexivity. }
    specialize (G 0). rewrite vadd_zero, Rplus_0_l in G by exact Hl. exact G.
  - assert (G : forall a, ab2_path Rops (map (fun h => ((fun _ => c), h)) hs) (Some c) (x +v a *v c) = x +v (a + sum hs) *v c).
    { induction hs as [|h hs IH]; intro a; cbn [map ab2_path sum fold_right]; [rewrite Rplus_0_r; reflexivity|].
      rewrite ab2_const, vadd_scale2, IH. unfold sum. rewrite Rplus_assoc. reflexivity. }
    destruct hs as [|h hs]; [cbn; symmetry; apply vadd_zero, Hl|].
    cbn [map ab2_path]. rewrite euler_const.
    pose proof (G 0) as G0. rewrite vadd_zero, Rplus_0_l in G0 by exact Hl. cbn [map ab2_path] in G0.
    rewrite ab2_const in G0. exact G0.
  - assert (G : forall a, rk4_path Rops (map (fun h => ((fun _ => c), h)) hs) (x +v a *v c) = x +v (a + sum hs) *v c).
    { induction hs as [|h hs IH]; intro a; cbn [map rk4_path sum fold_right]; [rewrite Rplus_0_r; reflexivity|].
      rewrite rk4_const, vadd_scale2, IH. unfold sum. rewrite Rplus_assoc. reflexivity. }
    specialize (G 0). rewrite vadd_zero, Rplus_0_l in G by exact Hl. exact G.
Qed.

Lemma sum_repeat n h : sum (repeat h n) = INR n * h.
Proof.
  induction n as [|n IH]; [cbn; ring|]. cbn [repeat sum fold_right]. unfold sum in IH. rewrite IH, S_INR. ring.
Qed.

(* ---- C23 ---- *)
Lemma rk4_taylor d A b h x : linear_on d A -> length x = d -> length b = d ->
  textbook_rk4 Rops (fun y => A y +v b) h x = taylor4 A b h x.
Proof.
  intros (HL & HA & HS) Hx Hb. unfold textbook_rk4, taylor4. cbv zeta.
  set (w := A x +v b).
  assert (Hw : length w = d) by (unfold w; rewrite vadd_length, (HL x Hx), Hb; apply Nat.min_id).
  assert (Hs : forall c y, length y = d -> length (c *v y) = d) by (intros; rewrite vscale_length; assumption).
  assert (Hadd : forall y z, length y = d -> length z = d -> length (y +v z) = d)
    by (intros y z Hy Hz; rewrite vadd_length, Hy, Hz; apply Nat.min_id).
  (* A (x + c k) + b = w + c A k *)
  assert (St : forall c k, length k = d -> A (x +v c *v k) +v b = w +v c *v A k).
  { intros c k Hk. rewrite HA by auto. rewrite HS by assumption. unfold w.
    rewrite !vadd_assoc. f_equal. apply vadd_comm. }
  change (o_mul Rops (o_half Rops) h) with (1 / 2 * h).
  rewrite (St (1 / 2 * h) w Hw).
  assert (K2 : length (w +v (1 / 2 * h) *v A w) = d) by auto 12.
  rewrite (St (1 / 2 * h) _ K2).
  assert (AK2 : A (w +v (1 / 2 * h) *v A w) = A w +v (1 / 2 * h) *v A (A w)).
  { rewrite HA by auto 12. rewrite HS by auto 12. reflexivity. }
  rewrite AK2.
  assert (K3 : length (w +v (1 / 2 * h) *v (A w +v (1 / 2 * h) *v A (A w))) = d) by auto 12.
  rewrite (St h _ K3).
  assert (AK3 : A (w +v (1 / 2 * h) *v (A w +v (1 / 2 * h) *v A (A w)))
          = A w +v (1 / 2 * h) *v (A (A w) +v (1 / 2 * h) *v A (A (A w)))).
  { rewrite HA by auto 12. rewrite HS by auto 12. rewrite HA by auto 12. rewrite HS by auto 12. reflexivity. }
  rewrite AK3.
  f_equal. generalize (A (A (A w))) as dd. generalize (A (A w)) as cc. generalize (A w) as bb. generalize w as aa.
  clear. intros a b c d. revert b c d.
  induction a as [|a0 a IH]; intros [|b0 b] [|c0 c] [|d0 d]; cbn; try reflexivity.
  f_equal; [field|]. apply IH.
Qed.

Lemma linear_field_length d A b x : linear_on d A -> length x = d -> length b = d ->
  length (A x +v b) = d.
Proof. intros (HL & _ & _) Hx Hb. rewrite vadd_length, (HL x Hx), Hb. apply Nat.min_id. Qed.

Lemma taylor4_length d A b h x : linear_on d A -> length x = d -> length b = d -> length (taylor4 A b h x) = d.
Proof.
  intros HA Hx Hb. pose proof (linear_field_length d A b x HA Hx Hb) as Hw.
  destruct HA as (HL & _ & _). unfold taylor4. cbv zeta. revert Hw. generalize (A x +v b) as w. intros w Hw.
  pose proof (HL w Hw) as H1. pose proof (HL _ H1) as H2. pose proof (HL _ H2) as H3.
  rewrite !vadd_length, !vscale_length. lia.
Qed.

Lemma iter_succ_r {A} (f : A -> A) n x : Nat.iter (S n) f x = Nat.iter n f (f x).
Proof. induction n as [|n IH]; [reflexivity|]. cbn [Nat.iter nat_rect] in *. unfold Nat.iter in *. cbn in *. rewrite IH. reflexivity. Qed.

Lemma rk4_power d A b h n x : linear_on d A -> length x = d -> length b = d ->
  path Rops MRK4 (repeat ((fun y => A y +v b), h) n) x = Nat.iter n (taylor4 A b h) x.
Proof.
  intros HA Hx Hb. cbn [path]. revert x Hx. induction n as [|n IH]; intros x Hx; [reflexivity|].
  cbn [repeat rk4_path]. rewrite (rk4_taylor d) by assumption.
  rewrite IH by (apply (taylor4_length d); assumption). symmetry. apply iter_succ_r.
Qed.

Lemma euler_power A b h n x :
  path Rops MEuler (repeat ((fun y => A y +v b), h) n) x = Nat.iter n (fun y => y +v h *v (A y +v b)) x.
Proof.
  cbn [path]. revert x. induction n as [|n IH]; intros x; [reflexivity|].
  cbn [repeat euler_path]. rewrite IH. symmetry. apply iter_succ_r.
Qed.

(* ---- C25 ---- *)
Lemma vadd_neg x h y : x +v (- h) *v y = x +v h *v ((-1) *v y).
Proof. rewrite vscale_vscale. repeat f_equal. ring. Qed.

Lemma euler_reverse v h x : textbook_euler Rops v (- h) x = textbook_euler Rops (neg_field v) h x.
Proof. unfold textbook_euler, neg_field. apply vadd_neg. Qed.

Lemma ab2_reverse v h vp x :
  textbook_ab2 Rops v (- h) vp x = textbook_ab2 Rops (neg_field v) h ((-1) *v vp) x.
Proof.
  unfold textbook_ab2, neg_field. rewrite vadd_neg. f_equal. f_equal.
  generalize (v x) vp. clear. intro a. induction a as [|a0 a IH]; intros [|b0 b]; cbn; try reflexivity.
  f_equal; [ring|]. apply IH.
Qed.

Lemma rk4_reverse v h x : textbook_rk4 Rops v (- h) x = textbook_rk4 Rops (neg_field v) h x.
Proof.
  unfold textbook_rk4, neg_field. cbv zeta.
  change (o_mul Rops (o_half Rops) (- h)) with (1 / 2 * - h).
  change (o_mul Rops (o_half Rops) h) with (1 / 2 * h).
  replace (1 / 2 * - h) with (- (1 / 2 * h)) by ring.
  change (o_div Rops (- h) (o_ofZ Rops 6)) with (- h / 6).
  change (o_div Rops h (o_ofZ Rops 6)) with (h / 6).
  replace (- h / 6) with (- (h / 6)) by field.
  rewrite !vadd_neg. f_equal. f_equal.
  rewrite !vscale_vadd, !vscale_vscale. cbn [o_ofZ Rops].
  replace (-1 * 2) with (2 * -1) by ring. reflexivity.
Qed.

Lemma path_reverse m steps x : path Rops m steps x = path Rops m (reversed steps) x.
Proof.
  destruct m; cbn [path].
  - revert x. induction steps as [|[v h] steps IH]; intro x; [reflexivity|].
    cbn [reversed map euler_path fst snd]. rewrite <- euler_reverse, Ropp_involutive. apply IH.
  - assert (G : forall steps vp x, ab2_path Rops steps (Some vp) x
                  = ab2_path Rops (reversed steps) (Some ((-1) *v vp)) x).
    { clear. induction steps as [|[v h] steps IH]; intros vp x; [reflexivity|].
      cbn [reversed map ab2_path fst snd]. rewrite <- ab2_reverse, Ropp_involutive. apply IH. }
    destruct steps as [|[v h] steps]; [reflexivity|].
    cbn [reversed map ab2_path fst snd]. rewrite <- euler_reverse, Ropp_involutive. apply G.
  - revert x. induction steps as [|[v h] steps IH]; intro x; [reflexivity|].
    cbn [reversed map rk4_path fst snd]. rewrite <- rk4_reverse, Ropp_involutive. apply IH.
Qed.
