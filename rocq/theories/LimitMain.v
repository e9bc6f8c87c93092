(** The FTLE field converges to that of the flow, as first the time step and then the stencil are refined. *)
From Coq Require Import Reals Lra Lia Psatz.
From Verif Require Import Base Num Particles Jacobian Ftle Integrate DataSource Solver SpecFtle SpecSeeds SpecIntegrate
  SpecSolver SpecOrder SpecConverge SpecLimit FtleFacts2 FtleFacts3 OrderFacts ConvergeFacts ConvergeMain ConvergeCases.
Local Open Scope R_scope.

Lemma central f x l : derivable_pt_lim f x l -> forall e, 0 < e -> exists d, 0 < d /\ forall a, 0 < a < d ->
  Rabs ((f (x + a) - f (x - a)) / ((x + a) - (x - a)) - l) <= e.
Proof.
  intros H e He. destruct (H e He) as (d & Hd). exists d. split; [apply cond_pos|]. intros a Ha.
  pose proof (Hd a ltac:(lra) ltac:(rewrite Rabs_pos_eq; lra)) as H1.
  pose proof (Hd (- a) ltac:(lra) ltac:(rewrite Rabs_Ropp, Rabs_pos_eq; lra)) as H2.
  replace (x - a) with (x + - a) by ring.
  replace ((f (x + a) - f (x + - a)) / (x + a - (x + - a)) - l)
    with (/ 2 * ((f (x + a) - f x) / a - l) + / 2 * ((f (x + - a) - f x) / - a - l)) by (field; lra).
  replace e with (/ 2 * e + / 2 * e) by field.
  apply abs_add2; rewrite Rabs_mult, (Rabs_pos_eq (/ 2)) by lra; apply Rmult_le_compat_l; lra.
Qed.

(** A finite list has a common distance. *)
Lemma common_dist {A} (P : A -> R -> Prop) (l : list A) :
  (forall a d d', 0 < d' -> d' <= d -> P a d -> P a d') ->
  (forall a, In a l -> exists d, 0 < d /\ P a d) -> exists d, 0 < d /\ forall a, In a l -> P a d.
Proof.
  intros Hm. induction l as [|a l IH]; intro H.
  - exists 1. split; [lra|]. intros ? [].
  - destruct IH as (d1 & P1 & H1); [intros; apply H; right; assumption|].
    destruct (H a (or_introl eq_refl)) as (d2 & P2 & H2).
    assert (Pm : 0 < Rmin d1 d2) by (apply Rmin_glb_lt; assumption).
    exists (Rmin d1 d2). split; [exact Pm|]. intros a' [<-|Ha].
    + apply (Hm a d2 _ Pm); [apply Rmin_r|exact H2].
    + apply (Hm a' d1 _ Pm); [apply Rmin_l|apply H1; exact Ha].
Qed.

(** How close the norms must be. *)
Lemma ln_close s T e : 0 < s -> T <> 0 -> 0 < e -> exists h, 0 < h /\ forall t, Rabs (t - s) <= 3 * h ->
  0 < t /\ Rabs (ln t / Rabs T - ln s / Rabs T) <= e.
Proof.
  intros Hs HT He. assert (PT : 0 < Rabs T) by (apply Rabs_pos_lt; exact HT).
  assert (P1 : 0 < e * Rabs T * s) by (apply Rmult_lt_0_compat; [apply Rmult_lt_0_compat; assumption|exact Hs]).
  exists (Rmin (s / 6) (e * Rabs T * s / 6)). split; [apply Rmin_glb_lt; lra|]. intros t Ht.
  pose proof (Rmin_l (s / 6) (e * Rabs T * s / 6)) as M1. pose proof (Rmin_r (s / 6) (e * Rabs T * s / 6)) as M2.
  set (h := Rmin _ _) in *.
  assert (Hl : s / 2 <= t).
  { pose proof (Rle_abs (-(t - s))) as A. rewrite Rabs_Ropp in A. lra. }
  split; [lra|]. pose proof (ln_lipschitz s t (s / 2) ltac:(lra) ltac:(lra) Hl) as E.
  replace (ln t / Rabs T - ln s / Rabs T) with ((ln t - ln s) * / Rabs T) by (unfold Rdiv; ring).
  rewrite Rabs_mult, (Rabs_pos_eq (/ Rabs T)) by (left; apply Rinv_0_lt_compat; exact PT).
  apply Rmult_le_reg_r with (Rabs T); [exact PT|]. rewrite Rmult_assoc, Rinv_l, Rmult_1_r by lra.
  eapply Rle_trans; [exact E|]. apply Rmult_le_reg_r with (s / 2); [lra|].
  replace (Rabs (t - s) / (s / 2) * (s / 2)) with (Rabs (t - s)) by (field; lra). nra.
Qed.

Lemma forall2_in_l {A B} (P : A -> B -> Prop) l l' : Forall2 P l l' -> forall y, In y l' -> exists x, In x l /\ P x y.
Proof.
  induction 1 as [|x y l l' H _ IH]; [intros ? []|]. intros z [<-|Hz]; [exists x; cbn; auto|].
  destruct (IH z Hz) as (x' & Hx' & Hp). exists x'. cbn; auto.
Qed.

Lemma forall2_trans {A B C} (P : A -> B -> Prop) (Q : B -> C -> Prop) (S : A -> C -> Prop) l l' l'' :
  (forall a b c, In a l -> P a b -> Q b c -> S a c) -> Forall2 P l l' -> Forall2 Q l' l'' -> Forall2 S l l''.
Proof.
  intros H HP. revert l''. induction HP as [|a b l l' Hab _ IH]; intros l'' HQ; inversion HQ as [|? c ? ? Hbc HQ']; subst; constructor.
  - apply (H a b c (or_introl eq_refl) Hab Hbc).
  - apply IH; [intros a' b' c' Ha'; apply H; right; exact Ha'|exact HQ'].
Qed.

Lemma zero_is_2 s : spectral_norm_2 (M22 0 0 0 0) s -> s = 0.
Proof.
  intros [_ (u & _ & E)]. rewrite <- E. unfold norm2, dot2, app22. cbn. rewrite !Rmult_0_l, !Rplus_0_l, !Rmult_0_l, Rplus_0_l. apply sqrt_0.
Qed.
Lemma zero_is_3 s : spectral_norm_3 (M33 0 0 0 0 0 0 0 0 0) s -> s = 0.
Proof.
  intros [_ (u & _ & E)]. rewrite <- E. unfold norm3, dot3v, app33, v0, v1, v2. cbn.
  rewrite !Rmult_0_l, !Rplus_0_l, !Rmult_0_l, !Rplus_0_l. apply sqrt_0.
Qed.

Section Plane.
  Context (v : R -> list R -> list R) (L t0 T : R) (phi : R -> R * R -> R * R).
  Context (Hv : lipschitz_field 2 L v) (HL : 0 <= L) (HT : T <> 0).

  Lemma stencil_aligned2 d c g : stencil2 d c g -> axis_aligned2 g.
  Proof. intros (a & b & Ha & Hb & ->). unfold axis_aligned2. cbn. repeat split; lra. Qed.

  Lemma stencil_within2 d c g x : stencil2 d c g -> In x (corners2 g) -> within2 d c x.
  Proof.
    intros (a & b & Ha & Hb & ->) Hx. unfold corners2 in Hx. cbn in Hx.
    destruct Hx as [<-|[<-|[<-|[<-|[]]]]]; unfold within2; cbn; split; apply Rabs_def1; lra.
  Qed.

  Lemma gradient_close2 f c F e : jacobian2 f c F -> 0 < e -> exists d, 0 < d /\ forall g, stencil2 d c g ->
    close22 e (gradient2 g (image2 f g)) F.
  Proof.
    intros (H00 & H01 & H10 & H11) He.
    destruct (central _ _ _ H00 e He) as (d00 & P00 & D00). destruct (central _ _ _ H01 e He) as (d01 & P01 & D01).
    destruct (central _ _ _ H10 e He) as (d10 & P10 & D10). destruct (central _ _ _ H11 e He) as (d11 & P11 & D11).
    exists (Rmin (Rmin d00 d01) (Rmin d10 d11)). split; [repeat apply Rmin_glb_lt; assumption|].
    intros g (a & b & Ha & Hb & ->).
    pose proof (Rmin_l (Rmin d00 d01) (Rmin d10 d11)). pose proof (Rmin_r (Rmin d00 d01) (Rmin d10 d11)).
    pose proof (Rmin_l d00 d01). pose proof (Rmin_r d00 d01). pose proof (Rmin_l d10 d11). pose proof (Rmin_r d10 d11).
    unfold close22, gradient2. cbn [a00 a01 a10 a11 image2 g_left g_right g_top g_bottom fst snd].
    split; [apply D00; lra|]. split; [apply D01; lra|]. split; [apply D10; lra|apply D11; lra].
  Qed.

  (** The exact flow map on a small stencil. *)
  Lemma seed_limit2 c F e : jacobian2 (phi (t0 + T)) c F -> F <> M22 0 0 0 0 -> 0 < e ->
    exists d, 0 < d /\ forall g, stencil2 d c g ->
      gradient2 g (image2 (phi (t0 + T)) g) <> M22 0 0 0 0 /\
      forall t, spectral_norm_2 (gradient2 g (image2 (phi (t0 + T)) g)) t ->
        exists s, spectral_norm_2 F s /\ Rabs (ln t / Rabs T - ln s / Rabs T) <= e.
  Proof.
    intros HJ HF He. destruct (spectral_norm_2_exists F) as (s & Hs).
    assert (Ps : 0 < s).
    { destruct (spectral_norm_2_nonneg _ _ Hs) as [P|Z]; [exact P|exfalso]. subst s. apply HF, zero_norm_2, Hs. }
    destruct (ln_close s T e Ps HT He) as (h & Ph & Hh).
    destruct (gradient_close2 _ _ _ h HJ Ph) as (d & Pd & Hd). exists d. split; [exact Pd|]. intros g Hg.
    assert (Hc : forall t, spectral_norm_2 (gradient2 g (image2 (phi (t0 + T)) g)) t -> Rabs (t - s) <= 3 * h).
    { intros t Ht. exact (norm_close_2 h F _ s t (close22_sym _ _ _ (Hd g Hg)) Hs Ht). }
    split.
    - intro Z. destruct (spectral_norm_2_exists (gradient2 g (image2 (phi (t0 + T)) g))) as (t & Ht).
      pose proof (proj1 (Hh t (Hc t Ht))) as Pt. rewrite Z in Ht. rewrite (zero_is_2 t Ht) in Pt. lra.
    - intros t Ht. exists s. split; [exact Hs|]. apply Hh, Hc, Ht.
  Qed.

  Context {S P W : Type} (interpolate : S -> mat R -> S * res (mat R)) (eigvals : m33 R -> res (R * R * R))
    (mems : nat -> memory (T := R)) (write : W -> string -> list (xval R) -> mat R -> W * res unit)
    (I : (list R -> list R) -> S -> Prop) (HI : samples_field interpolate I).

  Lemma limit2 cs (F : R * R -> m22 R) :
    (forall c, In c cs -> exists r, 0 < r /\ forall x, within2 r c x -> carries2 v t0 (t0 + T) phi x) ->
    (forall c, In c cs -> jacobian2 (phi (t0 + T)) c (F c) /\ F c <> M22 0 0 0 0) ->
    forall e, 0 < e -> exists delta, 0 < delta /\
    forall gs, Forall2 (stencil2 delta) cs gs -> exists N,
    forall n m (sv : solver R S P) (w : world R S P W) w0 id, (N <= n)%nat ->
      presents_fields I (s_source sv) (fun j => v (t0 + INR j * (T / INR n))) -> I w0 (w_interp w) ->
      w_integrator w = fresh m -> s_writer sv = false -> src_id (s_source sv) = Ok id ->
      src_particles (s_source sv) (w_source w) = mk_particles Rops (layout2 gs) ->
      src_steps (s_source sv) = n -> src_timestep (s_source sv) = T / INR n ->
      exists xs, snd (run Rops interpolate eigvals mems write sv w) = Ok (Some (map XVal xs)) /\
        Forall2 (fun c x => exists s, spectral_norm_2 (F c) s /\ Rabs (x - ln s / Rabs T) <= e) cs xs.
  Proof.
    intros Hc HF e He.
    destruct (common_dist (fun c d => forall g, stencil2 d c g ->
        (forall x, In x (corners2 g) -> carries2 v t0 (t0 + T) phi x) /\
        gradient2 g (image2 (phi (t0 + T)) g) <> M22 0 0 0 0 /\
        forall t, spectral_norm_2 (gradient2 g (image2 (phi (t0 + T)) g)) t ->
          exists s, spectral_norm_2 (F c) s /\ Rabs (ln t / Rabs T - ln s / Rabs T) <= e / 2) cs) as (d & Pd & Hd).
    - intros c d d' P' Hle H g (a & b & Ha & Hb & E). apply H. exists a, b. repeat split; try lra; exact E.
    - intros c Hin. destruct (Hc c Hin) as (r & Pr & Hr). destruct (HF c Hin) as [HJ Hnz].
      destruct (seed_limit2 c (F c) (e / 2) HJ Hnz ltac:(lra)) as (d & Pd & Hd).
      exists (Rmin r d). split; [apply Rmin_glb_lt; assumption|]. intros g Hg. split.
      + intros x Hx. apply Hr. destruct (stencil_within2 _ _ _ _ Hg Hx) as [W0 W1]. pose proof (Rmin_l r d). split; lra.
      + apply Hd. destruct Hg as (a & b & Ha & Hb & E). pose proof (Rmin_r r d). exists a, b. repeat split; try lra; exact E.
    - exists d. split; [exact Pd|]. intros gs Hgs.
      assert (Hin : forall g, In g gs -> exists c, In c cs /\ stencil2 d c g) by (apply forall2_in_l; exact Hgs).
      destruct (converges2 v L t0 T phi Hv HL HT (P := P) interpolate eigvals mems write I HI gs) as (C & N & H).
      + apply Forall_forall. intros g Hg. destruct (Hin g Hg) as (c & _ & Hs). apply (stencil_aligned2 _ _ _ Hs).
      + intros g x Hg Hx. destruct (Hin g Hg) as (c & Hcs & Hs). apply (proj1 (Hd c Hcs g Hs) x Hx).
      + intros g Hg. destruct (Hin g Hg) as (c & Hcs & Hs). apply (Hd c Hcs g Hs).
      + destruct (nat_above (2 * C / e)) as (N2 & H2). exists (Nat.max 1 (Nat.max N N2)).
        intros n m sv w w0 id Hn HP Hs Hf Ew Eid Ep En Eh.
        destruct (H n m sv w w0 id ltac:(lia) HP Hs Hf Ew Eid Ep En Eh) as (xs & E & Hxs).
        exists xs. split; [exact E|]. eapply forall2_trans; [|exact Hgs|exact Hxs].
        cbv beta. intros c g x Hcs Hst (t & Ht & Hx).
        destruct (proj2 (proj2 (Hd c Hcs g Hst)) t Ht) as (s & Hns & Hts). exists s. split; [exact Hns|].
        assert (Pn : 1 <= INR n) by (apply (le_INR 1); lia).
        assert (B : C / INR n <= e / 2).
        { specialize (H2 n ltac:(lia)). apply Rmult_le_reg_r with (INR n * (2 / e)); [apply Rmult_lt_0_compat; [lra|apply Rdiv_lt_0_compat; lra]|].
          replace (C / INR n * (INR n * (2 / e))) with (2 * C / e) by (field; lra).
          replace (e / 2 * (INR n * (2 / e))) with (INR n) by (field; lra). exact H2. }
        replace (x - ln s / Rabs T) with ((x - ln t / Rabs T) + (ln t / Rabs T - ln s / Rabs T)) by ring.
        replace e with (e / 2 + e / 2) by field. apply abs_add2; lra.
  Qed.
End Plane.

Section Space.
  Context (v : R -> list R -> list R) (L t0 T : R) (phi : R -> vec3 -> vec3).
  Context (Hv : lipschitz_field 3 L v) (HL : 0 <= L) (HT : T <> 0).

  Lemma stencil_aligned3 d c g : stencil3 d c g -> axis_aligned3 g.
  Proof. intros (a & b & z & Ha & Hb & Hz & ->). unfold axis_aligned3, v0, v1, v2. cbn. repeat split; lra. Qed.

  Lemma stencil_within3 d c g x : stencil3 d c g -> In x (corners3 g) -> within3 d c x.
  Proof.
    intros (a & b & z & Ha & Hb & Hz & ->) Hx. unfold corners3 in Hx. cbn in Hx.
    destruct Hx as [<-|[<-|[<-|[<-|[<-|[<-|[]]]]]]]; unfold within3, v0, v1, v2; cbn; repeat split; apply Rabs_def1; lra.
  Qed.

  Lemma central3 f g h x p q r : derivable_pt_lim f x p -> derivable_pt_lim g x q -> derivable_pt_lim h x r ->
    forall e, 0 < e -> exists d, 0 < d /\ forall a, 0 < a < d ->
    Rabs ((f (x + a) - f (x - a)) / ((x + a) - (x - a)) - p) <= e /\
    Rabs ((g (x + a) - g (x - a)) / ((x + a) - (x - a)) - q) <= e /\
    Rabs ((h (x + a) - h (x - a)) / ((x + a) - (x - a)) - r) <= e.
  Proof.
    intros Hf Hg Hh e He. destruct (central _ _ _ Hf e He) as (d0 & P0 & D0). destruct (central _ _ _ Hg e He) as (d1 & P1 & D1).
    destruct (central _ _ _ Hh e He) as (d2 & P2 & D2).
    exists (Rmin d0 (Rmin d1 d2)). split; [repeat apply Rmin_glb_lt; assumption|]. intros a Ha.
    pose proof (Rmin_l d0 (Rmin d1 d2)). pose proof (Rmin_r d0 (Rmin d1 d2)). pose proof (Rmin_l d1 d2). pose proof (Rmin_r d1 d2).
    split; [apply D0; lra|]. split; [apply D1; lra|apply D2; lra].
  Qed.

  Lemma gradient_close3 f c F e : jacobian3 f c F -> 0 < e -> exists d, 0 < d /\ forall g, stencil3 d c g ->
    close33 e (gradient3 g (image3 f g)) F.
  Proof.
    intros ((H00 & H01 & H02) & (H10 & H11 & H12) & (H20 & H21 & H22)) He.
    destruct (central3 _ _ _ _ _ _ _ H00 H10 H20 e He) as (dx & Px & Dx).
    destruct (central3 _ _ _ _ _ _ _ H01 H11 H21 e He) as (dy & Py & Dy).
    destruct (central3 _ _ _ _ _ _ _ H02 H12 H22 e He) as (dz & Pz & Dz).
    exists (Rmin dx (Rmin dy dz)). split; [repeat apply Rmin_glb_lt; assumption|].
    intros g (a & b & z & Ha & Hb & Hz & ->).
    pose proof (Rmin_l dx (Rmin dy dz)). pose proof (Rmin_r dx (Rmin dy dz)). pose proof (Rmin_l dy dz). pose proof (Rmin_r dy dz).
    destruct (Dx a ltac:(lra)) as (X0 & X1 & X2). destruct (Dy b ltac:(lra)) as (Y0 & Y1 & Y2). destruct (Dz z ltac:(lra)) as (Z0 & Z1 & Z2).
    unfold close33, gradient3. cbn [b00 b01 b02 b10 b11 b12 b20 b21 b22 image3 h_left h_right h_top h_bottom h_front h_back].
    exact (conj (conj X0 (conj Y0 Z0)) (conj (conj X1 (conj Y1 Z1)) (conj X2 (conj Y2 Z2)))).
  Qed.

  Lemma seed_limit3 c F e : jacobian3 (phi (t0 + T)) c F -> F <> M33 0 0 0 0 0 0 0 0 0 -> 0 < e ->
    exists d, 0 < d /\ forall g, stencil3 d c g ->
      gradient3 g (image3 (phi (t0 + T)) g) <> M33 0 0 0 0 0 0 0 0 0 /\
      forall t, spectral_norm_3 (gradient3 g (image3 (phi (t0 + T)) g)) t ->
        exists s, spectral_norm_3 F s /\ Rabs (ln t / Rabs T - ln s / Rabs T) <= e.
  Proof.
    intros HJ HF He. destruct (spectral_norm_3_exists F) as (s & Hs).
    assert (Ps : 0 < s).
    { destruct (spectral_norm_3_nonneg _ _ Hs) as [P|Z]; [exact P|exfalso]. subst s. apply HF, zero_norm_3, Hs. }
    destruct (ln_close s T e Ps HT He) as (h & Ph & Hh).
    destruct (gradient_close3 _ _ _ h HJ Ph) as (d & Pd & Hd). exists d. split; [exact Pd|]. intros g Hg.
    assert (Hc : forall t, spectral_norm_3 (gradient3 g (image3 (phi (t0 + T)) g)) t -> Rabs (t - s) <= 3 * h).
    { intros t Ht. exact (norm_close_3 h F _ s t (close33_sym _ _ _ (Hd g Hg)) Hs Ht). }
    split.
    - intro Z. destruct (spectral_norm_3_exists (gradient3 g (image3 (phi (t0 + T)) g))) as (t & Ht).
      pose proof (proj1 (Hh t (Hc t Ht))) as Pt. rewrite Z in Ht. rewrite (zero_is_3 t Ht) in Pt. lra.
    - intros t Ht. exists s. split; [exact Hs|]. apply Hh, Hc, Ht.
  Qed.

  Context {S P W : Type} (interpolate : S -> mat R -> S * res (mat R)) (eigvals : m33 R -> res (R * R * R))
    (mems : nat -> memory (T := R)) (write : W -> string -> list (xval R) -> mat R -> W * res unit)
    (I : (list R -> list R) -> S -> Prop) (HI : samples_field interpolate I) (Hev : eigvals_ok eigvals).

  Lemma limit3 cs (F : vec3 -> m33 R) :
    (forall c, In c cs -> exists r, 0 < r /\ forall x, within3 r c x -> carries3 v t0 (t0 + T) phi x) ->
    (forall c, In c cs -> jacobian3 (phi (t0 + T)) c (F c) /\ F c <> M33 0 0 0 0 0 0 0 0 0) ->
    forall e, 0 < e -> exists delta, 0 < delta /\
    forall gs, Forall2 (stencil3 delta) cs gs -> exists N,
    forall n m (sv : solver R S P) (w : world R S P W) w0 id, (N <= n)%nat ->
      presents_fields I (s_source sv) (fun j => v (t0 + INR j * (T / INR n))) -> I w0 (w_interp w) ->
      w_integrator w = fresh m -> s_writer sv = false -> src_id (s_source sv) = Ok id ->
      src_particles (s_source sv) (w_source w) = mk_particles Rops (layout3 gs) ->
      src_steps (s_source sv) = n -> src_timestep (s_source sv) = T / INR n ->
      exists xs, snd (run Rops interpolate eigvals mems write sv w) = Ok (Some (map XVal xs)) /\
        Forall2 (fun c x => exists s, spectral_norm_3 (F c) s /\ Rabs (x - ln s / Rabs T) <= e) cs xs.
  Proof.
    intros Hc HF e He.
    destruct (common_dist (fun c d => forall g, stencil3 d c g ->
        (forall x, In x (corners3 g) -> carries3 v t0 (t0 + T) phi x) /\
        gradient3 g (image3 (phi (t0 + T)) g) <> M33 0 0 0 0 0 0 0 0 0 /\
        forall t, spectral_norm_3 (gradient3 g (image3 (phi (t0 + T)) g)) t ->
          exists s, spectral_norm_3 (F c) s /\ Rabs (ln t / Rabs T - ln s / Rabs T) <= e / 2) cs) as (d & Pd & Hd).
    - intros c d d' P' Hle H g (a & b & z & Ha & Hb & Hz & E). apply H. exists a, b, z. repeat split; try lra; exact E.
    - intros c Hin. destruct (Hc c Hin) as (r & Pr & Hr). destruct (HF c Hin) as [HJ Hnz].
      destruct (seed_limit3 c (F c) (e / 2) HJ Hnz ltac:(lra)) as (d & Pd & Hd).
      exists (Rmin r d). split; [apply Rmin_glb_lt; assumption|]. intros g Hg. split.
      + intros x Hx. apply Hr. destruct (stencil_within3 _ _ _ _ Hg Hx) as (W0 & W1 & W2). pose proof (Rmin_l r d). repeat split; lra.
      + apply Hd. destruct Hg as (a & b & z & Ha & Hb & Hz & E). pose proof (Rmin_r r d). exists a, b, z. repeat split; try lra; exact E.
    - exists d. split; [exact Pd|]. intros gs Hgs.
      assert (Hin : forall g, In g gs -> exists c, In c cs /\ stencil3 d c g) by (apply forall2_in_l; exact Hgs).
      destruct (converges3 v L t0 T phi Hv HL HT (P := P) interpolate eigvals mems write I HI Hev gs) as (C & N & H).
      + apply Forall_forall. intros g Hg. destruct (Hin g Hg) as (c & _ & Hs). apply (stencil_aligned3 _ _ _ Hs).
      + intros g x Hg Hx. destruct (Hin g Hg) as (c & Hcs & Hs). apply (proj1 (Hd c Hcs g Hs) x Hx).
      + intros g Hg. destruct (Hin g Hg) as (c & Hcs & Hs). apply (Hd c Hcs g Hs).
      + destruct (nat_above (2 * C / e)) as (N2 & H2). exists (Nat.max 1 (Nat.max N N2)).
        intros n m sv w w0 id Hn HP Hs Hf Ew Eid Ep En Eh.
        destruct (H n m sv w w0 id ltac:(lia) HP Hs Hf Ew Eid Ep En Eh) as (xs & E & Hxs).
        exists xs. split; [exact E|]. eapply forall2_trans; [|exact Hgs|exact Hxs].
        cbv beta. intros c g x Hcs Hst (t & Ht & Hx).
        destruct (proj2 (proj2 (Hd c Hcs g Hst)) t Ht) as (s & Hns & Hts). exists s. split; [exact Hns|].
        assert (Pn : 1 <= INR n) by (apply (le_INR 1); lia).
        assert (B : C / INR n <= e / 2).
        { specialize (H2 n ltac:(lia)). apply Rmult_le_reg_r with (INR n * (2 / e)); [apply Rmult_lt_0_compat; [lra|apply Rdiv_lt_0_compat; lra]|].
          replace (C / INR n * (INR n * (2 / e))) with (2 * C / e) by (field; lra).
          replace (e / 2 * (INR n * (2 / e))) with (INR n) by (field; lra). exact H2. }
        replace (x - ln s / Rabs T) with ((x - ln t / Rabs T) + (ln t / Rabs T - ln s / Rabs T)) by ring.
        replace e with (e / 2 + e / 2) by field. apply abs_add2; lra.
  Qed.
End Space.

(** ** The expansion v = x *)

Definition grow2 (t : R) : m22 R := M22 (exp t) 0 0 (exp t).
Definition grow3 (t : R) : m33 R := M33 (exp t) 0 0 0 (exp t) 0 0 0 (exp t).

Lemma scale_derivative k x : derivable_pt_lim (fun x => x * k) x k.
Proof.
  assert (D : derivable_pt_lim (fun x => x * k) x (1 * k + x * 0)).
  { apply (derivable_pt_lim_mult (fun x => x) (fun _ => k)); [apply derivable_pt_lim_id|apply derivable_pt_lim_const]. }
  replace (1 * k + x * 0) with k in D by ring. exact D.
Qed.

Lemma expand_jacobian2 t c : jacobian2 (expand2 t) c (grow2 t) /\ grow2 t <> M22 0 0 0 0.
Proof.
  split; [|intro H; injection H as H _; pose proof (exp_pos t); lra].
  unfold jacobian2, expand2, grow2. cbn.
  split; [apply scale_derivative|]. split; [apply derivable_pt_lim_const|]. split; [apply derivable_pt_lim_const|apply scale_derivative].
Qed.
Lemma expand_jacobian3 t c : jacobian3 (expand3 t) c (grow3 t) /\ grow3 t <> M33 0 0 0 0 0 0 0 0 0.
Proof.
  split; [|intro H; injection H as H _ _; pose proof (exp_pos t); lra].
  unfold jacobian3, expand3, grow3, v0, v1, v2. cbn.
  repeat split; solve [apply scale_derivative|apply derivable_pt_lim_const].
Qed.
