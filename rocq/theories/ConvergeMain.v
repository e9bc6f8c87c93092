(** The FTLE field converges to that of the flow map as the time step goes to zero. *)
From Coq Require Import Reals Lra Lia Psatz.
From Verif Require Import Base Num Particles Jacobian Ftle Integrate DataSource Solver SpecFtle SpecSeeds SpecIntegrate
  SpecSolver SpecOrder SpecConverge FtleFacts2 FtleFacts3 ParticleFacts JacobianFacts SolverFacts SolverField SolverLinear
  OrderFacts OrderMain ConvergeFacts.
Local Open Scope R_scope.

Lemma C_div_le C C' n : C <= C' -> C / INR n <= C' / INR n.
Proof.
  intro H. destruct n as [|n]; [cbn; unfold Rdiv; rewrite Rinv_0; lra|].
  unfold Rdiv. apply Rmult_le_compat_r; [|exact H]. left. apply Rinv_0_lt_compat. apply lt_0_INR. lia.
Qed.

Lemma near_row2 e p q : near e (row2 p) (row2 q) -> Rabs (fst p - fst q) <= e /\ Rabs (snd p - snd q) <= e.
Proof. destruct p, q. intros [_ H]. split; [apply (H 0%nat)|apply (H 1%nat)]. Qed.
Lemma near_row3 e p q : near e (row3 p) (row3 q) ->
  Rabs (v0 p - v0 q) <= e /\ Rabs (v1 p - v1 q) <= e /\ Rabs (v2 p - v2 q) <= e.
Proof. destruct p as [[? ?] ?], q as [[? ?] ?]. intros [_ H]. split; [apply (H 0%nat)|]. split; [apply (H 1%nat)|apply (H 2%nat)]. Qed.

Lemma quotient_close a b a' b' d e : d <> 0 -> Rabs (a' - a) <= e -> Rabs (b' - b) <= e ->
  Rabs ((a' - b') / d - (a - b) / d) <= 2 * e / Rabs d.
Proof.
  intros Hd Ha Hb. replace ((a' - b') / d - (a - b) / d) with (((a' - a) + - (b' - b)) * / d) by (field; exact Hd).
  rewrite Rabs_mult, Rabs_inv. unfold Rdiv. apply Rmult_le_compat_r; [left; apply Rinv_0_lt_compat, Rabs_pos_lt; exact Hd|].
  replace (2 * e) with (e + e) by ring. apply abs_add2; [exact Ha|rewrite Rabs_Ropp; exact Hb].
Qed.

Lemma snap_run {S P} (src : source R S P) v t0 h n : src_steps src = n -> src_timestep src = h ->
  run_fields src (fun j => v (t0 + INR j * h)) = snapshots v t0 h n.
Proof. intros <- <-. reflexivity. Qed.

Lemma nat_above r : exists N, forall n, (N <= n)%nat -> r <= INR n.
Proof.
  exists (Z.to_nat (up r)). intros n Hn. apply le_INR in Hn. destruct (archimed r) as [H _].
  destruct (Z_le_dec 0 (up r)) as [Z|Z].
  - rewrite INR_IZR_INZ, Z2Nat.id in Hn by exact Z. lra.
  - assert (IZR (up r) < 0) by (apply IZR_lt; lia). pose proof (pos_INR n). lra.
Qed.

(** A finite list of particles has a common constant. *)
Lemma common {A} (P : A -> R -> nat -> Prop) (l : list A) :
  (forall a C C' N N', C <= C' -> (N <= N')%nat -> P a C N -> P a C' N') ->
  (forall a, In a l -> exists C N, P a C N) -> exists C N, forall a, In a l -> P a C N.
Proof.
  intros Hm. induction l as [|a l IH]; intro H.
  - exists 0, 0%nat. intros ? [].
  - destruct IH as (C1 & N1 & H1); [intros; apply H; right; assumption|].
    destruct (H a (or_introl eq_refl)) as (C2 & N2 & H2).
    exists (Rmax C1 C2), (Nat.max N1 N2). intros a' [<-|Ha].
    + apply (Hm a C2 _ N2); [apply Rmax_r|lia|exact H2].
    + apply (Hm a' C1 _ N1); [apply Rmax_l|lia|apply H1; exact Ha].
Qed.

Lemma value_number s T : s <> 0 -> ftle_value s T = XVal (ln s / T).
Proof. intro H. unfold ftle_value. destruct (Req_EM_T s 0); [contradiction|reflexivity]. Qed.

Lemma zero_norm_2 F : spectral_norm_2 F 0 -> F = M22 0 0 0 0.
Proof.
  intros [Hr _].
  assert (Z : forall u, app22 F u = (0, 0)).
  { intro u. specialize (Hr u). rewrite Rmult_0_l in Hr.
    assert (Z : norm2 (app22 F u) = 0) by (apply Rle_antisym; [exact Hr|apply norm2_nonneg]).
    unfold norm2 in Z. apply sqrt_eq_0 in Z; [|apply dot2_pos]. unfold dot2 in Z.
    destruct (app22 F u) as [a b]. cbn in Z. destruct (Rplus_sqr_eq_0 a b Z) as [-> ->]. reflexivity. }
  pose proof (Z (1, 0)) as Z1. pose proof (Z (0, 1)) as Z2. unfold app22 in Z1, Z2. cbn in Z1, Z2.
  injection Z1 as A B. injection Z2 as E G. destruct F as [f00 f01 f10 f11]. cbn in *. f_equal; lra.
Qed.

Lemma zero_norm_3 F : spectral_norm_3 F 0 -> F = M33 0 0 0 0 0 0 0 0 0.
Proof.
  intros [Hr _].
  assert (Z : forall u, app33 F u = (0, 0, 0)).
  { intro u. specialize (Hr u). rewrite Rmult_0_l in Hr. apply dot3_zero.
    apply sqrt_eq_0; [apply dot3_pos|]. apply Rle_antisym; [exact Hr|apply sqrt_pos]. }
  pose proof (Z (1, 0, 0)) as Z1. pose proof (Z (0, 1, 0)) as Z2. pose proof (Z (0, 0, 1)) as Z3.
  unfold app33, v0, v1, v2 in Z1, Z2, Z3. cbn in Z1, Z2, Z3.
  injection Z1 as A B C. injection Z2 as D E G. injection Z3 as H J K. destruct F. cbn in *. f_equal; lra.
Qed.

Section Plane.
  Context (v : R -> list R -> list R) (L t0 T : R) (phi : R -> R * R -> R * R).
  Context (Hv : lipschitz_field 2 L v) (HL : 0 <= L) (HT : T <> 0).

  Lemma point_converges2 x : carries2 v t0 (t0 + T) phi x ->
    exists C N, forall m n psi, (N <= n)%nat -> (1 <= n)%nat ->
      (forall q, path Rops m (snapshots v t0 (T / INR n) n) (row2 q) = row2 (psi q)) ->
      Rabs (fst (psi x) - fst (phi (t0 + T) x)) <= C / INR n /\ Rabs (snd (psi x) - snd (phi (t0 + T) x)) <= C / INR n.
  Proof.
    intros (E & Hy & (M & HM)). assert (PM : 0 <= M) by (apply rate_nonneg with (2 := HM); lra).
    destruct (methods_converge 2 v L M t0 T _ Hv HL PM Hy HM) as (C & _ & HC).
    destruct (nat_above (Rabs T * L)) as (N & HN). exists C, N. intros m n psi Hn H1 Hpsi.
    specialize (HC m n H1 (HN n Hn)). cbv beta in HC. rewrite E, Hpsi in HC. apply near_row2. exact HC.
  Qed.

  Lemma group_converges2 g : axis_aligned2 g -> (forall x, In x (corners2 g) -> carries2 v t0 (t0 + T) phi x) ->
    exists D N, forall m n psi, (N <= n)%nat -> (1 <= n)%nat ->
      (forall q, path Rops m (snapshots v t0 (T / INR n) n) (row2 q) = row2 (psi q)) ->
      close22 (D / INR n) (gradient2 g (image2 psi g)) (gradient2 g (image2 (phi (t0 + T)) g)).
  Proof.
    intros (_ & _ & Hdx & Hdy) Hc.
    destruct (common (fun x C N => forall m n psi, (N <= n)%nat -> (1 <= n)%nat ->
      (forall q, path Rops m (snapshots v t0 (T / INR n) n) (row2 q) = row2 (psi q)) ->
      Rabs (fst (psi x) - fst (phi (t0 + T) x)) <= C / INR n /\ Rabs (snd (psi x) - snd (phi (t0 + T) x)) <= C / INR n)
      (corners2 g)) as (C & N & H).
    - intros a C C' N N' HC HN H m n psi Hn H1 Hpsi. destruct (H m n psi ltac:(lia) H1 Hpsi) as (H2 & H3).
      pose proof (C_div_le C C' n HC). split; lra.
    - intros x Hx. apply point_converges2. apply Hc. exact Hx.
    - set (dx := fst (g_right g) - fst (g_left g)). set (dy := snd (g_top g) - snd (g_bottom g)).
      assert (Nx : dx <> 0) by (unfold dx; lra). assert (Ny : dy <> 0) by (unfold dy; lra).
      assert (Px : 0 < Rabs dx) by (apply Rabs_pos_lt; exact Nx). assert (Py : 0 < Rabs dy) by (apply Rabs_pos_lt; exact Ny).
      exists (Rmax (2 * C / Rabs dx) (2 * C / Rabs dy)), N. intros m n psi Hn H1 Hpsi.
      apply (le_INR 1) in H1 as H1'. change (INR 1) with 1 in H1'.
      destruct (H (g_left g) ltac:(cbn; tauto) m n psi Hn H1 Hpsi) as (Hl0 & Hl1).
      destruct (H (g_right g) ltac:(cbn; tauto) m n psi Hn H1 Hpsi) as (Hr0 & Hr1).
      destruct (H (g_top g) ltac:(cbn; tauto) m n psi Hn H1 Hpsi) as (Ht0 & Ht1).
      destruct (H (g_bottom g) ltac:(cbn; tauto) m n psi Hn H1 Hpsi) as (Hb0 & Hb1).
      assert (Ex : 2 * (C / INR n) / Rabs dx <= Rmax (2 * C / Rabs dx) (2 * C / Rabs dy) / INR n).
      { replace (2 * (C / INR n) / Rabs dx) with (2 * C / Rabs dx / INR n) by (field; lra). apply C_div_le, Rmax_l. }
      assert (Ey : 2 * (C / INR n) / Rabs dy <= Rmax (2 * C / Rabs dx) (2 * C / Rabs dy) / INR n).
      { replace (2 * (C / INR n) / Rabs dy) with (2 * C / Rabs dy / INR n) by (field; lra). apply C_div_le, Rmax_r. }
      unfold gradient2. fold dx dy. cbn [a00 a01 a10 a11 image2 g_left g_right g_top g_bottom].
      unfold close22. cbn [a00 a01 a10 a11].
      repeat split; (eapply Rle_trans; [apply quotient_close; eassumption|assumption]).
  Qed.

  (** The FTLE of one seed. *)
  Lemma seed_converges2 g : axis_aligned2 g -> (forall x, In x (corners2 g) -> carries2 v t0 (t0 + T) phi x) ->
    gradient2 g (image2 (phi (t0 + T)) g) <> M22 0 0 0 0 ->
    exists C N, forall m n psi s, (N <= n)%nat -> (2 <= n)%nat ->
      (forall q, path Rops m (snapshots v t0 (T / INR n) n) (row2 q) = row2 (psi q)) ->
      spectral_norm_2 (gradient2 g (image2 psi g)) s ->
      exists x r, ftle_value s ((INR n - 1) * Rabs (T / INR n)) = XVal x /\
        spectral_norm_2 (gradient2 g (image2 (phi (t0 + T)) g)) r /\ Rabs (x - ln r / Rabs T) <= C / INR n.
  Proof.
    intros Ha Hc HF. set (F := gradient2 g (image2 (phi (t0 + T)) g)) in *.
    destruct (group_converges2 g Ha Hc) as (D & N1 & H1). destruct (spectral_norm_2_exists F) as (r & Hr).
    assert (Pr : 0 < r).
    { destruct (spectral_norm_2_nonneg _ _ Hr) as [P|Z]; [exact P|exfalso]. subst r. apply HF, zero_norm_2, Hr. }
    destruct (nat_above (2 * (3 * D) / r)) as (N2 & H2).
    exists ((4 * (3 * D) / r + 2 * Rabs (ln r)) / Rabs T), (Nat.max N1 N2). intros m n psi s Hn Hn2 Hpsi Hs.
    specialize (H1 m n psi ltac:(lia) ltac:(lia) Hpsi).
    pose proof (norm_close_2 _ _ _ _ _ (close22_sym _ _ _ H1) Hr Hs) as Hd.
    replace (3 * (D / INR n)) with (3 * D / INR n) in Hd by (unfold Rdiv; ring).
    destruct (ftle_error r s (3 * D) T n Pr HT Hn2 (H2 n ltac:(lia)) Hd) as (Ps & He).
    exists (ln s / ((INR n - 1) * Rabs (T / INR n))), r. split; [apply value_number; lra|]. split; [exact Hr|exact He].
  Qed.

  Lemma jacs_gradients2 psi gs : Forall axis_aligned2 gs ->
    mapr (fun g => jac2_group Rops (g, image2 psi g)) gs = Ok (map (fun g => gradient2 g (image2 psi g)) gs).
  Proof.
    intro H. induction H as [|g gs (_ & _ & Hx & Hy) _ IH]; [reflexivity|]. cbn [mapr map]. rewrite IH.
    unfold jac2_group, rl2, tb2, pt2. cbn [fst snd]. change (o_sub Rops) with Rminus. rewrite !py_div_R.
    destruct (Req_EM_T (fst (g_right g) - fst (g_left g)) 0) as [Z|_]; [exfalso; lra|].
    destruct (Req_EM_T (snd (g_top g) - snd (g_bottom g)) 0) as [Z|_]; [exfalso; lra|]. reflexivity.
  Qed.

  Context {S P W : Type} (interpolate : S -> mat R -> S * res (mat R)) (eigvals : m33 R -> res (R * R * R))
    (mems : nat -> memory (T := R)) (write : W -> string -> list (xval R) -> mat R -> W * res unit)
    (I : (list R -> list R) -> S -> Prop) (HI : samples_field interpolate I).

  Lemma converges2 gs : Forall axis_aligned2 gs ->
    (forall g x, In g gs -> In x (corners2 g) -> carries2 v t0 (t0 + T) phi x) ->
    (forall g, In g gs -> gradient2 g (image2 (phi (t0 + T)) g) <> M22 0 0 0 0) ->
    exists C N, forall n m (sv : solver R S P) (w : world R S P W) w0 id, (N <= n)%nat ->
      presents_fields I (s_source sv) (fun j => v (t0 + INR j * (T / INR n))) -> I w0 (w_interp w) ->
      w_integrator w = fresh m -> s_writer sv = false -> src_id (s_source sv) = Ok id ->
      src_particles (s_source sv) (w_source w) = mk_particles Rops (layout2 gs) ->
      src_steps (s_source sv) = n -> src_timestep (s_source sv) = T / INR n ->
      exists xs, snd (run Rops interpolate eigvals mems write sv w) = Ok (Some (map XVal xs)) /\
        Forall2 (fun g x => exists s, spectral_norm_2 (gradient2 g (image2 (phi (t0 + T)) g)) s /\
          Rabs (x - ln s / Rabs T) <= C / INR n) gs xs.
  Proof.
    intros Ha Hc HF.
    destruct (common (fun g C N => forall m n psi s, (N <= n)%nat -> (2 <= n)%nat ->
      (forall q, path Rops m (snapshots v t0 (T / INR n) n) (row2 q) = row2 (psi q)) ->
      spectral_norm_2 (gradient2 g (image2 psi g)) s ->
      exists x r, ftle_value s ((INR n - 1) * Rabs (T / INR n)) = XVal x /\
        spectral_norm_2 (gradient2 g (image2 (phi (t0 + T)) g)) r /\ Rabs (x - ln r / Rabs T) <= C / INR n) gs) as (C & N & H).
    - intros g C C' N N' HC HN H m n psi s Hn H2 Hpsi Hs. destruct (H m n psi s ltac:(lia) H2 Hpsi Hs) as (x & r & E & Hr & Hx).
      exists x, r. split; [exact E|]. split; [exact Hr|]. pose proof (C_div_le C C' n HC). lra.
    - intros g Hg. apply seed_converges2; [apply (proj1 (Forall_forall _ _) Ha g Hg)|intros x Hx; apply (Hc g x Hg Hx)|apply HF, Hg].
    - exists C, (Nat.max 2 N). intros n m sv w w0 id Hn HP Hs Hf Ew Eid Ep En Eh. rewrite mk_particles_2 in Ep.
      assert (Er : run_fields (s_source sv) (fun j => v (t0 + INR j * (T / INR n))) = snapshots v t0 (T / INR n) n)
        by (apply snap_run; assumption).
      destruct (as_map2 (path Rops m (run_fields (s_source sv) (fun j => v (t0 + INR j * (T / INR n)))))) as (psi & Hpsi).
      { apply path_len. apply run_fields_dim. intros j x. apply Hv. }
      rewrite (run_moved2 Rops interpolate eigvals mems write I HI sv _ m w gs id w0 psi HP Hs Hf Eid Ep Ew Hpsi), compute_ftle_2.
      rewrite jacs_gradients2 by exact Ha. cbn [bind o_mul o_ofZ o_abs Rops]. rewrite period_R, En, Eh.
      assert (Pn : 2 <= INR n) by (apply (le_INR 2); lia).
      assert (Hh : T / INR n <> 0) by (unfold Rdiv; apply Rmult_integral_contrapositive_currified; [exact HT|apply Rinv_neq_0_compat; lra]).
      destruct (ftle2_spec (map (fun g => gradient2 g (image2 psi g)) gs) ((INR n - 1) * Rabs (T / INR n))
        (period_nz n _ ltac:(lia) Hh)) as (out & -> & Ho). cbn [bind].
      assert (X : exists xs, out = map XVal xs /\ Forall2 (fun g x => exists s, spectral_norm_2 (gradient2 g (image2 (phi (t0 + T)) g)) s /\
          Rabs (x - ln s / Rabs T) <= C / INR n) gs xs).
      { rewrite Er in Hpsi. clear - Ho H Hn Hpsi. revert out Ho. induction gs as [|g gs IH]; intros out Ho.
        - inversion Ho. exists []. split; [reflexivity|constructor].
        - cbn [map] in Ho. inversion Ho as [|? o ? os Hg Hrest]; subst. destruct Hg as (s & Hs & ->).
          destruct (H g (or_introl eq_refl) m n psi s ltac:(lia) ltac:(lia) Hpsi Hs) as (x & r & -> & Hr & Hx).
          destruct (IH (fun g' Hg' => H g' (or_intror Hg')) os Hrest) as (xs & -> & Hxs).
          exists (x :: xs). split; [reflexivity|]. constructor; [exists r; split; assumption|exact Hxs]. }
      destruct X as (xs & -> & Hxs). exists xs. split; [reflexivity|exact Hxs].
  Qed.
End Plane.

Section Space.
  Context (v : R -> list R -> list R) (L t0 T : R) (phi : R -> vec3 -> vec3).
  Context (Hv : lipschitz_field 3 L v) (HL : 0 <= L) (HT : T <> 0).

  Lemma point_converges3 x : carries3 v t0 (t0 + T) phi x ->
    exists C N, forall m n psi, (N <= n)%nat -> (1 <= n)%nat ->
      (forall q, path Rops m (snapshots v t0 (T / INR n) n) (row3 q) = row3 (psi q)) ->
      Rabs (v0 (psi x) - v0 (phi (t0 + T) x)) <= C / INR n /\ Rabs (v1 (psi x) - v1 (phi (t0 + T) x)) <= C / INR n /\
      Rabs (v2 (psi x) - v2 (phi (t0 + T) x)) <= C / INR n.
  Proof.
    intros (E & Hy & (M & HM)). assert (PM : 0 <= M) by (apply rate_nonneg with (2 := HM); lra).
    destruct (methods_converge 3 v L M t0 T _ Hv HL PM Hy HM) as (C & _ & HC).
    destruct (nat_above (Rabs T * L)) as (N & HN). exists C, N. intros m n psi Hn H1 Hpsi.
    specialize (HC m n H1 (HN n Hn)). cbv beta in HC. rewrite E, Hpsi in HC. apply near_row3. exact HC.
  Qed.

  Lemma group_converges3 g : axis_aligned3 g -> (forall x, In x (corners3 g) -> carries3 v t0 (t0 + T) phi x) ->
    exists D N, forall m n psi, (N <= n)%nat -> (1 <= n)%nat ->
      (forall q, path Rops m (snapshots v t0 (T / INR n) n) (row3 q) = row3 (psi q)) ->
      close33 (D / INR n) (gradient3 g (image3 psi g)) (gradient3 g (image3 (phi (t0 + T)) g)).
  Proof.
    intros (_ & _ & _ & _ & _ & _ & Hdx & Hdy & Hdz) Hc.
    destruct (common (fun x C N => forall m n psi, (N <= n)%nat -> (1 <= n)%nat ->
      (forall q, path Rops m (snapshots v t0 (T / INR n) n) (row3 q) = row3 (psi q)) ->
      Rabs (v0 (psi x) - v0 (phi (t0 + T) x)) <= C / INR n /\ Rabs (v1 (psi x) - v1 (phi (t0 + T) x)) <= C / INR n /\
      Rabs (v2 (psi x) - v2 (phi (t0 + T) x)) <= C / INR n)
      (corners3 g)) as (C & N & H).
    - intros a C C' N N' HC HN H m n psi Hn H1 Hpsi. destruct (H m n psi ltac:(lia) H1 Hpsi) as (H2 & H3 & H4).
      pose proof (C_div_le C C' n HC). repeat split; lra.
    - intros x Hx. apply point_converges3. apply Hc. exact Hx.
    - set (dx := v0 (h_right g) - v0 (h_left g)). set (dy := v1 (h_top g) - v1 (h_bottom g)). set (dz := v2 (h_front g) - v2 (h_back g)).
      assert (Nx : dx <> 0) by (unfold dx; lra). assert (Ny : dy <> 0) by (unfold dy; lra). assert (Nz : dz <> 0) by (unfold dz; lra).
      assert (Px : 0 < Rabs dx) by (apply Rabs_pos_lt; exact Nx). assert (Py : 0 < Rabs dy) by (apply Rabs_pos_lt; exact Ny).
      assert (Pz : 0 < Rabs dz) by (apply Rabs_pos_lt; exact Nz).
      set (D := Rmax (2 * C / Rabs dx) (Rmax (2 * C / Rabs dy) (2 * C / Rabs dz))).
      exists D, N. intros m n psi Hn H1 Hpsi.
      apply (le_INR 1) in H1 as H1'. change (INR 1) with 1 in H1'.
      destruct (H (h_left g) ltac:(cbn; tauto) m n psi Hn H1 Hpsi) as (Hl0 & Hl1 & Hl2).
      destruct (H (h_right g) ltac:(cbn; tauto) m n psi Hn H1 Hpsi) as (Hr0 & Hr1 & Hr2).
      destruct (H (h_top g) ltac:(cbn; tauto) m n psi Hn H1 Hpsi) as (Ht0 & Ht1 & Ht2).
      destruct (H (h_bottom g) ltac:(cbn; tauto) m n psi Hn H1 Hpsi) as (Hb0 & Hb1 & Hb2).
      destruct (H (h_front g) ltac:(cbn; tauto) m n psi Hn H1 Hpsi) as (Hf0 & Hf1 & Hf2).
      destruct (H (h_back g) ltac:(cbn; tauto) m n psi Hn H1 Hpsi) as (Hk0 & Hk1 & Hk2).
      assert (Ex : 2 * (C / INR n) / Rabs dx <= D / INR n).
      { replace (2 * (C / INR n) / Rabs dx) with (2 * C / Rabs dx / INR n) by (field; lra). apply C_div_le, Rmax_l. }
      assert (Ey : 2 * (C / INR n) / Rabs dy <= D / INR n).
      { replace (2 * (C / INR n) / Rabs dy) with (2 * C / Rabs dy / INR n) by (field; lra). apply C_div_le.
        eapply Rle_trans; [apply Rmax_l|apply Rmax_r]. }
      assert (Ez : 2 * (C / INR n) / Rabs dz <= D / INR n).
      { replace (2 * (C / INR n) / Rabs dz) with (2 * C / Rabs dz / INR n) by (field; lra). apply C_div_le.
        eapply Rle_trans; [apply Rmax_r|apply Rmax_r]. }
      unfold gradient3. fold dx dy dz. cbn [image3 h_left h_right h_top h_bottom h_front h_back].
      unfold close33. cbn [b00 b01 b02 b10 b11 b12 b20 b21 b22].
      repeat split; (eapply Rle_trans; [apply quotient_close; eassumption|assumption]).
  Qed.

  (** The FTLE of one seed. *)
  Lemma seed_converges3 g : axis_aligned3 g -> (forall x, In x (corners3 g) -> carries3 v t0 (t0 + T) phi x) ->
    gradient3 g (image3 (phi (t0 + T)) g) <> M33 0 0 0 0 0 0 0 0 0 ->
    exists C N, forall m n psi s, (N <= n)%nat -> (2 <= n)%nat ->
      (forall q, path Rops m (snapshots v t0 (T / INR n) n) (row3 q) = row3 (psi q)) ->
      spectral_norm_3 (gradient3 g (image3 psi g)) s ->
      exists x r, ftle_value s ((INR n - 1) * Rabs (T / INR n)) = XVal x /\
        spectral_norm_3 (gradient3 g (image3 (phi (t0 + T)) g)) r /\ Rabs (x - ln r / Rabs T) <= C / INR n.
  Proof.
    intros Ha Hc HF. set (F := gradient3 g (image3 (phi (t0 + T)) g)) in *.
    destruct (group_converges3 g Ha Hc) as (D & N1 & H1). destruct (spectral_norm_3_exists F) as (r & Hr).
    assert (Pr : 0 < r).
    { destruct (spectral_norm_3_nonneg _ _ Hr) as [P|Z]; [exact P|exfalso]. subst r. apply HF, zero_norm_3, Hr. }
    destruct (nat_above (2 * (3 * D) / r)) as (N2 & H2).
    exists ((4 * (3 * D) / r + 2 * Rabs (ln r)) / Rabs T), (Nat.max N1 N2). intros m n psi s Hn Hn2 Hpsi Hs.
    specialize (H1 m n psi ltac:(lia) ltac:(lia) Hpsi).
    pose proof (norm_close_3 _ _ _ _ _ (close33_sym _ _ _ H1) Hr Hs) as Hd.
    replace (3 * (D / INR n)) with (3 * D / INR n) in Hd by (unfold Rdiv; ring).
    destruct (ftle_error r s (3 * D) T n Pr HT Hn2 (H2 n ltac:(lia)) Hd) as (Ps & He).
    exists (ln s / ((INR n - 1) * Rabs (T / INR n))), r. split; [apply value_number; lra|]. split; [exact Hr|exact He].
  Qed.

  Lemma jacs_gradients3 psi gs : Forall axis_aligned3 gs ->
    mapr (fun g => jac3_group Rops (g, image3 psi g)) gs = Ok (map (fun g => gradient3 g (image3 psi g)) gs).
  Proof.
    intro H. induction H as [|g gs (_ & _ & _ & _ & _ & _ & Hx & Hy & Hz) _ IH]; [reflexivity|]. cbn [mapr map]. rewrite IH.
    unfold jac3_group, rl3, tb3, fb3, pt3, p0, p1, p2. cbn [fst snd]. change (o_sub Rops) with Rminus. rewrite !py_div_R.
    unfold v0, v1, v2 in *.
    destruct (Req_EM_T (fst (fst (h_right g)) - fst (fst (h_left g))) 0) as [Z|_]; [exfalso; lra|].
    destruct (Req_EM_T (snd (fst (h_top g)) - snd (fst (h_bottom g))) 0) as [Z|_]; [exfalso; lra|].
    destruct (Req_EM_T (snd (h_front g) - snd (h_back g)) 0) as [Z|_]; [exfalso; lra|]. reflexivity.
  Qed.

  Context {S P W : Type} (interpolate : S -> mat R -> S * res (mat R)) (eigvals : m33 R -> res (R * R * R))
    (mems : nat -> memory (T := R)) (write : W -> string -> list (xval R) -> mat R -> W * res unit)
    (I : (list R -> list R) -> S -> Prop) (HI : samples_field interpolate I) (He : eigvals_ok eigvals).

  Lemma converges3 gs : Forall axis_aligned3 gs ->
    (forall g x, In g gs -> In x (corners3 g) -> carries3 v t0 (t0 + T) phi x) ->
    (forall g, In g gs -> gradient3 g (image3 (phi (t0 + T)) g) <> M33 0 0 0 0 0 0 0 0 0) ->
    exists C N, forall n m (sv : solver R S P) (w : world R S P W) w0 id, (N <= n)%nat ->
      presents_fields I (s_source sv) (fun j => v (t0 + INR j * (T / INR n))) -> I w0 (w_interp w) ->
      w_integrator w = fresh m -> s_writer sv = false -> src_id (s_source sv) = Ok id ->
      src_particles (s_source sv) (w_source w) = mk_particles Rops (layout3 gs) ->
      src_steps (s_source sv) = n -> src_timestep (s_source sv) = T / INR n ->
      exists xs, snd (run Rops interpolate eigvals mems write sv w) = Ok (Some (map XVal xs)) /\
        Forall2 (fun g x => exists s, spectral_norm_3 (gradient3 g (image3 (phi (t0 + T)) g)) s /\
          Rabs (x - ln s / Rabs T) <= C / INR n) gs xs.
  Proof.
    intros Ha Hc HF.
    destruct (common (fun g C N => forall m n psi s, (N <= n)%nat -> (2 <= n)%nat ->
      (forall q, path Rops m (snapshots v t0 (T / INR n) n) (row3 q) = row3 (psi q)) ->
      spectral_norm_3 (gradient3 g (image3 psi g)) s ->
      exists x r, ftle_value s ((INR n - 1) * Rabs (T / INR n)) = XVal x /\
        spectral_norm_3 (gradient3 g (image3 (phi (t0 + T)) g)) r /\ Rabs (x - ln r / Rabs T) <= C / INR n) gs) as (C & N & H).
    - intros g C C' N N' HC HN H m n psi s Hn H2 Hpsi Hs. destruct (H m n psi s ltac:(lia) H2 Hpsi Hs) as (x & r & E & Hr & Hx).
      exists x, r. split; [exact E|]. split; [exact Hr|]. pose proof (C_div_le C C' n HC). lra.
    - intros g Hg. apply seed_converges3; [apply (proj1 (Forall_forall _ _) Ha g Hg)|intros x Hx; apply (Hc g x Hg Hx)|apply HF, Hg].
    - exists C, (Nat.max 2 N). intros n m sv w w0 id Hn HP Hs Hf Ew Eid Ep En Eh. rewrite mk_particles_3 in Ep.
      assert (Er : run_fields (s_source sv) (fun j => v (t0 + INR j * (T / INR n))) = snapshots v t0 (T / INR n) n)
        by (apply snap_run; assumption).
      destruct (as_map3 (path Rops m (run_fields (s_source sv) (fun j => v (t0 + INR j * (T / INR n)))))) as (psi & Hpsi).
      { apply path_len. apply run_fields_dim. intros j x. apply Hv. }
      rewrite (run_moved3 Rops interpolate eigvals mems write I HI sv _ m w gs id w0 psi HP Hs Hf Eid Ep Ew Hpsi), compute_ftle_3.
      rewrite jacs_gradients3 by exact Ha. cbn [bind o_mul o_ofZ o_abs Rops]. rewrite period_R, En, Eh.
      assert (Pn : 2 <= INR n) by (apply (le_INR 2); lia).
      assert (Hh : T / INR n <> 0) by (unfold Rdiv; apply Rmult_integral_contrapositive_currified; [exact HT|apply Rinv_neq_0_compat; lra]).
      destruct (ftle3_spec eigvals (map (fun g => gradient3 g (image3 psi g)) gs) ((INR n - 1) * Rabs (T / INR n))
        He (period_nz n _ ltac:(lia) Hh)) as (out & -> & Ho). cbn [bind].
      assert (X : exists xs, out = map XVal xs /\ Forall2 (fun g x => exists s, spectral_norm_3 (gradient3 g (image3 (phi (t0 + T)) g)) s /\
          Rabs (x - ln s / Rabs T) <= C / INR n) gs xs).
      { rewrite Er in Hpsi. clear - Ho H Hn Hpsi. revert out Ho. induction gs as [|g gs IH]; intros out Ho.
        - inversion Ho. exists []. split; [reflexivity|constructor].
        - cbn [map] in Ho. inversion Ho as [|? o ? os Hg Hrest]; subst. destruct Hg as (s & Hs & ->).
          destruct (H g (or_introl eq_refl) m n psi s ltac:(lia) ltac:(lia) Hpsi Hs) as (x & r & -> & Hr & Hx).
          destruct (IH (fun g' Hg' => H g' (or_intror Hg')) os Hrest) as (xs & -> & Hxs).
          exists (x :: xs). split; [reflexivity|]. constructor; [exists r; split; assumption|exact Hxs]. }
      destruct X as (xs & -> & Hxs). exists xs. split; [reflexivity|exact Hxs].
  Qed.
End Space.
