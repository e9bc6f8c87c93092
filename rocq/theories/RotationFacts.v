(** Runs in solid-body rotation and in incompressible linear flow. *)
From Coq Require Import Reals Lra Lia Psatz.
From Verif Require Import Base Num Particles Jacobian Ftle Integrate DataSource Solver SpecFtle SpecSeeds SpecIntegrate
  SpecSolver SpecRotation FtleFacts2 FtleFacts3 ParticleFacts JacobianFacts SolverFacts SolverField SolverLinear IntegrateMisc SolverCases FrameMain.
Local Open Scope R_scope.

(** Multiples of rotations. *)
Definition conf (a b : R) : m22 R := M22 a (- b) b a.
Lemma conf_mul a b c d : mul22 (conf a b) (conf c d) = conf (a * c - b * d) (a * d + b * c).
Proof. apply m22_ext; cbn; ring. Qed.
Lemma conf_pow a b n : exists c d, pow22 (conf a b) n = conf c d /\ c * c + d * d = (a * a + b * b) ^ n.
Proof.
  induction n as [|n (c & d & E & H)].
  - exists 1, 0. split; [apply m22_ext; cbn; ring|cbn; ring].
  - exists (a * c - b * d), (a * d + b * c). cbn [pow22]. rewrite E, conf_mul. split; [reflexivity|]. cbn [pow]. rewrite <- H. ring.
Qed.
Lemma conf_norm a b s : spectral_norm_2 (conf a b) s -> s = sqrt (a * a + b * b).
Proof.
  intros [_ (u & Hu & Hs)]. rewrite <- Hs. unfold norm2, dot2, app22, conf. cbn. f_equal.
  assert (U : fst u * fst u + snd u * snd u = 1) by (unfold norm2, dot2 in Hu; rewrite <- (sqrt_sqrt (fst u * fst u + snd u * snd u)) by nra; rewrite Hu; ring).
  replace ((a * fst u + - b * snd u) * (a * fst u + - b * snd u) + (b * fst u + a * snd u) * (b * fst u + a * snd u))
    with ((a * a + b * b) * (fst u * fst u + snd u * snd u)) by ring. rewrite U. ring.
Qed.

Lemma ln_pow x n : 0 < x -> ln (x ^ n) = INR n * ln x.
Proof.
  intro P. induction n as [|n IH]; [cbn; rewrite ln_1; ring|]. rewrite S_INR. cbn [pow]. rewrite ln_mult, IH by (try apply pow_lt; exact P). ring.
Qed.
Lemma ln_sqrt x : 0 < x -> ln (sqrt x) = ln x / 2.
Proof.
  intro P. assert (Q : 0 < sqrt x) by (apply sqrt_lt_R0; exact P). rewrite <- (sqrt_sqrt x) at 2 by lra. rewrite ln_mult by exact Q. field.
Qed.

Lemma conf_value a b n h s : (2 <= n)%nat -> h <> 0 -> 0 < a * a + b * b -> spectral_norm_2 (pow22 (conf a b) n) s ->
  ftle_value s ((INR n - 1) * Rabs h) = XVal (INR n / (INR n - 1) * (ln (a * a + b * b) / (2 * Rabs h))).
Proof.
  intros Hn Hh P Hs. destruct (conf_pow a b n) as (c & d & E & H). rewrite E in Hs. apply conf_norm in Hs. rewrite H in Hs. subst s.
  assert (PP : 0 < (a * a + b * b) ^ n) by (apply pow_lt; exact P). pose proof (sqrt_lt_R0 _ PP).
  assert (2 <= INR n) by (apply (le_INR 2); lia). assert (0 < Rabs h) by (apply Rabs_pos_lt; exact Hh).
  unfold ftle_value. destruct (Req_EM_T _ 0) as [Z|_]; [lra|]. f_equal. rewrite ln_sqrt, ln_pow by assumption. field. lra.
Qed.

(** What the fourth-order Taylor polynomial of exp does to the length of a vector that turns through the angle z. *)
Definition rk4_square (z : R) : R := 1 - z ^ 6 / 72 + z ^ 8 / 576.

Lemma euler_spin w h : add22 id22 (scal22 h (spin w)) = conf 1 (w * h).
Proof. apply m22_ext; cbn; ring. Qed.
Lemma rk4_spin w h : taylor22 h (spin w) = conf (1 - (w * h) ^ 2 / 2 + (w * h) ^ 4 / 24) (w * h - (w * h) ^ 3 / 6).
Proof. apply m22_ext; cbn; field. Qed.
Lemma rk4_square_sum z : (1 - z ^ 2 / 2 + z ^ 4 / 24) * (1 - z ^ 2 / 2 + z ^ 4 / 24) + (z - z ^ 3 / 6) * (z - z ^ 3 / 6) = rk4_square z.
Proof. unfold rk4_square. field. Qed.
Lemma rk4_square_pos z : 0 < rk4_square z.
Proof.
  rewrite <- rk4_square_sum. set (p := z * z). replace (z ^ 2) with p by (unfold p; ring). replace (z ^ 4) with (p * p) by (unfold p; ring).
  replace ((z - z ^ 3 / 6) * (z - z ^ 3 / 6)) with (p * ((1 - p / 6) * (1 - p / 6))) by (unfold p; field).
  assert (0 <= p) by (unfold p; nra). clearbody p.
  pose proof (Rle_0_sqr (1 - p / 2 + p * p / 24)) as HA. unfold Rsqr in HA.
  pose proof (Rle_0_sqr (1 - p / 6)) as HB. unfold Rsqr in HB. pose proof (Rmult_le_pos _ _ H HB).
  destruct (Rle_lt_dec p 1).
  { assert (Q : 1 / 2 <= 1 - p / 2 + p * p / 24) by nra. pose proof (Rmult_lt_0_compat (1 - p / 2 + p * p / 24) (1 - p / 2 + p * p / 24) ltac:(lra) ltac:(lra)). lra. }
  destruct (Req_dec p 6) as [->|N]; [lra|].
  assert (N' : 1 - p / 6 <> 0) by lra. assert (0 < (1 - p / 6) * (1 - p / 6)) by (destruct (Rdichotomy _ _ N'); nra).
  pose proof (Rmult_lt_0_compat p _ (Rlt_trans _ _ _ Rlt_0_1 r) H1). lra.
Qed.

Section Spin.
  Context {S P W : Type} (interpolate : S -> mat R -> S * res (mat R)) (eigvals : m33 R -> res (R * R * R))
    (mems : nat -> memory (T := R)) (write : W -> string -> list (xval R) -> mat R -> W * res unit)
    (I : (list R -> list R) -> S -> Prop) (HI : samples_field interpolate I).
  Context (sv : solver R S P) (wd : world R S P W) (w0 : list R -> list R) (b : vec2) (gs : list (group2 R)) (id : string).
  Context (Hs : I w0 (w_interp wd)) (Ew : s_writer sv = false) (Eid : src_id (s_source sv) = Ok id)
    (Ep : src_particles (s_source sv) (w_source wd) = mk_particles Rops (layout2 gs)) (Ha : Forall axis_aligned2 gs)
    (Hn : (2 <= src_steps (s_source sv))%nat) (Hh : src_timestep (s_source sv) <> 0).
  Local Notation n := (src_steps (s_source sv)).
  Local Notation h := (src_timestep (s_source sv)).

  Theorem spin_euler w : presents_fields I (s_source sv) (fun _ => on_rows2 (aff2 (spin w) b)) -> w_integrator wd = fresh MEuler ->
    snd (run Rops interpolate eigvals mems write sv wd) =
      Ok (Some (map (fun _ => XVal (INR n / (INR n - 1) * (ln (1 + (w * h) ^ 2) / (2 * Rabs h)))) gs)).
  Proof.
    intros HP Hf. destruct (linear2 interpolate eigvals mems write I HI sv wd w0 MEuler (spin w) b gs id HP Hs Hf Ew Eid Ep Ha Hn Hh) as (s & Hs' & ->).
    cbn [propagator2] in Hs'. rewrite euler_spin in Hs'. rewrite (conf_value 1 (w * h) n h s Hn Hh ltac:(nra) Hs').
    do 3 f_equal. replace (1 * 1 + w * h * (w * h)) with (1 + (w * h) ^ 2) by ring. reflexivity.
  Qed.

  Theorem spin_rk4 w : presents_fields I (s_source sv) (fun _ => on_rows2 (aff2 (spin w) b)) -> w_integrator wd = fresh MRK4 ->
    snd (run Rops interpolate eigvals mems write sv wd) =
      Ok (Some (map (fun _ => XVal (INR n / (INR n - 1) * (ln (rk4_square (w * h)) / (2 * Rabs h)))) gs)).
  Proof.
    intros HP Hf. destruct (linear2 interpolate eigvals mems write I HI sv wd w0 MRK4 (spin w) b gs id HP Hs Hf Ew Eid Ep Ha Hn Hh) as (s & Hs' & ->).
    cbn [propagator2] in Hs'. rewrite rk4_spin in Hs'.
    rewrite (conf_value _ _ n h s Hn Hh ltac:(rewrite rk4_square_sum; apply rk4_square_pos) Hs'), rk4_square_sum. reflexivity.
  Qed.

  (** Euler steps in an incompressible linear flow. *)
  Theorem incompressible_euler A : a00 A + a11 A = 0 -> presents_fields I (s_source sv) (fun _ => on_rows2 (aff2 A b)) -> w_integrator wd = fresh MEuler ->
    exists x, 0 <= x /\ snd (run Rops interpolate eigvals mems write sv wd) = Ok (Some (map (fun _ => XVal x) gs)).
  Proof.
    intros Ht HP Hf. destruct (linear2 interpolate eigvals mems write I HI sv wd w0 MEuler A b gs id HP Hs Hf Ew Eid Ep Ha Hn Hh) as (s & Hs' & ->).
    cbn [propagator2] in Hs'.
    assert (H1 : 1 <= s).
    { set (M := add22 id22 (scal22 h A)) in *. clear - Ht Hs'.
      assert (Dp : forall k, det22 (pow22 M k) = det22 M ^ k).
      { induction k as [|k IH]; [cbn; unfold det22; cbn; ring|]. cbn [pow22 pow]. rewrite <- IH. unfold det22, mul22. cbn. ring. }
      assert (Tr : a00 M + a11 M = 2) by (unfold M; cbn; nra). clearbody M.
      destruct (Rle_lt_dec 1 (det22 M)) as [D|D].
      - pose proof (det_bound_2 _ _ Hs') as B. rewrite Dp in B. assert (Q : 1 <= det22 M ^ n) by (apply pow_R1_Rle; exact D).
        rewrite Rabs_pos_eq in B by lra. pose proof (spectral_norm_2_nonneg _ _ Hs'). nra.
      - (* the larger eigenvalue exceeds 1 *)
        set (r := sqrt (1 - det22 M)). assert (Hr : r * r = 1 - det22 M) by (apply sqrt_sqrt; lra). assert (0 <= r) by apply sqrt_pos.
        assert (E : exists u, norm2 u <> 0 /\ app22 M u = scale2 (1 + r) u).
        { destruct M as [p q t v]. unfold det22 in *. cbn in *. unfold app22, scale2, norm2, dot2. cbn.
          assert (Z : forall x y, x <> 0 \/ y <> 0 -> sqrt (x * x + y * y) <> 0).
          { intros x y H1 H0. apply sqrt_eq_0 in H0; [|nra]. assert (x = 0) by nra. assert (y = 0) by nra. destruct H1; contradiction. }
          destruct (Req_dec q 0) as [->|Nq].
          - destruct (Req_dec t 0) as [->|Nt].
            + destruct (Rle_lt_dec v p).
              * exists (1, 0). cbn. split; [apply Z; left; lra|]. assert (p = 1 + r) by nra. f_equal; nra.
              * exists (0, 1). cbn. split; [apply Z; right; lra|]. assert (v = 1 + r) by nra. f_equal; nra.
            + exists (1 + r - v, t). cbn. split; [apply Z; right; exact Nt|]. f_equal; nra.
          - exists (q, 1 + r - p). cbn. split; [apply Z; left; exact Nq|]. f_equal; nra. }
        destruct E as (u & Nu & Eu).
        assert (Pu : forall k, app22 (pow22 M k) u = scale2 ((1 + r) ^ k) u).
        { induction k as [|k IH]; [destruct u; unfold app22, scale2; cbn; f_equal; ring|].
          cbn [pow22]. rewrite app22_mul, IH. destruct u as [x y]. unfold app22, scale2 in *. cbn [fst snd] in *. injection Eu as E1 E2. cbn [pow].
          f_equal; [transitivity ((1 + r) ^ k * (a00 M * x + a01 M * y))|transitivity ((1 + r) ^ k * (a10 M * x + a11 M * y))];
            try ring; [rewrite E1|rewrite E2]; ring. }
        destruct Hs' as [Hmax _]. specialize (Hmax u). rewrite Pu in Hmax.
        assert (Q : 1 <= (1 + r) ^ n) by (apply pow_R1_Rle; lra).
        replace (norm2 (scale2 ((1 + r) ^ n) u)) with ((1 + r) ^ n * norm2 u) in Hmax.
        + pose proof (norm2_nonneg u). nra.
        + set (c := (1 + r) ^ n) in *. clearbody c. unfold norm2, dot2, scale2. cbn.
          replace (c * fst u * (c * fst u) + c * snd u * (c * snd u)) with (c * c * (fst u * fst u + snd u * snd u)) by ring.
          rewrite sqrt_mult by nra. rewrite sqrt_square by lra. reflexivity. }
    assert (2 <= INR n) by (apply (le_INR 2); lia). assert (0 < Rabs h) by (apply Rabs_pos_lt; exact Hh).
    exists (ln s / ((INR n - 1) * Rabs h)). split.
    - apply Rmult_le_pos; [|left; apply Rinv_0_lt_compat; nra]. destruct (Req_dec s 1) as [->|]; [rewrite ln_1; lra|]. rewrite <- ln_1. left. apply ln_increasing; lra.
    - unfold ftle_value. destruct (Req_EM_T s 0) as [Z|_]; [lra|reflexivity].
  Qed.
End Spin.

(** How large the values in a rotation are. *)
Lemma euler_floor z : z <> 0 -> 0 < ln (1 + z ^ 2) <= z ^ 2.
Proof.
  intro N. assert (P : 0 < z ^ 2) by (destruct (Rdichotomy _ _ N); nra). split; [rewrite <- ln_1; apply ln_increasing; lra|].
  rewrite <- (ln_exp (z ^ 2)) at 2. left. apply ln_increasing; [lra|]. apply exp_ineq1. lra.
Qed.
Lemma rk4_floor z : Rabs z <= 1 -> z <> 0 -> - (z ^ 6 / 71) <= ln (rk4_square z) < 0.
Proof.
  intros Hz N. unfold rk4_square. assert (Hp : 0 < z * z <= 1).
  { assert (Rabs z * Rabs z <= 1) by (pose proof (Rabs_pos z); nra). rewrite <- Rabs_mult, Rabs_pos_eq in H by nra.
    split; [|exact H]. destruct (Rdichotomy _ _ N); nra. }
  set (p := z * z) in *. replace (z ^ 6) with (p * p * p) by (unfold p; ring). replace (z ^ 8) with (p * p * p * p) by (unfold p; ring). clearbody p.
  set (q := p * p * p). assert (Hq : 0 < q <= 1) by (unfold q; assert (0 < p * p <= 1) by nra; nra).
  assert (Hx : 1 - q / 72 <= 1 - q / 72 + q * p / 576 < 1) by nra. set (x := 1 - q / 72 + q * p / 576) in *. clearbody x q.
  assert (Px : 0 < x) by lra. split; [|rewrite <- ln_1; apply ln_increasing; lra].
  assert (K : / x <= exp (q / 71)).
  { apply Rle_trans with (1 + q / 71); [|left; apply exp_ineq1; lra].
    apply Rmult_le_reg_r with x; [exact Px|]. rewrite Rinv_l by lra. nra. }
  assert (Pi : 0 < / x) by (apply Rinv_0_lt_compat; exact Px).
  assert (K' : ln (/ x) <= q / 71).
  { destruct K as [K|K]; [left; rewrite <- (ln_exp (q / 71)); apply ln_increasing; assumption|right; rewrite K; apply ln_exp]. }
  rewrite ln_Rinv in K' by exact Px. lra.
Qed.
