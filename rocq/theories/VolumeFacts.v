(** Euler steps in three-dimensional linear flows of zero trace (C140): no power of a matrix of trace 3 contracts all directions. *)
From Coq Require Import Reals Lra Lia Psatz.
From Verif Require Import Base Num Particles Jacobian Ftle Integrate DataSource Solver SpecFtle SpecSeeds SpecIntegrate
  SpecSolver FtleFacts2 ParticleFacts JacobianFacts SolverFacts SolverField SolverLinear FtleFacts3 IntegrateMisc ConvergeCases FrameMain StrainCases.
Local Open Scope R_scope.

Definition small (e : R) (F : m33 R) : Prop :=
  (Rabs (b00 F) <= e /\ Rabs (b01 F) <= e /\ Rabs (b02 F) <= e) /\ (Rabs (b10 F) <= e /\ Rabs (b11 F) <= e /\ Rabs (b12 F) <= e) /\
  (Rabs (b20 F) <= e /\ Rabs (b21 F) <= e /\ Rabs (b22 F) <= e).
Definition size (u : vec3) : R := Rabs (v0 u) + Rabs (v1 u) + Rabs (v2 u).

Lemma size_row e p q r x y z : Rabs p <= e -> Rabs q <= e -> Rabs r <= e -> Rabs (p * x + q * y + r * z) <= e * (Rabs x + Rabs y + Rabs z).
Proof.
  intros P Q S. eapply Rle_trans; [apply Rabs_triang|]. eapply Rle_trans; [apply Rplus_le_compat_r, Rabs_triang|]. rewrite !Rabs_mult.
  pose proof (Rmult_le_compat_r _ _ _ (Rabs_pos x) P). pose proof (Rmult_le_compat_r _ _ _ (Rabs_pos y) Q). pose proof (Rmult_le_compat_r _ _ _ (Rabs_pos z) S). lra.
Qed.
Lemma size_small e F u : small e F -> size (app33 F u) <= 3 * e * size u.
Proof.
  intros ((A & B & C) & (D & E & G) & (H & J & K)). destruct u as [[x y] z]. unfold size, app33, v0, v1, v2. cbn [fst snd].
  pose proof (size_row e _ _ _ x y z A B C). pose proof (size_row e _ _ _ x y z D E G). pose proof (size_row e _ _ _ x y z H J K). lra.
Qed.
Lemma size_zero u : size u <= 0 -> u = (0, 0, 0).
Proof.
  destruct u as [[x y] z]. unfold size, v0, v1, v2. cbn [fst snd]. intro H. pose proof (Rabs_pos x). pose proof (Rabs_pos y). pose proof (Rabs_pos z).
  assert (Z : forall r, Rabs r = 0 -> r = 0) by (intros r E; destruct (Req_dec r 0) as [|N]; [assumption|apply Rabs_no_R0 in N; lra]).
  rewrite (Z x), (Z y), (Z z) by lra. reflexivity.
Qed.
Lemma size_scale c u : size (scale3 c u) = Rabs c * size u.
Proof. destruct u as [[x y] z]. unfold size, scale3, v0, v1, v2. cbn [fst snd]. rewrite !Rabs_mult. ring. Qed.

(** I - t K, and its determinant as a polynomial. *)
Definition less (t : R) (K : m33 R) : m33 R := add33 id33 (scal33 (- t) K).
Lemma det_less t K : det33 (less t K) = 1 - t * (b00 K + b11 K + b22 K) + t * t * (b00 (adj33 K) + b11 (adj33 K) + b22 (adj33 K)) - t * t * t * det33 K.
Proof. unfold less, det33. cbn. ring. Qed.

Lemma power_fixed t K u n : u = scale3 t (app33 K u) -> u = scale3 (t ^ n) (app33 (pow33 K n) u).
Proof.
  intro H. induction n as [|n IH].
  - cbn [pow33 pow]. rewrite app33_id. destruct u as [[x y] z]. apply vec3_ext; unfold scale3, v0, v1, v2; cbn; ring.
  - cbn [pow33 pow]. rewrite app33_mul. rewrite H at 1. rewrite IH at 1. clear. generalize (app33 (pow33 K n) u). intros [[x y] z].
    apply vec3_ext; unfold scale3, app33, v0, v1, v2; cbn; ring.
Qed.

Lemma vanishing K N e : small e (pow33 K N) -> 3 * e < 1 -> 0 <= det33 (less 1 K).
Proof.
  intros HS He. destruct (Rle_lt_dec 0 (det33 (less 1 K))) as [|L]; [assumption|exfalso].
  set (g := fun t : R => - (1 - t * (b00 K + b11 K + b22 K) + t * t * (b00 (adj33 K) + b11 (adj33 K) + b22 (adj33 K)) - t * t * t * det33 K)).
  assert (C : continuity g) by (unfold g; reg).
  destruct (IVT g 0 1 C Rlt_0_1) as (t & Ht & Z); [unfold g; lra|unfold g; rewrite det_less in L; lra|].
  assert (D : det33 (less t K) = 0) by (rewrite det_less; unfold g in Z; lra).
  destruct (singular_kernel _ D) as (u & Nu & Ku).
  assert (F : u = scale3 t (app33 K u)).
  { clear - Ku. destruct u as [[x y] z]. unfold less, app33, scale3, v0, v1, v2 in *. cbn in *. injection Ku as A B E. apply vec3_ext; unfold v0, v1, v2; cbn; lra. }
  apply (power_fixed t K u N) in F. apply Nu, size_zero. pose proof (size_small e _ u HS) as B. apply (f_equal size) in F. rewrite size_scale in F.
  assert (0 <= size u) by (unfold size; pose proof (Rabs_pos (v0 u)); pose proof (Rabs_pos (v1 u)); pose proof (Rabs_pos (v2 u)); lra).
  assert (P : 0 <= t ^ N <= 1) by (split; [apply pow_le; lra|rewrite <- (pow1 N); apply pow_incr; lra]). rewrite Rabs_pos_eq in F by lra.
  assert (0 <= size (app33 (pow33 K N) u)) by (unfold size; generalize (app33 (pow33 K N) u); intro w; pose proof (Rabs_pos (v0 w)); pose proof (Rabs_pos (v1 w)); pose proof (Rabs_pos (v2 w)); lra).
  assert (t ^ N * size (app33 (pow33 K N) u) <= 1 * size (app33 (pow33 K N) u)) by (apply Rmult_le_compat_r; lra). nra.
Qed.

Lemma pow33_comm K n : mul33 (pow33 K n) K = mul33 K (pow33 K n).
Proof. induction n as [|n IH]; [cbn [pow33]; rewrite mul33_id_l, mul33_id_r; reflexivity|]. cbn [pow33]. rewrite <- mul33_assoc, IH. reflexivity. Qed.
Lemma adj_mul A B : adj33 (mul33 A B) = mul33 (adj33 B) (adj33 A).
Proof. destruct A, B. apply m33_ext; cbn; ring. Qed.
Lemma adj_pow K n : adj33 (pow33 K n) = pow33 (adj33 K) n.
Proof. induction n as [|n IH]; [apply m33_ext; cbn; ring|]. cbn [pow33]. rewrite adj_mul, IH. apply pow33_comm. Qed.
Lemma adj_small e F : small e F -> small (2 * (e * e)) (adj33 F).
Proof.
  intros ((A & B & C) & (D & E & G) & (H & J & K)).
  assert (T : forall p q r s, Rabs p <= e -> Rabs q <= e -> Rabs r <= e -> Rabs s <= e -> Rabs (p * q - r * s) <= 2 * (e * e)).
  { clear. intros p q r s P Q R S. unfold Rminus. eapply Rle_trans; [apply Rabs_triang|]. rewrite Rabs_Ropp, !Rabs_mult.
    pose proof (Rmult_le_compat _ _ _ _ (Rabs_pos p) (Rabs_pos q) P Q). pose proof (Rmult_le_compat _ _ _ _ (Rabs_pos r) (Rabs_pos s) R S). lra. }
  repeat split; cbn; apply T; assumption.
Qed.

Lemma det_pow K n : det33 (pow33 K n) = det33 K ^ n.
Proof. induction n as [|n IH]; [apply det33_id|]. cbn [pow33 pow]. rewrite det33_mul, IH. reflexivity. Qed.
Lemma pow33_add K m n : pow33 K (m + n) = mul33 (pow33 K m) (pow33 K n).
Proof. induction m as [|m IH]; [symmetry; apply mul33_id_l|]. cbn [Nat.add pow33]. rewrite IH. apply mul33_assoc. Qed.

Lemma norm_part u : Rabs (v0 u) <= norm3 u /\ Rabs (v1 u) <= norm3 u /\ Rabs (v2 u) <= norm3 u.
Proof.
  destruct u as [[x y] z]. unfold norm3, dot3v, v0, v1, v2. cbn [fst snd].
  assert (T : forall p q, p * p <= q -> Rabs p <= sqrt q) by (intros p q H; rewrite <- sqrt_Rsqr_abs; apply sqrt_le_1_alt; exact H).
  repeat split; apply T; nra.
Qed.

Lemma contracting_small K n s : spectral_norm_3 (pow33 K n) s -> s < 1 -> exists N, small (1 / 4) (pow33 K N).
Proof.
  intros [H E] L. assert (S0 := spectral_norm_3_nonneg _ _ (conj H E)).
  destruct (pow_lt_1_zero s ltac:(rewrite Rabs_pos_eq; assumption) (1 / 4) ltac:(lra)) as (k & Hk). specialize (Hk k (le_n k)). rewrite Rabs_pos_eq in Hk by (apply pow_le; exact S0).
  assert (G : forall u, norm3 (app33 (pow33 K (k * n)) u) <= s ^ k * norm3 u).
  { clear Hk. induction k as [|k IH]; intro u; [cbn [Nat.mul pow33 pow]; rewrite app33_id; lra|]. cbn [Nat.mul pow]. rewrite pow33_add, app33_mul.
    eapply Rle_trans; [apply H|]. rewrite Rmult_assoc. apply Rmult_le_compat_l; [exact S0|apply IH]. }
  exists (k * n)%nat. set (F := pow33 K (k * n)) in *.
  assert (N1 : forall u, dot3v u u = 1 -> Rabs (v0 (app33 F u)) <= 1 / 4 /\ Rabs (v1 (app33 F u)) <= 1 / 4 /\ Rabs (v2 (app33 F u)) <= 1 / 4).
  { intros u Hu. destruct (norm_part (app33 F u)) as (A & B & C). specialize (G u). unfold norm3 at 2 in G. rewrite Hu, sqrt_1 in G. lra. }
  destruct (N1 (1, 0, 0) ltac:(unfold dot3v, v0, v1, v2; cbn; ring)) as (A & B & C). destruct (N1 (0, 1, 0) ltac:(unfold dot3v, v0, v1, v2; cbn; ring)) as (A' & B' & C').
  destruct (N1 (0, 0, 1) ltac:(unfold dot3v, v0, v1, v2; cbn; ring)) as (A'' & B'' & C''). clear - A B C A' B' C' A'' B'' C''.
  unfold app33, v0, v1, v2 in *. cbn [fst snd] in *. clearbody F.
  assert (T : forall p q r, p * 1 + q * 0 + r * 0 = p /\ p * 0 + q * 1 + r * 0 = q /\ p * 0 + q * 0 + r * 1 = r) by (intros; repeat split; ring).
  repeat match goal with X : Rabs (?p * 1 + ?q * 0 + ?r * 0) <= _ |- _ => rewrite (proj1 (T p q r)) in X
    | X : Rabs (?p * 0 + ?q * 1 + ?r * 0) <= _ |- _ => rewrite (proj1 (proj2 (T p q r))) in X
    | X : Rabs (?p * 0 + ?q * 0 + ?r * 1) <= _ |- _ => rewrite (proj2 (proj2 (T p q r))) in X end.
  repeat split; assumption.
Qed.

Lemma trace_three K n s : b00 K + b11 K + b22 K = 3 -> spectral_norm_3 (pow33 K n) s -> 1 <= s.
Proof.
  intros Ht Hs. destruct (Rle_lt_dec 1 s) as [|L]; [assumption|exfalso]. assert (S0 := spectral_norm_3_nonneg _ _ Hs).
  destruct (contracting_small K n s Hs L) as (N & HN).
  assert (A := vanishing K N (1 / 4) HN ltac:(lra)).
  assert (B : 0 <= det33 (less 1 (adj33 K))) by (apply (vanishing _ N (2 * (1 / 4 * (1 / 4)))); [rewrite <- adj_pow; apply adj_small; exact HN|lra]).
  assert (E : det33 (less 1 K) + det33 (less 1 (adj33 K)) = 2 - (b00 K + b11 K + b22 K) + det33 K * (b00 K + b11 K + b22 K) - det33 K - det33 K * det33 K).
  { clear. destruct K. unfold less, det33. cbn. ring. }
  rewrite Ht in E. assert (D : det33 K = 1) by nra. pose proof (det_bound_3 _ _ Hs) as G. rewrite det_pow, D, pow1, Rabs_R1 in G.
  assert (s * s <= 1) by nra. nra.
Qed.

Section Volume.
  Context {S P W : Type} (interpolate : S -> mat R -> S * res (mat R)) (eigvals : m33 R -> res (R * R * R))
    (mems : nat -> memory (T := R)) (write : W -> string -> list (xval R) -> mat R -> W * res unit)
    (I : (list R -> list R) -> S -> Prop) (HI : samples_field interpolate I) (He : eigvals_ok eigvals).

  Theorem incompressible3 (sv : solver R S P) (wd : world R S P W) w0 A b gs id : b00 A + b11 A + b22 A = 0 ->
    presents_fields I (s_source sv) (fun _ => on_rows3 (aff3 A b)) -> I w0 (w_interp wd) ->
    w_integrator wd = fresh MEuler -> s_writer sv = false -> src_id (s_source sv) = Ok id ->
    src_particles (s_source sv) (w_source wd) = mk_particles Rops (layout3 gs) -> Forall axis_aligned3 gs ->
    (2 <= src_steps (s_source sv))%nat -> src_timestep (s_source sv) <> 0 ->
    exists x, 0 <= x /\ snd (run Rops interpolate eigvals mems write sv wd) = Ok (Some (map (fun _ => XVal x) gs)).
  Proof.
    intros Ht HP Hs Hf Ew Eid Ep Ha Hn Hh.
    destruct (linear3 interpolate eigvals mems write I HI sv wd w0 MEuler A b gs id He HP Hs Hf Ew Eid Ep Ha Hn Hh) as (s & Hs' & ->).
    set (n := src_steps (s_source sv)) in *. set (h := src_timestep (s_source sv)) in *. clearbody n h. cbn [propagator3] in Hs'.
    apply trace_three in Hs'; [|transitivity (3 + h * (b00 A + b11 A + b22 A)); [cbn; ring|rewrite Ht; ring]].
    assert (2 <= INR n) by (apply (le_INR 2); lia). assert (0 < Rabs h) by (apply Rabs_pos_lt; exact Hh).
    exists (ln s / ((INR n - 1) * Rabs h)). split.
    - apply Rmult_le_pos; [|left; apply Rinv_0_lt_compat, Rmult_lt_0_compat; lra]. rewrite <- ln_1. destruct (Rle_lt_or_eq_dec 1 s) as [L|<-]; [assumption| |lra]. left. apply ln_increasing; lra.
    - unfold ftle_value. destruct (Req_EM_T s 0); [lra|reflexivity].
  Qed.
End Volume.
