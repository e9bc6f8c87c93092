(** Runs in a three-dimensional rotation with RK4 (C139). *)
From Coq Require Import Reals Lra Lia Psatz.
From Verif Require Import Base Num Particles Jacobian Ftle Integrate DataSource Solver SpecFtle SpecSeeds SpecIntegrate
  SpecSolver SpecRotation FtleFacts2 ParticleFacts JacobianFacts SolverFacts SolverField SolverLinear FtleFacts3 IntegrateMisc ConvergeCases FrameMain StrainCases.
Local Open Scope R_scope.

Definition quad (c d : R) (B : m33 R) : m33 R := add33 id33 (add33 (scal33 c B) (scal33 d (mul33 B B))).

Lemma rk4_spin3 p q r h : let W := p * p + q * q + r * r in
  taylor33 h (spin3 p q r) = quad (h - h ^ 3 * W / 6) (h ^ 2 / 2 - h ^ 4 * W / 24) (spin3 p q r).
Proof. apply m33_ext; cbn; field. Qed.

Lemma quad_norm c d p q r u : dot3v (app33 (quad c d (spin3 p q r)) u) (app33 (quad c d (spin3 p q r)) u) =
  dot3v u u - (2 * d - c * c - d * d * (p * p + q * q + r * r)) * dot3v (app33 (spin3 p q r) u) (app33 (spin3 p q r) u).
Proof. destruct u as [[x y] z]. unfold dot3v, app33, v0, v1, v2. cbn. ring. Qed.

Lemma quad_axis c d p q r : app33 (quad c d (spin3 p q r)) (p, q, r) = (p, q, r).
Proof. apply vec3_ext; unfold app33, v0, v1, v2; cbn; ring. Qed.
Lemma quad_none c d u : app33 (quad c d (spin3 0 0 0)) u = u.
Proof. destruct u as [[x y] z]. apply vec3_ext; unfold app33, v0, v1, v2; cbn; ring. Qed.

Lemma unit_norm (T : m33 R) n s : (forall u, dot3v (app33 T u) (app33 T u) <= dot3v u u) -> (exists u, u <> (0, 0, 0) /\ app33 T u = u) ->
  spectral_norm_3 (pow33 T n) s -> s = 1.
Proof.
  intros H (w & Nw & Fw) Hs.
  assert (G : forall u, norm3 (app33 (pow33 T n) u) <= norm3 u).
  { intro u. apply sqrt_le_1_alt. clear Hs. induction n as [|n IH]; [cbn [pow33]; rewrite app33_id; lra|]. cbn [pow33]. rewrite app33_mul.
    eapply Rle_trans; [apply H|exact IH]. }
  assert (F : app33 (pow33 T n) w = w) by (clear - Fw; induction n as [|n IH]; [apply app33_id|cbn [pow33]; rewrite app33_mul, IH; exact Fw]).
  assert (P : 0 < norm3 w).
  { apply sqrt_lt_R0. clear - Nw. destruct w as [[x y] z]. unfold dot3v, v0, v1, v2. cbn [fst snd].
    destruct (Req_dec x 0) as [->|]; [destruct (Req_dec y 0) as [->|]; [destruct (Req_dec z 0) as [->|]; [congruence|]|]|]; nra. }
  destruct Hs as [A (u & Nu & Eu)]. specialize (G u). specialize (A w). rewrite F in A. rewrite Nu, Eu in G. nra.
Qed.

Section Spin.
  Context {S P W : Type} (interpolate : S -> mat R -> S * res (mat R)) (eigvals : m33 R -> res (R * R * R))
    (mems : nat -> memory (T := R)) (write : W -> string -> list (xval R) -> mat R -> W * res unit)
    (I : (list R -> list R) -> S -> Prop) (HI : samples_field interpolate I) (He : eigvals_ok eigvals).

  Theorem rotation3_rk4 (sv : solver R S P) (wd : world R S P W) w0 p q r b gs id :
    presents_fields I (s_source sv) (fun _ => on_rows3 (aff3 (spin3 p q r) b)) -> I w0 (w_interp wd) ->
    w_integrator wd = fresh MRK4 -> s_writer sv = false -> src_id (s_source sv) = Ok id ->
    src_particles (s_source sv) (w_source wd) = mk_particles Rops (layout3 gs) -> Forall axis_aligned3 gs ->
    (2 <= src_steps (s_source sv))%nat -> src_timestep (s_source sv) <> 0 ->
    (p ^ 2 + q ^ 2 + r ^ 2) * src_timestep (s_source sv) ^ 2 <= 8 ->
    snd (run Rops interpolate eigvals mems write sv wd) = Ok (Some (map (fun _ => XVal 0) gs)).
  Proof.
    intros HP Hs Hf Ew Eid Ep Ha Hn Hh Hw.
    destruct (linear3 interpolate eigvals mems write I HI sv wd w0 MRK4 _ b gs id He HP Hs Hf Ew Eid Ep Ha Hn Hh) as (s & Hs' & ->).
    set (n := src_steps (s_source sv)) in *. set (h := src_timestep (s_source sv)) in *. clearbody n h. cbn [propagator3] in Hs'. rewrite rk4_spin3 in Hs'. cbv zeta in Hs'.
    apply unit_norm in Hs'.
    - subst s. unfold ftle_value. destruct (Req_EM_T 1 0); [lra|]. rewrite ln_1. do 3 f_equal. unfold Rdiv. rewrite Rmult_0_l. reflexivity.
    - intro u. rewrite quad_norm. set (V := p * p + q * q + r * r). assert (V0 : 0 <= V) by (unfold V; nra).
      assert (K : 0 <= 2 * (h ^ 2 / 2 - h ^ 4 * V / 24) - (h - h ^ 3 * V / 6) * (h - h ^ 3 * V / 6) - (h ^ 2 / 2 - h ^ 4 * V / 24) * (h ^ 2 / 2 - h ^ 4 * V / 24) * V).
      { assert (L : V * h ^ 2 <= 8) by (unfold V; nra). assert (0 <= h ^ 2) by nra. clearbody V.
        apply Rle_trans with (h ^ 2 * ((h ^ 2 * V) * (h ^ 2 * V)) * (8 - V * h ^ 2) * / 576); [|right; field].
        set (y := h ^ 2) in *. clearbody y. assert (0 <= y * V * (y * V)) by (assert (0 <= y * V) by (apply Rmult_le_pos; assumption); apply Rmult_le_pos; assumption).
        apply Rmult_le_pos; [|lra]. apply Rmult_le_pos; [|lra]. apply Rmult_le_pos; assumption. }
      assert (0 <= dot3v (app33 (spin3 p q r) u) (app33 (spin3 p q r) u)) by (generalize (app33 (spin3 p q r) u); intros [[x y] z]; unfold dot3v, v0, v1, v2; cbn; nra).
      pose proof (Rmult_le_pos _ _ K H). lra.
    - destruct (Req_dec p 0) as [->|Np]; [destruct (Req_dec q 0) as [->|Nq]; [destruct (Req_dec r 0) as [->|Nr]|]|].
      + exists (1, 0, 0). split; [intro E; injection E; lra|apply quad_none].
      + exists (0, 0, r). split; [intro E; injection E; lra|apply quad_axis].
      + exists (0, q, r). split; [intro E; injection E; lra|apply quad_axis].
      + exists (p, q, r). split; [intro E; injection E; lra|apply quad_axis].
  Qed.
End Spin.
