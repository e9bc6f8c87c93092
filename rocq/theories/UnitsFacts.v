(** Lemmas for C121: trajectories, Jacobians and FTLE values under a change of units and origin. *)
From Coq Require Import String Reals Lra Lia List.
From Verif Require Import Base Num SpecIntegrate SpecSeeds ParticleFacts JacobianFacts Jacobian Ftle DataSource Solver SpecSolver
  Integrate Particles SolverField SpecUnits.
Import ListNotations.
Open Scope R_scope.

Section Path.
  Variables (s c : R) (b : list R).
  Hypothesis Hs : s <> 0.
  Hypothesis Hc : c <> 0.
  Notation d := (length b).
  Notation add := (vadd Rops).
  Notation scale := (vscale Rops).
  Definition aff (x : list R) : list R := add (scale s x) b.

  Ltac lists := cbn in *; try discriminate; try reflexivity.

  (** One displacement [e] with factor [h]. *)
  Lemma aff_step h : forall b' x k, length x = length b' -> length k = length b' ->
    add (scale s (add x (scale h k))) b' = add (add (scale s x) b') (scale (c * h) (scale (s / c) k)).
  Proof.
    induction b' as [|b0 b' IH]; intros [|x0 x] [|k0 k] Hx Hk; lists.
    injection Hx as Hx. injection Hk as Hk. f_equal; [field; exact Hc|exact (IH x k Hx Hk)].
  Qed.
  Lemma scale_add a : forall x y, scale a (add x y) = add (scale a x) (scale a y).
  Proof. induction x as [|x0 x IH]; intros [|y0 y]; lists. f_equal; [ring|exact (IH y)]. Qed.
  Lemma scale_sub a : forall x y, scale a (vsub Rops x y) = vsub Rops (scale a x) (scale a y).
  Proof. induction x as [|x0 x IH]; intros [|y0 y]; lists. f_equal; [ring|exact (IH y)]. Qed.
  Lemma scale_comm a a' x : scale a (scale a' x) = scale a' (scale a x).
  Proof. unfold vscale. rewrite !map_map. apply map_ext. intro. cbn. ring. Qed.

  Definition same_step (a a' : (list R -> list R) * R) : Prop :=
    snd a' = c * snd a /\ forall x, length x = d -> length (fst a x) = d /\ fst a' (aff x) = scale (s / c) (fst a x).

  Lemma move h x k : length x = d -> length k = d ->
    length (add x (scale h k)) = d /\ add (aff x) (scale (c * h) (scale (s / c) k)) = aff (add x (scale h k)).
  Proof.
    intros Hx Hk. split; [rewrite vadd_len, vscale_len, Hx, Hk; lia|]. symmetry. exact (aff_step h b x k Hx Hk).
  Qed.

  Lemma euler_units a a' x : same_step a a' -> length x = d ->
    length (textbook_euler Rops (fst a) (snd a) x) = d /\
    textbook_euler Rops (fst a') (snd a') (aff x) = aff (textbook_euler Rops (fst a) (snd a) x).
  Proof.
    intros [Eh Ev] Hx. destruct (Ev x Hx) as [Hl E]. unfold textbook_euler. rewrite Eh, E. exact (move _ _ _ Hx Hl).
  Qed.
  Lemma ab2_units a a' q x : same_step a a' -> length q = d -> length x = d ->
    length (textbook_ab2 Rops (fst a) (snd a) q x) = d /\
    textbook_ab2 Rops (fst a') (snd a') (scale (s / c) q) (aff x) = aff (textbook_ab2 Rops (fst a) (snd a) q x).
  Proof.
    intros [Eh Ev] Hq Hx. destruct (Ev x Hx) as [Hl E]. unfold textbook_ab2. rewrite Eh, E.
    rewrite !(scale_comm (_ : R) (s / c)), <- scale_sub.
    apply move; [exact Hx|]. rewrite vsub_len, !vscale_len, Hl, Hq. lia.
  Qed.
  Lemma rk4_units a a' x : same_step a a' -> length x = d ->
    length (textbook_rk4 Rops (fst a) (snd a) x) = d /\
    textbook_rk4 Rops (fst a') (snd a') (aff x) = aff (textbook_rk4 Rops (fst a) (snd a) x).
  Proof.
    intros [Eh Ev] Hx. unfold textbook_rk4. rewrite Eh.
    set (v := fst a) in *. set (v' := fst a') in *. set (h := snd a).
    replace (o_mul Rops (o_half Rops) (c * h)) with (c * o_mul Rops (o_half Rops) h) by (cbn; ring).
    replace (o_div Rops (c * h) (o_ofZ Rops 6)) with (c * o_div Rops h (o_ofZ Rops 6)) by (cbn; field).
    set (hh := o_mul Rops (o_half Rops) h).
    destruct (Ev x Hx) as [L1 E1]. rewrite E1. set (k1 := v x) in *.
    destruct (move hh x k1 Hx L1) as [M1 F1]. rewrite F1.
    destruct (Ev _ M1) as [L2 E2]. rewrite E2. set (k2 := v (add x (scale hh k1))) in *.
    destruct (move hh x k2 Hx L2) as [M2 F2]. rewrite F2.
    destruct (Ev _ M2) as [L3 E3]. rewrite E3. set (k3 := v (add x (scale hh k2))) in *.
    destruct (move h x k3 Hx L3) as [M3 F3]. rewrite F3.
    destruct (Ev _ M3) as [L4 E4]. rewrite E4. set (k4 := v (add x (scale h k3))) in *.
    rewrite !(scale_comm (o_ofZ Rops 2) (s / c)), <- !scale_add.
    apply move; [exact Hx|]. rewrite !vadd_len, !vscale_len, L1, L2, L3, L4. lia.
  Qed.

  Lemma path_units m st st' : Forall2 same_step st st' ->
    forall x, length x = d -> path Rops m st' (aff x) = aff (path Rops m st x).
  Proof.
    intro H. destruct m; cbn [path].
    - induction H as [|[v h] [v' h'] st st' Ha _ IH]; intros x Hx; [reflexivity|]. cbn [euler_path].
      destruct (euler_units _ _ x Ha Hx) as [L E]. cbn [fst snd] in *. rewrite E. exact (IH _ L).
    - enough (G : forall vp, (forall q, vp = Some q -> length q = d) -> forall x, length x = d ->
        ab2_path Rops st' (option_map (scale (s / c)) vp) (aff x) = aff (ab2_path Rops st vp x))
        by (intros x Hx; apply (G None); [discriminate|exact Hx]).
      induction H as [|[v h] [v' h'] st st' Ha _ IH]; intros vp Hvp x Hx; [reflexivity|]. cbn [ab2_path].
      destruct (proj2 Ha x Hx) as [Lv Ev]. cbn [fst] in Lv, Ev. rewrite Ev.
      assert (Hq : forall q, Some (v x) = Some q -> length q = d) by (intros q [= <-]; exact Lv).
      destruct vp as [q|]; cbn [option_map].
      + destruct (ab2_units _ _ q x Ha (Hvp q eq_refl) Hx) as [L E]. cbn [fst snd] in *. rewrite E. exact (IH _ Hq _ L).
      + destruct (euler_units _ _ x Ha Hx) as [L E]. cbn [fst snd] in *. rewrite E. exact (IH _ Hq _ L).
    - induction H as [|[v h] [v' h'] st st' Ha _ IH]; intros x Hx; [reflexivity|]. cbn [rk4_path].
      destruct (rk4_units _ _ x Ha Hx) as [L E]. cbn [fst snd] in *. rewrite E. exact (IH _ L).
  Qed.
End Path.

(* ---- Jacobians ---- *)
Lemma py_div_units s u u' k k' : s <> 0 -> u' = s * u -> k' = s * k -> py_div Rops u' k' = py_div Rops u k.
Proof.
  intros Hs -> ->. unfold py_div, o_zero. cbn. unfold R_eqb.
  destruct (Req_EM_T k 0) as [->|Hk]; destruct (Req_EM_T (s * _) 0) as [E|E]; try reflexivity.
  - lra.
  - apply Rmult_integral in E. tauto.
  - f_equal. field. tauto.
Qed.

Lemma bind_ext {A B} (a a' : res A) (f f' : A -> res B) : a = a' -> (forall x, f x = f' x) -> bind a f = bind a' f'.
Proof. intros -> H. destruct a'; cbn; [apply H|reflexivity]. Qed.
Ltac quotient s Hs := apply bind_ext; [apply (py_div_units s _ _ _ _ Hs); cbn; ring|intro].
Lemma jac2_units s b g g' : s <> 0 ->
  jac2_group Rops (image2 (coords2 s b) g, image2 (coords2 s b) g') = jac2_group Rops (g, g').
Proof.
  intro Hs. unfold jac2_group, rl2, tb2, pt2. destruct g, g'. unfold image2, coords2. cbn.
  do 4 quotient s Hs. reflexivity.
Qed.
Lemma jac3_units s b g g' : s <> 0 ->
  jac3_group Rops (image3 (coords3 s b) g, image3 (coords3 s b) g') = jac3_group Rops (g, g').
Proof.
  intro Hs. unfold jac3_group, rl3, tb3, fb3, pt3, p0, p1, p2. destruct g, g'. unfold image3, coords3. cbn.
  do 9 quotient s Hs. reflexivity.
Qed.

(* ---- FTLE values ---- *)
Lemma R_ltb_true a b : R_ltb a b = true <-> a < b.
Proof. unfold R_ltb. destruct (Rlt_dec a b); intuition; discriminate. Qed.
Lemma xscale_units c t x : c <> 0 -> t <> 0 ->
  xscale Rops (1 / (Rabs c * t)) x = rate c (xscale Rops (1 / t) x).
Proof.
  intros Hc Ht. pose proof (Rabs_pos_lt c Hc) as Hp.
  assert (E : 1 / t = Rabs c * (1 / (Rabs c * t))) by (field; lra).
  assert (P : forall a b, R_ltb a b = R_ltb (Rabs c * a) (Rabs c * b)).
  { intros a b. unfold R_ltb. destruct (Rlt_dec a b) as [H|H], (Rlt_dec (Rabs c * a) (Rabs c * b)) as [H'|H']; try reflexivity; exfalso.
    - apply H', Rmult_lt_compat_l; assumption.
    - apply H, (Rmult_lt_reg_l (Rabs c)); assumption. }
  assert (P0 : R_ltb 0 (1 / (Rabs c * t)) = R_ltb 0 (1 / t))
    by (rewrite P, <- E, Rmult_0_r; reflexivity).
  assert (N0 : R_ltb (1 / (Rabs c * t)) 0 = R_ltb (1 / t) 0)
    by (rewrite P, <- E, Rmult_0_r; reflexivity).
  destruct x; cbn [xscale rate o_mul o_ltb Rops]; unfold o_zero; cbn [o_ofZ Rops].
  - f_equal. field. lra.
  - reflexivity.
  - rewrite P0, N0. destruct (R_ltb 0 (1 / t)); [reflexivity|]. destruct (R_ltb (1 / t) 0); reflexivity.
  - rewrite P0, N0. destruct (R_ltb 0 (1 / t)); [reflexivity|]. destruct (R_ltb (1 / t) 0); reflexivity.
Qed.
Lemma ftle_of_eigs_units c t es : c <> 0 ->
  (let* f := ftle_of_eigs Rops es (Rabs c * t) in Ok (Some f)) =
  rates c (let* f := ftle_of_eigs Rops es t in Ok (Some f)).
Proof.
  intro Hc. pose proof (Rabs_pos_lt c Hc) as Hp. unfold ftle_of_eigs, py_div, o_zero. cbn. unfold R_eqb.
  destruct (Req_EM_T t 0) as [->|Ht]; destruct (Req_EM_T (Rabs c * _) 0) as [E|E]; try reflexivity.
  - lra.
  - apply Rmult_integral in E. lra.
  - cbn. do 2 f_equal. rewrite map_map. apply map_ext. intro e. apply xscale_units; assumption.
Qed.

Lemma mapr_map {A B C} (f : A -> B) (g : B -> res C) (g' : A -> res C) l :
  (forall a, g (f a) = g' a) -> mapr g (map f l) = mapr g' l.
Proof. intro H. induction l as [|a l IH]; cbn; [reflexivity|]. rewrite H, IH. reflexivity. Qed.
Lemma row2_aff s b p : aff s (row2 b) (row2 p) = row2 (coords2 s b p).
Proof. destruct b, p. reflexivity. Qed.
Lemma row3_aff s b p : aff s (row3 b) (row3 p) = row3 (coords3 s b p).
Proof. destruct b as [[]], p as [[]]. reflexivity. Qed.
Lemma row2_inj {T} (p q : T * T) : row2 p = row2 q -> p = q.
Proof. destruct p, q. intros [= -> ->]. reflexivity. Qed.
Lemma row3_inj {T} (p q : T * T * T) : row3 p = row3 q -> p = q.
Proof. destruct p as [[]], q as [[]]. intros [= -> -> ->]. reflexivity. Qed.
Lemma is_row2 {T} (x : list T) : length x = 2%nat -> exists p, x = row2 p.
Proof. destruct x as [|a [|e [|]]]; try discriminate. exists (a, e). reflexivity. Qed.
Lemma is_row3 {T} (x : list T) : length x = 3%nat -> exists p, x = row3 p.
Proof. destruct x as [|a [|e [|k [|]]]]; try discriminate. exists (a, e, k). reflexivity. Qed.
Lemma period_units n c h : IZR (Z.of_nat n - 1) * Rabs (c * h) = Rabs c * (IZR (Z.of_nat n - 1) * Rabs h).
Proof. rewrite Rabs_mult. ring. Qed.

Section Run.
  Context {S P W S' P' W' : Type}.
  Variable interpolate : S -> mat R -> S * res (mat R).
  Variable interpolate' : S' -> mat R -> S' * res (mat R).
  Variable eigvals : m33 R -> res (R * R * R).
  Variables mems mems' : nat -> memory (T := R).
  Variable write : W -> string -> list (xval R) -> mat R -> W * res unit.
  Variable write' : W' -> string -> list (xval R) -> mat R -> W' * res unit.
  Variables (I : (list R -> list R) -> S -> Prop) (I' : (list R -> list R) -> S' -> Prop).
  Hypothesis HI : samples_field interpolate I.
  Hypothesis HI' : samples_field interpolate' I'.
  Variables (sv : solver R S P) (sv' : solver R S' P') (w : world R S P W) (w' : world R S' P' W').

  Lemma fields_units s c b v v' n h :
    (forall j x, length x = length b -> length (v j x) = length b) ->
    (forall j x, length x = length b -> v' j (aff s b x) = vscale Rops (s / c) (v j x)) ->
    Forall2 (same_step s c b) (map (fun j => (v j, h)) (seq 0 n)) (map (fun j => (v' j, c * h)) (seq 0 n)).
  Proof.
    intros Hl Hv. generalize 0%nat. induction n as [|n IH]; intro k; cbn; constructor; [|apply IH].
    split; [reflexivity|]. intros x Hx. cbn [fst]. auto.
  Qed.

  Lemma units2 s c b v v' m gs w0 w0' id id' : s <> 0 -> c <> 0 ->
    (forall j, same_flow2 s c b (v j) (v' j)) ->
    presents_fields I (s_source sv) (fun j => on_rows2 (v j)) ->
    presents_fields I' (s_source sv') (fun j => on_rows2 (v' j)) ->
    src_steps (s_source sv') = src_steps (s_source sv) ->
    src_timestep (s_source sv') = c * src_timestep (s_source sv) ->
    src_particles (s_source sv) (w_source w) = mk_particles Rops (layout2 gs) ->
    src_particles (s_source sv') (w_source w') = mk_particles Rops (layout2 (map (image2 (coords2 s b)) gs)) ->
    I w0 (w_interp w) -> I' w0' (w_interp w') -> w_integrator w = fresh m -> w_integrator w' = fresh m ->
    s_writer sv = false -> s_writer sv' = false ->
    src_id (s_source sv) = Ok id -> src_id (s_source sv') = Ok id' ->
    snd (run Rops interpolate' eigvals mems' write' sv' w') =
    rates c (snd (run Rops interpolate eigvals mems write sv w)).
  Proof.
    intros Hs Hc Hv HP HP' En Eh Ep Ep' Hi Hi' Hf Hf' Ew Ew' Eid Eid'. rewrite mk_particles_2 in Ep, Ep'.
    assert (Hl : forall (u : nat -> R * R -> R * R) j x, length x = 2%nat -> length (on_rows2 (u j) x) = 2%nat).
    { intros u j x Hx. destruct (is_row2 x Hx) as ([x0 x1] & ->). cbn [row2 on_rows2]. destruct (u j (x0, x1)). reflexivity. }
    destruct (as_map2 (path Rops m (run_fields (s_source sv) (fun j => on_rows2 (v j))))) as (phi & Hphi).
    { apply path_len, run_fields_dim. intros j x. apply (Hl v). }
    destruct (as_map2 (path Rops m (run_fields (s_source sv') (fun j => on_rows2 (v' j))))) as (phi' & Hphi').
    { apply path_len, run_fields_dim. intros j x. apply (Hl v'). }
    assert (EQ : forall q, phi' (coords2 s b q) = coords2 s b (phi q)).
    { pose proof (fun q : R * R => (match q with (_, _) => match b with (_, _) => eq_refl end end) : length (row2 q) = length (row2 b)) as LL.
      assert (L2 : length (row2 b) = 2%nat) by (destruct b; reflexivity).
      intro q. apply row2_inj. rewrite <- Hphi', <- !row2_aff, <- Hphi.
      apply (path_units s c); [exact Hc| |apply LL]. unfold run_fields. rewrite En, Eh. apply fields_units.
      - rewrite L2. intros j x. apply (Hl v).
      - intros j x Hx. rewrite L2 in Hx. destruct (is_row2 x Hx) as ([x0 x1] & ->). rewrite row2_aff.
        pose proof (Hv j (x0, x1)) as E. unfold coords2 in E. cbn [fst snd] in E. unfold aff, coords2, coords3; cbn. rewrite E. destruct (v j (x0, x1)). reflexivity. }
    rewrite (run_moved2 Rops interpolate eigvals mems write I HI sv _ m w gs id w0 phi HP Hi Hf Eid Ep Ew Hphi).
    rewrite (run_moved2 Rops interpolate' eigvals mems' write' I' HI' sv' _ m w' _ id' w0' phi' HP' Hi' Hf' Eid' Ep' Ew' Hphi').
    rewrite !compute_ftle_2.
    rewrite (mapr_map (image2 (coords2 s b)) _ (fun g => jac2_group Rops (g, image2 phi g))).
    2:{ intro g. rewrite <- (jac2_units s b g) by exact Hs. f_equal. f_equal. destruct g. unfold image2. cbn. rewrite !EQ. reflexivity. }
    destruct (mapr _ gs) as [Fs|]; [|reflexivity]. cbn [bind]. unfold compute_ftle_2x2.
    rewrite En, Eh. cbn [o_mul o_ofZ o_abs Rops]. rewrite period_units. apply ftle_of_eigs_units. exact Hc.
  Qed.
  Lemma units3 s c b v v' m gs w0 w0' id id' : s <> 0 -> c <> 0 ->
    (forall j, same_flow3 s c b (v j) (v' j)) ->
    presents_fields I (s_source sv) (fun j => on_rows3 (v j)) ->
    presents_fields I' (s_source sv') (fun j => on_rows3 (v' j)) ->
    src_steps (s_source sv') = src_steps (s_source sv) ->
    src_timestep (s_source sv') = c * src_timestep (s_source sv) ->
    src_particles (s_source sv) (w_source w) = mk_particles Rops (layout3 gs) ->
    src_particles (s_source sv') (w_source w') = mk_particles Rops (layout3 (map (image3 (coords3 s b)) gs)) ->
    I w0 (w_interp w) -> I' w0' (w_interp w') -> w_integrator w = fresh m -> w_integrator w' = fresh m ->
    s_writer sv = false -> s_writer sv' = false ->
    src_id (s_source sv) = Ok id -> src_id (s_source sv') = Ok id' ->
    snd (run Rops interpolate' eigvals mems' write' sv' w') =
    rates c (snd (run Rops interpolate eigvals mems write sv w)).
  Proof.
    intros Hs Hc Hv HP HP' En Eh Ep Ep' Hi Hi' Hf Hf' Ew Ew' Eid Eid'. rewrite mk_particles_3 in Ep, Ep'.
    assert (Hl : forall (u : nat -> R * R * R -> R * R * R) j x, length x = 3%nat -> length (on_rows3 (u j) x) = 3%nat).
    { intros u j x Hx. destruct (is_row3 x Hx) as ([[x0 x1] x2] & ->). cbn [row3 on_rows3]. destruct (u j (x0, x1, x2)) as [[? ?] ?]. reflexivity. }
    destruct (as_map3 (path Rops m (run_fields (s_source sv) (fun j => on_rows3 (v j))))) as (phi & Hphi).
    { apply path_len, run_fields_dim. intros j x. apply (Hl v). }
    destruct (as_map3 (path Rops m (run_fields (s_source sv') (fun j => on_rows3 (v' j))))) as (phi' & Hphi').
    { apply path_len, run_fields_dim. intros j x. apply (Hl v'). }
    assert (EQ : forall q, phi' (coords3 s b q) = coords3 s b (phi q)).
    { pose proof (fun q : R * R * R => (match q with (_, _, _) => match b with (_, _, _) => eq_refl end end) : length (row3 q) = length (row3 b)) as LL.
      assert (L3 : length (row3 b) = 3%nat) by (destruct b as [[? ?] ?]; reflexivity).
      intro q. apply row3_inj. rewrite <- Hphi', <- !row3_aff, <- Hphi.
      apply (path_units s c); [exact Hc| |apply LL]. unfold run_fields. rewrite En, Eh. apply fields_units.
      - rewrite L3. intros j x. apply (Hl v).
      - intros j x Hx. rewrite L3 in Hx. destruct (is_row3 x Hx) as ([[x0 x1] x2] & ->). rewrite row3_aff.
        pose proof (Hv j (x0, x1, x2)) as E. unfold coords3 in E. cbn [fst snd] in E. unfold aff, coords2, coords3; cbn. rewrite E. destruct (v j (x0, x1, x2)) as [[? ?] ?]. reflexivity. }
    rewrite (run_moved3 Rops interpolate eigvals mems write I HI sv _ m w gs id w0 phi HP Hi Hf Eid Ep Ew Hphi).
    rewrite (run_moved3 Rops interpolate' eigvals mems' write' I' HI' sv' _ m w' _ id' w0' phi' HP' Hi' Hf' Eid' Ep' Ew' Hphi').
    rewrite !compute_ftle_3.
    rewrite (mapr_map (image3 (coords3 s b)) _ (fun g => jac3_group Rops (g, image3 phi g))).
    2:{ intro g. rewrite <- (jac3_units s b g) by exact Hs. f_equal. f_equal. destruct g. unfold image3. cbn. rewrite !EQ. reflexivity. }
    destruct (mapr _ gs) as [Fs|]; [|reflexivity]. cbn [bind]. unfold compute_ftle_3x3.
    destruct (max_eigenvalue_3x3 _ _) as [es|]; [|reflexivity]. cbn [bind].
    rewrite En, Eh. cbn [o_mul o_ofZ o_abs Rops]. rewrite period_units. apply ftle_of_eigs_units. exact Hc.
  Qed.
End Run.

(* ---- a concrete case: the pendulum, in metres and seconds and in millimetres and minutes ---- *)
Definition pendulum (p : R * R) : R * R := (snd p, - sin (fst p)).
Definition pendulum_mm (p : R * R) : R * R :=
  (60000 * ((snd p - 7) / 1000), 60000 * - sin ((fst p - 5) / 1000)).
Definition unit_source (v : R * R -> R * R) (h : R) (gs : list (group2 R)) : source R (list R -> list R) unit :=
  Source (Ok "a"%string) h 3 (fun _ => mk_particles Rops (layout2 gs)) (fun u _ => u) (fun _ _ => (on_rows2 v, Ok tt)).
Lemma pendulum_same : same_flow2 1000 (/ 60) (5, 7) pendulum pendulum_mm.
Proof.
  intros [x y]. unfold pendulum_mm, pendulum, coords2. cbn [fst snd].
  replace ((1000 * y + 7 - 7) / 1000) with y by field. replace ((1000 * x + 5 - 5) / 1000) with x by field.
  f_equal; field.
Qed.
Lemma unit_source_ok v h gs : presents_fields (fun v s => s = v) (unit_source v h gs) (fun _ => on_rows2 v).
Proof. intros j w s _ _. eexists. split; reflexivity. Qed.
