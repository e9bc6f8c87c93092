(** C127: fields with a constant gradient, and the jet seen from a moving frame. *)
From Coq Require Import String Reals Lra Lia List.
From Verif Require Import Base Num NdArray SpecIntegrate SpecSeeds ParticleFacts JacobianFacts Jacobian Ftle SpecFtle FtleFacts2 DataSource Solver SpecSolver
  Integrate Particles SolverField SolverCases IntegrateMisc UnitsFacts SpecFrame FrameFacts.
From Verif Require AxesFacts SolverLinear.
Import ListNotations.
Open Scope R_scope.

Lemma undo_shift : forall d a b x y : list R, length b = length a -> length x = length a -> length y = length a ->
  d = sub b y -> sub a b = sub x y -> a = add x d.
Proof.
  intros d a. revert d. induction a as [|a0 a IH]; intros d [|b0 b] [|x0 x] [|y0 y] Hb Hx Hy; try discriminate; intros -> H; [reflexivity|].
  cbn in *. injection H as H0 H1. f_equal; [lra|].
  apply (IH _ b x y); [lia|lia|lia|reflexivity|exact H1].
Qed.

Lemma gradient2 o c v v' : affine_field2 v -> (forall p, v' (plus2 p o) = plus2 (v p) c) -> forall h,
  same_gradient 2 (on_rows2 v, h) (on_rows2 v', h).
Proof.
  intros (A & k & Hv) Hs h. split; [reflexivity|]. cbn [fst]. intros x y x' y' (Lx & Ly & Lx' & Ly' & E).
  repeat split; try (apply rows2_len; assumption).
  destruct (is_row2 x Lx) as ([x0 x1] & ->), (is_row2 y Ly) as ([y0 y1] & ->), (is_row2 x' Lx') as ([x0' x1'] & ->), (is_row2 y' Ly') as ([y0' y1'] & ->).
  cbn in E. injection E as E0 E1. rewrite !rows2.
  assert (Hs' : forall p, v' p = plus2 (v (fst p - fst o, snd p - snd o)) c).
  { intros [p0 p1]. rewrite <- Hs. f_equal. unfold plus2. cbn. f_equal; ring. }
  rewrite !Hs', !Hv. destruct A, k, o, c. unfold plus2, aff2, app22. cbn.
  f_equal; [|f_equal].
  - replace x0' with (y0' + (x0 - y0)) by lra. replace x1' with (y1' + (x1 - y1)) by lra. ring.
  - replace x0' with (y0' + (x0 - y0)) by lra. replace x1' with (y1' + (x1 - y1)) by lra. ring.
Qed.
Lemma gradient3 o c v v' : affine_field3 v -> (forall p, v' (plus3 p o) = plus3 (v p) c) -> forall h,
  same_gradient 3 (on_rows3 v, h) (on_rows3 v', h).
Proof.
  intros (A & k & Hv) Hs h. split; [reflexivity|]. cbn [fst]. intros x y x' y' (Lx & Ly & Lx' & Ly' & E).
  repeat split; try (apply rows3_len; assumption).
  destruct (is_row3 x Lx) as ([[x0 x1] x2] & ->), (is_row3 y Ly) as ([[y0 y1] y2] & ->), (is_row3 x' Lx') as ([[x0' x1'] x2'] & ->),
    (is_row3 y' Ly') as ([[y0' y1'] y2'] & ->).
  cbn in E. injection E as E0 E1 E2. rewrite !rows3.
  assert (Hs' : forall p, v' p = plus3 (v (fst (fst p) - fst (fst o), snd (fst p) - snd (fst o), snd p - snd o)) c).
  { intros [[p0 p1] p2]. rewrite <- Hs. f_equal. unfold plus3. cbn. (apply f_equal2; [apply f_equal2|]); ring. }
  rewrite !Hs', !Hv. destruct A, k as [[] ?], o as [[] ?], c as [[] ?]. unfold plus3, aff3, app33, v0, v1, v2. cbn.
  replace x0' with (y0' + (x0 - y0)) by lra. replace x1' with (y1' + (x1 - y1)) by lra. replace x2' with (y2' + (x2 - y2)) by lra.
  f_equal; [ring|f_equal; [ring|f_equal; ring]].
Qed.

Section Affine.
  Context {S P W S' P' W' : Type}.
  Variable interpolate : S -> mat R -> S * res (mat R).
  Variable interpolate' : S' -> mat R -> S' * res (mat R).
  Variable eigvals : m33 R -> res (R * R * R).
  Variables mems mems' : nat -> memory (T := R).
  Variable write : W -> string -> list (xval R) -> mat R -> W * res unit.
  Variable write' : W' -> string -> list (xval R) -> mat R -> W' * res unit.
  Variables (I : (list R -> list R) -> S -> Prop) (I' : (list R -> list R) -> S' -> Prop).
  Hypothesis HI : samples_field interpolate I.
  Hypothesis HI' : samples_field interpolate' I'.
  Variables (sv : solver R S P) (sv' : solver R S' P') (w : world R S P W) (w' : world R S' P' W').

  Lemma affine2 b c v v' m gs w0 w0' id id' : (forall j, affine_field2 (v j)) ->
    (forall j, seen2 b c (INR j * src_timestep (s_source sv)) (v j) (v' j)) ->
    presents_fields I (s_source sv) (fun j => on_rows2 (v j)) ->
    presents_fields I' (s_source sv') (fun j => on_rows2 (v' j)) ->
    src_steps (s_source sv') = src_steps (s_source sv) -> src_timestep (s_source sv') = src_timestep (s_source sv) ->
    src_particles (s_source sv) (w_source w) = mk_particles Rops (layout2 gs) ->
    src_particles (s_source sv') (w_source w') = mk_particles Rops (layout2 (map (image2 (fun p => plus2 p b)) gs)) ->
    I w0 (w_interp w) -> I' w0' (w_interp w') -> w_integrator w = fresh m -> w_integrator w' = fresh m ->
    s_writer sv = false -> s_writer sv' = false ->
    src_id (s_source sv) = Ok id -> src_id (s_source sv') = Ok id' ->
    snd (run Rops interpolate' eigvals mems' write' sv' w') = snd (run Rops interpolate eigvals mems write sv w).
  Proof.
    intros Ha Hv HP HP' En Eh. apply (frame_run2 interpolate interpolate' eigvals mems mems' write write' I I' HI HI' sv sv' w w' b v v' m); auto.
    set (st := run_fields (s_source sv) (fun j => on_rows2 (v j))). set (st' := run_fields (s_source sv') (fun j => on_rows2 (v' j))).
    assert (H : Forall2 (same_gradient 2) st st').
    { subst st st'. unfold run_fields. rewrite En, Eh. set (h := src_timestep (s_source sv)) in *. clearbody h.
      enough (G : forall n k, Forall2 (same_gradient 2) (map (fun j => (on_rows2 (v j), h)) (seq k n)) (map (fun j => (on_rows2 (v' j), h)) (seq k n))) by apply G.
      induction n as [|n IH]; intro k; cbn [seq map]; constructor; [|apply IH].
      exact (gradient2 _ c _ _ (Ha k) (Hv k) h). }
    assert (X : forall q, apart 2 (path Rops m st (row2 q)) (path Rops m st (row2 (0, 0))) (path Rops m st' (add (row2 q) (row2 b))) (path Rops m st' (add (row2 (0, 0)) (row2 b)))).
    { intro q. apply (path_apart 2 m st st' H). destruct q, b. repeat split; cbn. f_equal; [|f_equal]; ring. }
    destruct (X (0, 0)) as (L1 & _ & L3 & _).
    assert (Ls : length (sub (path Rops m st' (add (row2 (0, 0)) (row2 b))) (path Rops m st (row2 (0, 0)))) = 2%nat) by (rewrite vsub_len; lia).
    destruct (is_row2 _ Ls) as (b' & Eb). exists b'. intro q. fold st st'. destruct (X q) as (Q1 & Q2 & Q3 & Q4 & E).
    apply (undo_shift _ _ (path Rops m st' (add (row2 (0, 0)) (row2 b))) _ (path Rops m st (row2 (0, 0)))); congruence.
  Qed.
  Lemma affine3 b c v v' m gs w0 w0' id id' : (forall j, affine_field3 (v j)) ->
    (forall j, seen3 b c (INR j * src_timestep (s_source sv)) (v j) (v' j)) ->
    presents_fields I (s_source sv) (fun j => on_rows3 (v j)) ->
    presents_fields I' (s_source sv') (fun j => on_rows3 (v' j)) ->
    src_steps (s_source sv') = src_steps (s_source sv) -> src_timestep (s_source sv') = src_timestep (s_source sv) ->
    src_particles (s_source sv) (w_source w) = mk_particles Rops (layout3 gs) ->
    src_particles (s_source sv') (w_source w') = mk_particles Rops (layout3 (map (image3 (fun p => plus3 p b)) gs)) ->
    I w0 (w_interp w) -> I' w0' (w_interp w') -> w_integrator w = fresh m -> w_integrator w' = fresh m ->
    s_writer sv = false -> s_writer sv' = false ->
    src_id (s_source sv) = Ok id -> src_id (s_source sv') = Ok id' ->
    snd (run Rops interpolate' eigvals mems' write' sv' w') = snd (run Rops interpolate eigvals mems write sv w).
  Proof.
    intros Ha Hv HP HP' En Eh. apply (frame_run3 interpolate interpolate' eigvals mems mems' write write' I I' HI HI' sv sv' w w' b v v' m); auto.
    set (st := run_fields (s_source sv) (fun j => on_rows3 (v j))). set (st' := run_fields (s_source sv') (fun j => on_rows3 (v' j))).
    assert (H : Forall2 (same_gradient 3) st st').
    { subst st st'. unfold run_fields. rewrite En, Eh. set (h := src_timestep (s_source sv)) in *. clearbody h.
      enough (G : forall n k, Forall2 (same_gradient 3) (map (fun j => (on_rows3 (v j), h)) (seq k n)) (map (fun j => (on_rows3 (v' j), h)) (seq k n))) by apply G.
      induction n as [|n IH]; intro k; cbn [seq map]; constructor; [|apply IH].
      exact (gradient3 _ c _ _ (Ha k) (Hv k) h). }
    assert (X : forall q, apart 3 (path Rops m st (row3 q)) (path Rops m st (row3 (0, 0, 0))) (path Rops m st' (add (row3 q) (row3 b))) (path Rops m st' (add (row3 (0, 0, 0)) (row3 b)))).
    { intro q. apply (path_apart 3 m st st' H). destruct q as [[] ?], b as [[] ?]. repeat split; cbn. f_equal; [|f_equal; [|f_equal]]; ring. }
    destruct (X (0, 0, 0)) as (L1 & _ & L3 & _).
    assert (Ls : length (sub (path Rops m st' (add (row3 (0, 0, 0)) (row3 b))) (path Rops m st (row3 (0, 0, 0)))) = 3%nat) by (rewrite vsub_len; lia).
    destruct (is_row3 _ Ls) as (b' & Eb). exists b'. intro q. fold st st'. destruct (X q) as (Q1 & Q2 & Q3 & Q4 & E).
    apply (undo_shift _ _ (path Rops m st' (add (row3 (0, 0, 0)) (row3 b))) _ (path Rops m st (row3 (0, 0, 0)))); congruence.
  Qed.
End Affine.

(* ---- a jet seen from a frame that moves across it ---- *)
Definition jet (p : R * R) : R * R := (snd p * snd p, 0).
(** The jet at time [t] for an observer who moves downwards at speed 1. *)
Definition jet_seen (t : R) (p : R * R) : R * R := ((snd p - t) * (snd p - t), 1).
Definition two_steps (v : nat -> R * R -> R * R) (gs : list (group2 R)) : source R (list R -> list R) unit :=
  Source (Ok "a"%string) 1 2 (fun _ => mk_particles Rops (layout2 gs)) (fun u _ => u) (fun _ j => (on_rows2 (v j), Ok tt)).
Definition alone (v : nat -> R * R -> R * R) (gs : list (group2 R)) : solver R (list R -> list R) unit := Solver (two_steps v gs) false false.
Definition start {W} (m : method) (w : W) : world R (list R -> list R) unit W := World (fresh m) (fun x => x) tt [] w 0.
Definition still (w : unit) (_ : string) (_ : list (xval R)) (_ : mat R) : unit * res unit := (w, Ok tt).

Lemma two_steps_ok v gs : presents_fields (fun v s => s = v) (two_steps v gs) (fun j => on_rows2 (v j)).
Proof. intros j w s _ _. eexists. split; reflexivity. Qed.
Lemma jet_is_seen j : seen2 (0, 0) (0, 1) (INR j * 1) jet (jet_seen (INR j)).
Proof. intros [x y]. unfold jet_seen, jet, plus2, origin2. cbn [fst snd]. f_equal; ring. Qed.
Lemma stay : map (image2 (fun p => plus2 p (0, 0))) [seed1] = [seed1].
Proof. unfold seed1, image2, plus2. cbn. repeat f_equal; ring. Qed.

Lemma jet_step t x y : textbook_rk4 Rops (on_rows2 (jet_seen t)) 1 [x; y] = [x + ((y - t) * (y - t) + (y - t) + 1 / 3); y + 1].
Proof. unfold textbook_rk4, o_half, jet_seen. cbn. f_equal; [field|f_equal; field]. Qed.
Lemma rest_step x y : textbook_rk4 Rops (on_rows2 jet) 1 [x; y] = [x + y * y; y].
Proof. unfold textbook_rk4, o_half, jet. cbn. f_equal; [field|f_equal; field]. Qed.

Definition carried (p : R * R) : R * R := (fst p + 2 * (snd p * snd p), snd p).
Definition swept (p : R * R) : R * R := (fst p + 2 * (snd p * snd p + snd p + 1 / 3), snd p + 2).
Lemma path_rest gs p : path Rops MRK4 (run_fields (two_steps (fun _ => jet) gs) (fun j => on_rows2 ((fun _ => jet) j))) (row2 p) = row2 (carried p).
Proof.
  destruct p as [x y]. unfold run_fields, carried. cbn [src_steps src_timestep two_steps seq map path rk4_path row2 fst snd].
  rewrite !rest_step. f_equal. ring.
Qed.
Lemma path_seen gs p : path Rops MRK4 (run_fields (two_steps (fun j => jet_seen (INR j)) gs) (fun j => on_rows2 ((fun j => jet_seen (INR j)) j))) (row2 p) = row2 (swept p).
Proof.
  destruct p as [x y]. unfold run_fields, swept. cbn [src_steps src_timestep two_steps seq map path rk4_path row2 fst snd INR].
  rewrite !jet_step. f_equal; [field|]. f_equal. ring.
Qed.

Lemma norm_shear : spectral_norm_2 (M22 1 2 0 1) (1 + sqrt 2).
Proof.
  assert (Hs : sqrt 2 * sqrt 2 = 2) by (apply sqrt_sqrt; lra). assert (Hp : 0 <= sqrt 2) by apply sqrt_pos.
  replace (1 + sqrt 2) with (sqrt (lam (a00 (mul22 (tr22 (M22 1 2 0 1)) (M22 1 2 0 1))) (a01 (mul22 (tr22 (M22 1 2 0 1)) (M22 1 2 0 1))) (a11 (mul22 (tr22 (M22 1 2 0 1)) (M22 1 2 0 1)))));
    [apply spectral_norm_lam|].
  unfold lam. cbn. set (r := sqrt 2) in *.
  replace (sqrt _) with (sqrt ((1 + r) * (1 + r))); [apply sqrt_square; lra|]. f_equal.
  replace (sqrt _) with (sqrt ((4 * r) * (4 * r))) by (f_equal; ring_simplify; replace (r ^ 2) with 2 by (rewrite <- Hs; ring); ring).
  rewrite sqrt_square by lra. replace ((1 + r) * (1 + r)) with (1 + 2 * r + r * r) by ring. rewrite Hs. field.
Qed.
Lemma norm_id : spectral_norm_2 (M22 1 0 0 1) 1.
Proof.
  replace (M22 1 0 0 1) with (scal22 1 id22) by (unfold scal22, id22; cbn; f_equal; ring). apply norm_scaled. lra.
Qed.

Lemma jet_value eigvals mems v phi F s : (forall p, path Rops MRK4 (run_fields (two_steps v [seed1]) (fun j => on_rows2 (v j))) (row2 p) = row2 (phi p)) ->
  jac2_group Rops (seed1, image2 phi seed1) = Ok F -> spectral_norm_2 F s -> 0 < s ->
  snd (run Rops (@field_interp R) eigvals mems still (alone v [seed1]) (start MRK4 tt)) = Ok (Some [XVal (ln s)]).
Proof.
  intros Hphi HF Hn Hs.
  rewrite (run_moved2 Rops _ eigvals mems still _ field_interp_ok (alone v [seed1]) _ MRK4 (start MRK4 tt) [seed1] "a"%string (fun x => x) phi
    (two_steps_ok v [seed1]) eq_refl eq_refl eq_refl (mk_particles_2 Rops [seed1]) eq_refl Hphi).
  rewrite compute_ftle_2. cbn [mapr]. rewrite HF. cbn [bind].
  replace (o_mul Rops _ _) with 1 by (cbn; rewrite Rabs_R1; ring).
  rewrite (ftle2_one F 1 s R1_neq_R0 Hn). cbn [bind]. unfold ftle_value. destruct (Req_EM_T s 0) as [E|_]; [lra|].
  do 4 f_equal. field.
Qed.
Ltac nonzero := match goal with |- context [Req_EM_T ?x 0] => destruct (Req_EM_T x 0) as [E|_]; [exfalso; lra|] end.
Lemma jet_at_rest eigvals mems :
  snd (run Rops (@field_interp R) eigvals mems still (alone (fun _ => jet) [seed1]) (start MRK4 tt)) = Ok (Some [XVal 0]).
Proof.
  rewrite <- ln_1. apply (jet_value eigvals mems _ carried (M22 1 0 0 1)); [apply path_rest| |exact norm_id|lra].
  rewrite AxesFacts.jac2_R. unfold seed1, image2, carried, rl2, tb2, pt2. cbn.
  repeat nonzero. apply (f_equal Ok), SolverLinear.m22_eq; field.
Qed.
Lemma jet_from_frame eigvals mems :
  snd (run Rops (@field_interp R) eigvals mems still (alone (fun j => jet_seen (INR j)) [seed1]) (start MRK4 tt)) = Ok (Some [XVal (ln (1 + sqrt 2))]).
Proof.
  assert (0 <= sqrt 2) by apply sqrt_pos.
  apply (jet_value eigvals mems _ swept (M22 1 2 0 1)); [apply path_seen| |exact norm_shear|lra].
  rewrite AxesFacts.jac2_R. unfold seed1, image2, swept, rl2, tb2, pt2. cbn.
  repeat nonzero. apply (f_equal Ok), SolverLinear.m22_eq; field.
Qed.
Lemma values_differ : ln (1 + sqrt 2) > 0.
Proof. assert (0 < sqrt 2) by (apply sqrt_lt_R0; lra). rewrite <- ln_1. apply ln_increasing; lra. Qed.

Lemma jet_refutes : exists v v' b c gs,
  (forall j, seen2 b c (INR j * 1) (v j) (v' j)) /\ map (image2 (fun p => plus2 p b)) gs = gs /\
  src_timestep (two_steps v gs) = 1 /\ src_timestep (two_steps v' gs) = 1 /\
  presents_fields (fun v s => s = v) (two_steps v gs) (fun j => on_rows2 (v j)) /\
  presents_fields (fun v s => s = v) (two_steps v' gs) (fun j => on_rows2 (v' j)) /\
  ln (1 + sqrt 2) > 0 /\
  forall eigvals mems,
    snd (run Rops (@field_interp R) eigvals mems still (alone v gs) (start MRK4 tt)) = Ok (Some [XVal 0]) /\
    snd (run Rops (@field_interp R) eigvals mems still (alone v' gs) (start MRK4 tt)) = Ok (Some [XVal (ln (1 + sqrt 2))]).
Proof.
  exists (fun _ => jet), (fun j => jet_seen (INR j)), (0, 0), (0, 1), [seed1].
  split; [exact jet_is_seen|]. split; [exact stay|]. split; [reflexivity|]. split; [reflexivity|].
  split; [apply two_steps_ok|]. split; [apply two_steps_ok|]. split; [exact values_differ|].
  intros eigvals mems. split; [apply jet_at_rest|apply jet_from_frame].
Qed.
Lemma jet_euler : single_stage MEuler /\ (forall j, seen2 (0, 0) (0, 1) (INR j * 1) jet (jet_seen (INR j))) /\
  forall eigvals mems,
    snd (run Rops (@field_interp R) eigvals mems still (alone (fun j => jet_seen (INR j)) [seed1]) (start MEuler tt)) =
    snd (run Rops (@field_interp R) eigvals mems still (alone (fun _ => jet) [seed1]) (start MEuler tt)).
Proof.
  split; [left; reflexivity|]. split; [exact jet_is_seen|]. intros eigvals mems.
  apply (single2 _ _ eigvals mems mems still still _ _ field_interp_ok field_interp_ok (alone (fun _ => jet) [seed1]) (alone (fun j => jet_seen (INR j)) [seed1])
    (start MEuler tt) (start MEuler tt) (0, 0) (0, 1) (fun _ => jet) (fun j => jet_seen (INR j)) MEuler [seed1] (fun x => x) (fun x => x) "a"%string "a"%string);
    try reflexivity; try (left; reflexivity); try apply two_steps_ok; try exact jet_is_seen.
  rewrite stay. reflexivity.
Qed.

Definition growing_shear (j : nat) (p : R * R) : R * R := (INR j * snd p, 0).
Definition growing_shear_seen (j : nat) (p : R * R) : R * R := (INR j * (snd p - 2 - 4 * INR j) + 3, 4).
Lemma growing_shear_ok j : affine_field2 (growing_shear j) /\ seen2 (1, 2) (3, 4) (INR j * 1) (growing_shear j) (growing_shear_seen j).
Proof.
  split.
  - exists (M22 0 (INR j) 0 0), (0, 0). intros [x y]. unfold growing_shear, aff2, app22. cbn [fst snd a00 a01 a10 a11]. f_equal; ring.
  - intros [x y]. unfold growing_shear, growing_shear_seen, plus2, origin2. cbn [fst snd]. f_equal; ring.
Qed.
