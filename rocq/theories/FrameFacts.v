(** Lemmas for C127. *)
From Coq Require Import String Reals Lra Lia List.
From Verif Require Import Base Num NdArray SpecIntegrate SpecSeeds ParticleFacts JacobianFacts Jacobian Ftle SpecFtle FtleFacts2 DataSource Solver SpecSolver
  Integrate Particles SolverField UnitsFacts SpecFrame.
Import ListNotations.
Open Scope R_scope.

Notation add := (vadd Rops).
Notation scale := (vscale Rops).
Notation sub := (vsub Rops).

(** ** Vectors *)
Ltac vec := repeat (intro; first [progress subst|idtac]);
  repeat match goal with H : _ /\ _ |- _ => destruct H end.
Lemma step_shift h : forall x k b c, length k = length x -> length b = length x -> length c = length x ->
  add (add x b) (scale h (add k c)) = add (add x (scale h k)) (add b (scale h c)).
Proof.
  induction x as [|x0 x IH]; intros [|k0 k] [|b0 b] [|c0 c] Hk Hb Hc; try discriminate; [reflexivity|].
  cbn. f_equal; [ring|]. apply IH; (injection Hk as Hk; injection Hb as Hb; injection Hc as Hc; assumption).
Qed.
Lemma ab2_shift : forall k q c : list R, length q = length k -> length c = length k ->
  sub (scale (o_three_halves Rops) (add k c)) (scale (o_half Rops) (add q c)) =
  add (sub (scale (o_three_halves Rops) k) (scale (o_half Rops) q)) c.
Proof.
  induction k as [|k0 k IH]; intros [|q0 q] [|c0 c] Hq Hc; try discriminate; [reflexivity|].
  cbn. f_equal; [unfold o_three_halves, o_half; cbn; field|]. apply IH; (injection Hq as Hq; injection Hc as Hc; assumption).
Qed.

(** ** Single-stage methods *)
Section Single.
  Variables (d : nat) (c : list R).
  Hypothesis Lc : length c = d.

  Inductive frames : list R -> list ((list R -> list R) * R) -> list ((list R -> list R) * R) -> Prop :=
  | frames_nil b : length b = d -> frames b [] []
  | frames_cons b v v' h st st' : length b = d ->
      (forall x, length x = d -> length (v x) = d) -> (forall x, length x = d -> v' (add x b) = add (v x) c) ->
      frames (add b (scale h c)) st st' -> frames b ((v, h) :: st) ((v', h) :: st').

  Lemma single m b st st' : single_stage m -> frames b st st' ->
    exists b', length b' = d /\ forall x, length x = d -> path Rops m st' (add x b) = add (path Rops m st x) b'.
  Proof.
    intros Hm H. destruct m; cbn [path].
    - induction H as [b Lb|b v v' h st st' Lb Lv Hv _ (b' & Lb' & IH)].
      + exists b. auto.
      + exists b'. split; [exact Lb'|]. intros x Lx. cbn [euler_path]. unfold textbook_euler. rewrite Hv, step_shift by (rewrite ?Lv; congruence).
        apply IH. rewrite vadd_len, vscale_len, Lv by exact Lx. lia.
    - enough (G : exists b', length b' = d /\ forall x, length x = d ->
        (ab2_path Rops st' None (add x b) = add (ab2_path Rops st None x) b') /\
        forall q, length q = d -> ab2_path Rops st' (Some (add q c)) (add x b) = add (ab2_path Rops st (Some q) x) b')
        by (destruct G as (b' & Lb' & G); exists b'; split; [exact Lb'|]; intros x Lx; exact (proj1 (G x Lx))).
      induction H as [b Lb|b v v' h st st' Lb Lv Hv _ (b' & Lb' & IH)].
      + exists b. split; [exact Lb|]. intros x Lx. split; [reflexivity|]. intros q _. reflexivity.
      + exists b'. split; [exact Lb'|]. intros x Lx. cbn [ab2_path]. rewrite Hv by exact Lx. split.
        * unfold textbook_euler. rewrite Hv, step_shift by (rewrite ?Lv; congruence). apply IH; [|exact (Lv x Lx)].
          rewrite vadd_len, vscale_len, Lv by exact Lx. lia.
        * intros q Lq. unfold textbook_ab2. rewrite Hv, ab2_shift by (rewrite ?Lv; congruence).
          assert (Ls : length (sub (scale (o_three_halves Rops) (v x)) (scale (o_half Rops) q)) = d) by (rewrite vsub_len, !vscale_len, Lv by exact Lx; lia).
          rewrite step_shift by congruence. apply IH; [|exact (Lv x Lx)].
          rewrite vadd_len, vscale_len, Ls. lia.
    - destruct Hm; discriminate.
  Qed.
End Single.

(** ** Fields with a constant gradient *)
Section Affine.
  Variable d : nat.
  Definition apart (x y x' y' : list R) : Prop :=
    length x = d /\ length y = d /\ length x' = d /\ length y' = d /\ sub x' y' = sub x y.
  Definition same_gradient (a a' : (list R -> list R) * R) : Prop :=
    snd a' = snd a /\ forall x y x' y', apart x y x' y' -> apart (fst a x) (fst a y) (fst a' x') (fst a' y').

  Lemma sub_lin h : forall x y k l, length y = length x -> length k = length x -> length l = length x ->
    sub (add x (scale h k)) (add y (scale h l)) = add (sub x y) (scale h (sub k l)).
  Proof.
    induction x as [|x0 x IH]; intros [|y0 y] [|k0 k] [|l0 l] Hy Hk Hl; try discriminate; [reflexivity|].
    cbn. f_equal; [ring|]. apply IH; (injection Hy as Hy; injection Hk as Hk; injection Hl as Hl; assumption).
  Qed.
  Lemma sub_add : forall x y k l : list R, length y = length x -> length k = length x -> length l = length x ->
    sub (add x k) (add y l) = add (sub x y) (sub k l).
  Proof.
    induction x as [|x0 x IH]; intros [|y0 y] [|k0 k] [|l0 l] Hy Hk Hl; try discriminate; [reflexivity|].
    cbn. f_equal; [ring|]. apply IH; (injection Hy as Hy; injection Hk as Hk; injection Hl as Hl; assumption).
  Qed.
  Lemma sub_sub : forall x y k l : list R, length y = length x -> length k = length x -> length l = length x ->
    sub (sub x k) (sub y l) = sub (sub x y) (sub k l).
  Proof.
    induction x as [|x0 x IH]; intros [|y0 y] [|k0 k] [|l0 l] Hy Hk Hl; try discriminate; [reflexivity|].
    cbn. f_equal; [ring|]. apply IH; (injection Hy as Hy; injection Hk as Hk; injection Hl as Hl; assumption).
  Qed.
  Lemma sub_scale h : forall x y : list R, sub (scale h x) (scale h y) = scale h (sub x y).
  Proof. intros x y. symmetry. apply scale_sub. Qed.

  Ltac lens := rewrite ?vadd_len, ?vsub_len, ?vscale_len; lia.
  Lemma apart_move h x y x' y' k l k' l' : apart x y x' y' -> apart k l k' l' ->
    apart (add x (scale h k)) (add y (scale h l)) (add x' (scale h k')) (add y' (scale h l')).
  Proof.
    intros (A & B & C & D & E) (A' & B' & C' & D' & E'). repeat split; try lens. rewrite !sub_lin, E, E' by congruence. reflexivity.
  Qed.
  Lemma apart_add x y x' y' k l k' l' : apart x y x' y' -> apart k l k' l' -> apart (add x k) (add y l) (add x' k') (add y' l').
  Proof.
    intros (A & B & C & D & E) (A' & B' & C' & D' & E'). repeat split; try lens. rewrite !sub_add, E, E' by congruence. reflexivity.
  Qed.
  Lemma apart_sub x y x' y' k l k' l' : apart x y x' y' -> apart k l k' l' -> apart (sub x k) (sub y l) (sub x' k') (sub y' l').
  Proof.
    intros (A & B & C & D & E) (A' & B' & C' & D' & E'). repeat split; try lens. rewrite (sub_sub x' y' k' l'), (sub_sub x y k l), E, E' by congruence. reflexivity.
  Qed.
  Lemma apart_scale h x y x' y' : apart x y x' y' -> apart (scale h x) (scale h y) (scale h x') (scale h y').
  Proof. intros (A & B & C & D & E). repeat split; try lens. rewrite !sub_scale, E. reflexivity. Qed.

  Lemma path_apart m st st' : Forall2 same_gradient st st' -> forall x y x' y', apart x y x' y' ->
    apart (path Rops m st x) (path Rops m st y) (path Rops m st' x') (path Rops m st' y').
  Proof.
    intro H. destruct m; cbn [path].
    - induction H as [|[v h] [v' h'] st st' [Eh Ha] _ IH]; intros x y x' y' X; [exact X|]. cbn [fst snd] in *. subst h'. cbn [euler_path].
      apply IH, apart_move; auto.
    - enough (G : (forall x y x' y', apart x y x' y' ->
        apart (ab2_path Rops st None x) (ab2_path Rops st None y) (ab2_path Rops st' None x') (ab2_path Rops st' None y')) /\
        (forall x y x' y' p q p' q', apart x y x' y' -> apart p q p' q' ->
          apart (ab2_path Rops st (Some p) x) (ab2_path Rops st (Some q) y) (ab2_path Rops st' (Some p') x') (ab2_path Rops st' (Some q') y')))
        by exact (proj1 G).
      induction H as [|[v h] [v' h'] st st' [Eh Ha] _ [_ IH]]; [split; auto|]. cbn [fst snd] in *. subst h'. cbn [ab2_path]. split.
      + intros x y x' y' X. apply IH; [apply apart_move|]; auto.
      + intros x y x' y' p q p' q' X Y. apply IH; [|auto]. unfold textbook_ab2. apply apart_move; [exact X|].
        apply apart_sub; apply apart_scale; auto.
    - induction H as [|[v h] [v' h'] st st' [Eh Ha] _ IH]; intros x y x' y' X; [exact X|]. cbn [fst snd] in *. subst h'. cbn [rk4_path].
      apply IH. unfold textbook_rk4.
      assert (K1 := Ha _ _ _ _ X). assert (K2 := Ha _ _ _ _ (apart_move (o_mul Rops (o_half Rops) h) _ _ _ _ _ _ _ _ X K1)).
      assert (K3 := Ha _ _ _ _ (apart_move (o_mul Rops (o_half Rops) h) _ _ _ _ _ _ _ _ X K2)).
      assert (K4 := Ha _ _ _ _ (apart_move h _ _ _ _ _ _ _ _ X K3)).
      apply apart_move; [exact X|]. repeat apply apart_add; try apply apart_scale; assumption.
  Qed.
End Affine.

(** ** Whole runs *)
Lemma jac2_frames b b' g g' : jac2_group Rops (image2 (fun p => plus2 p b) g, image2 (fun p => plus2 p b') g') = jac2_group Rops (g, g').
Proof.
  assert (R0 : forall b g, rl2 Rops (image2 (fun p => plus2 p b) g) = rl2 Rops g)
    by (intros [? ?] [[? ?] [? ?] [? ?] [? ?]]; unfold rl2, image2, plus2, pt2; cbn; f_equal; ring).
  assert (R1 : forall b g, tb2 Rops (image2 (fun p => plus2 p b) g) = tb2 Rops g)
    by (intros [? ?] [[? ?] [? ?] [? ?] [? ?]]; unfold tb2, image2, plus2, pt2; cbn; f_equal; ring).
  unfold jac2_group. cbn [fst snd]. rewrite !R0, !R1. reflexivity.
Qed.
Lemma jac3_frames b b' g g' : jac3_group Rops (image3 (fun p => plus3 p b) g, image3 (fun p => plus3 p b') g') = jac3_group Rops (g, g').
Proof.
  assert (E : forall b, (forall g, rl3 Rops (image3 (fun p => plus3 p b) g) = rl3 Rops g) /\ (forall g, tb3 Rops (image3 (fun p => plus3 p b) g) = tb3 Rops g)
    /\ (forall g, fb3 Rops (image3 (fun p => plus3 p b) g) = fb3 Rops g)).
  { intros [[? ?] ?]. repeat split; intros [[[? ?] ?] [[? ?] ?] [[? ?] ?] [[? ?] ?] [[? ?] ?] [[? ?] ?]]; unfold rl3, tb3, fb3, image3, plus3, pt3; cbn;
      (apply f_equal2; [apply f_equal2|]); ring. }
  unfold jac3_group. cbn [fst snd]. destruct (E b) as (A & B & C), (E b') as (A' & B' & C'). rewrite A, B, C, A', B', C'. reflexivity.
Qed.

Lemma row2_plus p q : row2 (plus2 p q) = add (row2 p) (row2 q).
Proof. destruct p, q. reflexivity. Qed.
Lemma row3_plus p q : row3 (plus3 p q) = add (row3 p) (row3 q).
Proof. destruct p as [[]], q as [[]]. reflexivity. Qed.
Lemma row2_len (p : R * R) : length (row2 p) = 2%nat.
Proof. destruct p. reflexivity. Qed.
Lemma row3_len (p : R * R * R) : length (row3 p) = 3%nat.
Proof. destruct p as [[]]. reflexivity. Qed.
Lemma rows2 (f : R * R -> R * R) p : on_rows2 f (row2 p) = row2 (f p).
Proof. destruct p as [x y]. reflexivity. Qed.
Lemma rows3 (f : R * R * R -> R * R * R) p : on_rows3 f (row3 p) = row3 (f p).
Proof. destruct p as [[x y] z]. reflexivity. Qed.
Lemma rows2_len (u : R * R -> R * R) x : length x = 2%nat -> length (on_rows2 u x) = 2%nat.
Proof. intro Hx. destruct (is_row2 x Hx) as (p & ->). rewrite rows2. apply row2_len. Qed.
Lemma rows3_len (u : R * R * R -> R * R * R) x : length x = 3%nat -> length (on_rows3 u x) = 3%nat.
Proof. intro Hx. destruct (is_row3 x Hx) as (p & ->). rewrite rows3. apply row3_len. Qed.

Section Run.
  Context {S P W S' P' W' : Type}.
  Variable interpolate : S -> mat R -> S * res (mat R).
  Variable interpolate' : S' -> mat R -> S' * res (mat R).
  Variable eigvals : m33 R -> res (R * R * R).
  Variables mems mems' : nat -> memory (T := R).
  Variable write : W -> string -> list (xval R) -> mat R -> W * res unit.
  Variable write' : W' -> string -> list (xval R) -> mat R -> W' * res unit.
  Variables (I : (list R -> list R) -> S -> Prop) (I' : (list R -> list R) -> S' -> Prop).
  Hypothesis HI : samples_field interpolate I.
  Hypothesis HI' : samples_field interpolate' I'.
  Variables (sv : solver R S P) (sv' : solver R S' P') (w : world R S P W) (w' : world R S' P' W').

  Definition paths2 (src : source R S P) (src' : source R S' P') (m : method) (b : R * R) (v v' : nat -> R * R -> R * R) : Prop :=
    exists b', forall q, path Rops m (run_fields src' (fun j => on_rows2 (v' j))) (add (row2 q) (row2 b)) =
      add (path Rops m (run_fields src (fun j => on_rows2 (v j))) (row2 q)) (row2 b').
  Definition paths3 (src : source R S P) (src' : source R S' P') (m : method) (b : R * R * R) (v v' : nat -> R * R * R -> R * R * R) : Prop :=
    exists b', forall q, path Rops m (run_fields src' (fun j => on_rows3 (v' j))) (add (row3 q) (row3 b)) =
      add (path Rops m (run_fields src (fun j => on_rows3 (v j))) (row3 q)) (row3 b').

  Lemma frame_run2 b v v' m gs w0 w0' id id' : paths2 (s_source sv) (s_source sv') m b v v' ->
    presents_fields I (s_source sv) (fun j => on_rows2 (v j)) ->
    presents_fields I' (s_source sv') (fun j => on_rows2 (v' j)) ->
    src_steps (s_source sv') = src_steps (s_source sv) -> src_timestep (s_source sv') = src_timestep (s_source sv) ->
    src_particles (s_source sv) (w_source w) = mk_particles Rops (layout2 gs) ->
    src_particles (s_source sv') (w_source w') = mk_particles Rops (layout2 (map (image2 (fun p => plus2 p b)) gs)) ->
    I w0 (w_interp w) -> I' w0' (w_interp w') -> w_integrator w = fresh m -> w_integrator w' = fresh m ->
    s_writer sv = false -> s_writer sv' = false ->
    src_id (s_source sv) = Ok id -> src_id (s_source sv') = Ok id' ->
    snd (run Rops interpolate' eigvals mems' write' sv' w') = snd (run Rops interpolate eigvals mems write sv w).
  Proof.
    intros (b' & Hp) HP HP' En Eh Ep Ep' Hi Hi' Hf Hf' Ew Ew' Eid Eid'. rewrite mk_particles_2 in Ep, Ep'.
    destruct (as_map2 (path Rops m (run_fields (s_source sv) (fun j => on_rows2 (v j))))) as (phi & Hphi).
    { apply path_len, run_fields_dim. intros j x. apply rows2_len. }
    destruct (as_map2 (path Rops m (run_fields (s_source sv') (fun j => on_rows2 (v' j))))) as (phi' & Hphi').
    { apply path_len, run_fields_dim. intros j x. apply rows2_len. }
    assert (EQ : forall q, phi' (plus2 q b) = plus2 (phi q) b').
    { intro q. apply row2_inj. rewrite <- Hphi', !row2_plus, Hp, Hphi. reflexivity. }
    rewrite (run_moved2 Rops interpolate eigvals mems write I HI sv _ m w gs id w0 phi HP Hi Hf Eid Ep Ew Hphi).
    rewrite (run_moved2 Rops interpolate' eigvals mems' write' I' HI' sv' _ m w' _ id' w0' phi' HP' Hi' Hf' Eid' Ep' Ew' Hphi').
    rewrite !compute_ftle_2, En, Eh.
    rewrite (mapr_map (image2 (fun p => plus2 p b)) _ (fun g => jac2_group Rops (g, image2 phi g))); [reflexivity|].
    intro g. rewrite <- (jac2_frames b b' g). f_equal. f_equal. destruct g. unfold image2. cbn. rewrite !EQ. reflexivity.
  Qed.
  Lemma frame_run3 b v v' m gs w0 w0' id id' : paths3 (s_source sv) (s_source sv') m b v v' ->
    presents_fields I (s_source sv) (fun j => on_rows3 (v j)) ->
    presents_fields I' (s_source sv') (fun j => on_rows3 (v' j)) ->
    src_steps (s_source sv') = src_steps (s_source sv) -> src_timestep (s_source sv') = src_timestep (s_source sv) ->
    src_particles (s_source sv) (w_source w) = mk_particles Rops (layout3 gs) ->
    src_particles (s_source sv') (w_source w') = mk_particles Rops (layout3 (map (image3 (fun p => plus3 p b)) gs)) ->
    I w0 (w_interp w) -> I' w0' (w_interp w') -> w_integrator w = fresh m -> w_integrator w' = fresh m ->
    s_writer sv = false -> s_writer sv' = false ->
    src_id (s_source sv) = Ok id -> src_id (s_source sv') = Ok id' ->
    snd (run Rops interpolate' eigvals mems' write' sv' w') = snd (run Rops interpolate eigvals mems write sv w).
  Proof.
    intros (b' & Hp) HP HP' En Eh Ep Ep' Hi Hi' Hf Hf' Ew Ew' Eid Eid'. rewrite mk_particles_3 in Ep, Ep'.
    destruct (as_map3 (path Rops m (run_fields (s_source sv) (fun j => on_rows3 (v j))))) as (phi & Hphi).
    { apply path_len, run_fields_dim. intros j x. apply rows3_len. }
    destruct (as_map3 (path Rops m (run_fields (s_source sv') (fun j => on_rows3 (v' j))))) as (phi' & Hphi').
    { apply path_len, run_fields_dim. intros j x. apply rows3_len. }
    assert (EQ : forall q, phi' (plus3 q b) = plus3 (phi q) b').
    { intro q. apply row3_inj. rewrite <- Hphi', !row3_plus, Hp, Hphi. reflexivity. }
    rewrite (run_moved3 Rops interpolate eigvals mems write I HI sv _ m w gs id w0 phi HP Hi Hf Eid Ep Ew Hphi).
    rewrite (run_moved3 Rops interpolate' eigvals mems' write' I' HI' sv' _ m w' _ id' w0' phi' HP' Hi' Hf' Eid' Ep' Ew' Hphi').
    rewrite !compute_ftle_3, En, Eh.
    rewrite (mapr_map (image3 (fun p => plus3 p b)) _ (fun g => jac3_group Rops (g, image3 phi g))); [reflexivity|].
    intro g. rewrite <- (jac3_frames b b' g). f_equal. f_equal. destruct g. unfold image3. cbn. rewrite !EQ. reflexivity.
  Qed.

  Lemma origin2_next b c h j : origin2 b c (INR (Datatypes.S j) * h) = plus2 (origin2 b c (INR j * h)) (h * fst c, h * snd c).
  Proof. rewrite S_INR. unfold origin2, plus2. cbn. f_equal; ring. Qed.
  Lemma origin3_next b c h j : origin3 b c (INR (Datatypes.S j) * h) = plus3 (origin3 b c (INR j * h)) (h * fst (fst c), h * snd (fst c), h * snd c).
  Proof. rewrite S_INR. unfold origin3, plus3. cbn. (apply f_equal2; [apply f_equal2|]); ring. Qed.
  Lemma origin2_0 b c h : origin2 b c (INR 0 * h) = b.
  Proof. destruct b. unfold origin2. cbn. f_equal; ring. Qed.
  Lemma origin3_0 b c h : origin3 b c (INR 0 * h) = b.
  Proof. destruct b as [[] ?]. unfold origin3. cbn. (apply f_equal2; [apply f_equal2|]); ring. Qed.

  Lemma frames2 b c h v v' : (forall j, seen2 b c (INR j * h) (v j) (v' j)) -> forall n k,
    frames 2 (row2 c) (row2 (origin2 b c (INR k * h))) (map (fun j => (on_rows2 (v j), h)) (seq k n)) (map (fun j => (on_rows2 (v' j), h)) (seq k n)).
  Proof.
    intros Hv. induction n as [|n IH]; intro k; cbn [seq map]; constructor; try apply row2_len.
    - intro x. apply rows2_len.
    - intros x Hx. destruct (is_row2 x Hx) as (p & ->). rewrite <- row2_plus, !rows2, Hv, row2_plus. reflexivity.
    - specialize (IH (Datatypes.S k)). rewrite origin2_next, row2_plus in IH. destruct c. exact IH.
  Qed.
  Lemma frames3 b c h v v' : (forall j, seen3 b c (INR j * h) (v j) (v' j)) -> forall n k,
    frames 3 (row3 c) (row3 (origin3 b c (INR k * h))) (map (fun j => (on_rows3 (v j), h)) (seq k n)) (map (fun j => (on_rows3 (v' j), h)) (seq k n)).
  Proof.
    intros Hv. induction n as [|n IH]; intro k; cbn [seq map]; constructor; try apply row3_len.
    - intro x. apply rows3_len.
    - intros x Hx. destruct (is_row3 x Hx) as (p & ->). rewrite <- row3_plus, !rows3, Hv, row3_plus. reflexivity.
    - specialize (IH (Datatypes.S k)). rewrite origin3_next, row3_plus in IH. destruct c as [[] ?]. exact IH.
  Qed.

  Lemma single2 b c v v' m gs w0 w0' id id' : single_stage m ->
    (forall j, seen2 b c (INR j * src_timestep (s_source sv)) (v j) (v' j)) ->
    presents_fields I (s_source sv) (fun j => on_rows2 (v j)) ->
    presents_fields I' (s_source sv') (fun j => on_rows2 (v' j)) ->
    src_steps (s_source sv') = src_steps (s_source sv) -> src_timestep (s_source sv') = src_timestep (s_source sv) ->
    src_particles (s_source sv) (w_source w) = mk_particles Rops (layout2 gs) ->
    src_particles (s_source sv') (w_source w') = mk_particles Rops (layout2 (map (image2 (fun p => plus2 p b)) gs)) ->
    I w0 (w_interp w) -> I' w0' (w_interp w') -> w_integrator w = fresh m -> w_integrator w' = fresh m ->
    s_writer sv = false -> s_writer sv' = false ->
    src_id (s_source sv) = Ok id -> src_id (s_source sv') = Ok id' ->
    snd (run Rops interpolate' eigvals mems' write' sv' w') = snd (run Rops interpolate eigvals mems write sv w).
  Proof.
    intros Hm Hv HP HP' En Eh. apply frame_run2 with (v := v) (v' := v'); auto.
    pose proof (frames2 b c _ v v' Hv (src_steps (s_source sv)) 0) as H. rewrite origin2_0 in H.
    destruct (single 2 (row2 c) (row2_len c) m _ _ _ Hm H) as (b' & Lb & E). destruct (is_row2 b' Lb) as (p & ->).
    exists p. intro q. unfold run_fields. rewrite En, Eh. apply E, row2_len.
  Qed.
  Lemma single3 b c v v' m gs w0 w0' id id' : single_stage m ->
    (forall j, seen3 b c (INR j * src_timestep (s_source sv)) (v j) (v' j)) ->
    presents_fields I (s_source sv) (fun j => on_rows3 (v j)) ->
    presents_fields I' (s_source sv') (fun j => on_rows3 (v' j)) ->
    src_steps (s_source sv') = src_steps (s_source sv) -> src_timestep (s_source sv') = src_timestep (s_source sv) ->
    src_particles (s_source sv) (w_source w) = mk_particles Rops (layout3 gs) ->
    src_particles (s_source sv') (w_source w') = mk_particles Rops (layout3 (map (image3 (fun p => plus3 p b)) gs)) ->
    I w0 (w_interp w) -> I' w0' (w_interp w') -> w_integrator w = fresh m -> w_integrator w' = fresh m ->
    s_writer sv = false -> s_writer sv' = false ->
    src_id (s_source sv) = Ok id -> src_id (s_source sv') = Ok id' ->
    snd (run Rops interpolate' eigvals mems' write' sv' w') = snd (run Rops interpolate eigvals mems write sv w).
  Proof.
    intros Hm Hv HP HP' En Eh. apply frame_run3 with (v := v) (v' := v'); auto.
    pose proof (frames3 b c _ v v' Hv (src_steps (s_source sv)) 0) as H. rewrite origin3_0 in H.
    destruct (single 3 (row3 c) (row3_len c) m _ _ _ Hm H) as (b' & Lb & E). destruct (is_row3 b' Lb) as (p & ->).
    exists p. intro q. unfold run_fields. rewrite En, Eh. apply E, row3_len.
  Qed.
End Run.
