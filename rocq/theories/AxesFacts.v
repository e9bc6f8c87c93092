(** Lemmas for C126. *)
From Coq Require Import String Reals Lra Lia List.
From Verif Require Import Base Num SpecIntegrate SpecSeeds ParticleFacts JacobianFacts Jacobian Ftle SpecFtle FtleFacts3 DataSource Solver SpecSolver
  Integrate Particles SolverField SpecAxes.
Import ListNotations.

Section Path.
  Context {T : Type} (O : ops T) (d : nat) (A : list T -> list T).
  Notation add := (vadd O).
  Notation scale := (vscale O).
  Notation sub := (vsub O).
  Hypothesis Aadd : forall x y, length x = d -> length y = d -> A (add x y) = add (A x) (A y).
  Hypothesis Asub : forall x y, length x = d -> length y = d -> A (sub x y) = sub (A x) (A y).
  Hypothesis Ascale : forall h x, length x = d -> A (scale h x) = scale h (A x).

  Definition turned_step (a a' : (list T -> list T) * T) : Prop :=
    snd a' = snd a /\ forall x, length x = d -> length (fst a x) = d /\ fst a' (A x) = A (fst a x).

  Lemma move h x k : length x = d -> length k = d ->
    length (add x (scale h k)) = d /\ add (A x) (scale h (A k)) = A (add x (scale h k)).
  Proof.
    intros Hx Hk. assert (Hh : length (scale h k) = d) by (rewrite vscale_len; exact Hk).
    split; [rewrite vadd_len, Hx, Hh; lia|]. rewrite Aadd, Ascale by assumption. reflexivity.
  Qed.
  Lemma both x y : length x = d -> length y = d -> length (add x y) = d /\ add (A x) (A y) = A (add x y).
  Proof. intros Hx Hy. split; [rewrite vadd_len; lia|]. rewrite Aadd by assumption. reflexivity. Qed.

  Lemma euler_turn a a' x : turned_step a a' -> length x = d ->
    length (textbook_euler O (fst a) (snd a) x) = d /\ textbook_euler O (fst a') (snd a') (A x) = A (textbook_euler O (fst a) (snd a) x).
  Proof. intros [Eh Ev] Hx. destruct (Ev x Hx) as [Hl E]. unfold textbook_euler. rewrite Eh, E. exact (move _ _ _ Hx Hl). Qed.
  Lemma ab2_turn a a' q x : turned_step a a' -> length q = d -> length x = d ->
    length (textbook_ab2 O (fst a) (snd a) q x) = d /\ textbook_ab2 O (fst a') (snd a') (A q) (A x) = A (textbook_ab2 O (fst a) (snd a) q x).
  Proof.
    intros [Eh Ev] Hq Hx. destruct (Ev x Hx) as [Hl E]. unfold textbook_ab2. rewrite Eh, E.
    rewrite <- !Ascale, <- Asub by (rewrite ?vscale_len; assumption).
    rewrite <- Ascale by (rewrite vsub_len, !vscale_len; lia).
    apply both; [exact Hx|]. rewrite vscale_len, vsub_len, !vscale_len. lia.
  Qed.
  Lemma rk4_turn a a' x : turned_step a a' -> length x = d ->
    length (textbook_rk4 O (fst a) (snd a) x) = d /\ textbook_rk4 O (fst a') (snd a') (A x) = A (textbook_rk4 O (fst a) (snd a) x).
  Proof.
    intros [Eh Ev] Hx. unfold textbook_rk4. rewrite Eh.
    set (v := fst a) in *. set (v' := fst a') in *. set (h := snd a). set (hh := o_mul O (o_half O) h).
    destruct (Ev x Hx) as [L1 E1]. rewrite E1. set (k1 := v x) in *.
    destruct (move hh x k1 Hx L1) as [M1 F1]. rewrite F1.
    destruct (Ev _ M1) as [L2 E2]. rewrite E2. set (k2 := v (add x (scale hh k1))) in *.
    destruct (move hh x k2 Hx L2) as [M2 F2]. rewrite F2.
    destruct (Ev _ M2) as [L3 E3]. rewrite E3. set (k3 := v (add x (scale hh k2))) in *.
    destruct (move h x k3 Hx L3) as [M3 F3]. rewrite F3.
    destruct (Ev _ M3) as [L4 E4]. rewrite E4. set (k4 := v (add x (scale h k3))) in *.
    rewrite <- !(Ascale (o_ofZ O 2)) by assumption.
    rewrite <- !Aadd by (rewrite ?vadd_len, ?vscale_len; lia).
    apply move; [exact Hx|]. rewrite !vadd_len, !vscale_len, L1, L2, L3, L4. lia.
  Qed.

  Lemma path_turn m st st' : Forall2 turned_step st st' -> forall x, length x = d -> path O m st' (A x) = A (path O m st x).
  Proof.
    intro H. destruct m; cbn [path].
    - induction H as [|[v h] [v' h'] st st' Ha _ IH]; intros x Hx; [reflexivity|]. cbn [euler_path].
      destruct (euler_turn _ _ x Ha Hx) as [L E]. cbn [fst snd] in *. rewrite E. exact (IH _ L).
    - enough (G : forall vp, (forall q, vp = Some q -> length q = d) -> forall x, length x = d ->
        ab2_path O st' (option_map A vp) (A x) = A (ab2_path O st vp x))
        by (intros x Hx; apply (G None); [discriminate|exact Hx]).
      induction H as [|[v h] [v' h'] st st' Ha _ IH]; intros vp Hvp x Hx; [reflexivity|]. cbn [ab2_path].
      destruct (proj2 Ha x Hx) as [Lv Ev]. cbn [fst] in Lv, Ev. rewrite Ev.
      assert (Hq : forall q, Some (v x) = Some q -> length q = d) by (intros q [= <-]; exact Lv).
      destruct vp as [q|]; cbn [option_map].
      + destruct (ab2_turn _ _ q x Ha (Hvp q eq_refl) Hx) as [L E]. cbn [fst snd] in *. rewrite E. exact (IH _ Hq _ L).
      + destruct (euler_turn _ _ x Ha Hx) as [L E]. cbn [fst snd] in *. rewrite E. exact (IH _ Hq _ L).
    - induction H as [|[v h] [v' h'] st st' Ha _ IH]; intros x Hx; [reflexivity|]. cbn [rk4_path].
      destruct (rk4_turn _ _ x Ha Hx) as [L E]. cbn [fst snd] in *. rewrite E. exact (IH _ L).
  Qed.

  Lemma fields_turn v v' n h :
    (forall j x, length x = d -> length (v j x) = d) -> (forall j x, length x = d -> v' j (A x) = A (v j x)) ->
    Forall2 turned_step (map (fun j => (v j, h)) (seq 0 n)) (map (fun j => (v' j, h)) (seq 0 n)).
  Proof.
    intros Hl Hv. generalize 0%nat. induction n as [|n IH]; intro k; cbn; constructor; [|apply IH].
    split; [reflexivity|]. intros x Hx. cbn [fst]. auto.
  Qed.
End Path.

Lemma mapr_turn {A B C D} (f : A -> res B) (t : A -> C) (f' : C -> res D) (c : B -> D) l :
  (forall a, f' (t a) = let* b := f a in Ok (c b)) -> mapr f' (map t l) = let* bs := mapr f l in Ok (map c bs).
Proof.
  intro H. induction l as [|a l IH]; cbn; [reflexivity|]. rewrite H. destruct (f a) as [b|]; [|reflexivity]. cbn.
  rewrite IH. destruct (mapr f l); reflexivity.
Qed.
Lemma row2_inj {T} (p q : T * T) : row2 p = row2 q -> p = q.
Proof. destruct p, q. intros [= -> ->]. reflexivity. Qed.
Lemma row3_inj {T} (p q : T * T * T) : row3 p = row3 q -> p = q.
Proof. destruct p as [[]], q as [[]]. intros [= -> -> ->]. reflexivity. Qed.
Lemma is_row2 {T} (x : list T) : length x = 2%nat -> exists p, x = row2 p.
Proof. destruct x as [|a [|e [|]]]; try discriminate. exists (a, e). reflexivity. Qed.
Lemma is_row3 {T} (x : list T) : length x = 3%nat -> exists p, x = row3 p.
Proof. destruct x as [|a [|e [|k [|]]]]; try discriminate. exists (a, e, k). reflexivity. Qed.
Lemma row2_len {T} (p : T * T) : length (row2 p) = 2%nat.
Proof. destruct p. reflexivity. Qed.
Lemma row3_len {T} (p : T * T * T) : length (row3 p) = 3%nat.
Proof. destruct p as [[]]. reflexivity. Qed.
Lemma on_rows2_row {T} (f : T * T -> T * T) p : on_rows2 f (row2 p) = row2 (f p).
Proof. destruct p as [x y]. cbn. destruct (f (x, y)). reflexivity. Qed.
Lemma on_rows3_row {T} (f : T * T * T -> T * T * T) p : on_rows3 f (row3 p) = row3 (f p).
Proof. destruct p as [[x y] z]. cbn. destruct (f (x, y, z)) as [[? ?] ?]. reflexivity. Qed.

(** ** Runs in other coordinates, in any arithmetic *)
Section Run.
  Context {T : Type} (O : ops T).
  Context {S P W S' P' W' : Type}.
  Variable interpolate : S -> mat T -> S * res (mat T).
  Variable interpolate' : S' -> mat T -> S' * res (mat T).
  Variable eigvals : m33 T -> res (T * T * T).
  Variables mems mems' : nat -> memory (T := T).
  Variable write : W -> string -> list (xval T) -> mat T -> W * res unit.
  Variable write' : W' -> string -> list (xval T) -> mat T -> W' * res unit.
  Variables (I : (list T -> list T) -> S -> Prop) (I' : (list T -> list T) -> S' -> Prop).
  Hypothesis HI : samples_field interpolate I.
  Hypothesis HI' : samples_field interpolate' I'.
  Variables (sv : solver T S P) (sv' : solver T S' P') (w : world T S P W) (w' : world T S' P' W').

  Lemma turned_run2 (A : T * T -> T * T) (tg relabel : group2 T -> group2 T) (cj : m22 T -> m22 T) v v' m gs w0 w0' id id' :
    (forall p q, A (pt2 (o_add O) p q) = pt2 (o_add O) (A p) (A q)) ->
    (forall p q, A (pt2 (o_sub O) p q) = pt2 (o_sub O) (A p) (A q)) ->
    (forall h p, A (o_mul O h (fst p), o_mul O h (snd p)) = (o_mul O h (fst (A p)), o_mul O h (snd (A p)))) ->
    (forall g, tg g = image2 A (relabel g)) -> (forall phi g, relabel (image2 phi g) = image2 phi (relabel g)) ->
    (forall g g', jac2_group O (tg g, tg g') = let* F := jac2_group O (g, g') in Ok (cj F)) ->
    (forall F, max_eig_2x2 O (cauchy_green_2x2 O (cj F)) = max_eig_2x2 O (cauchy_green_2x2 O F)) ->
    (forall j p, v' j (A p) = A (v j p)) ->
    presents_fields I (s_source sv) (fun j => on_rows2 (v j)) ->
    presents_fields I' (s_source sv') (fun j => on_rows2 (v' j)) ->
    src_steps (s_source sv') = src_steps (s_source sv) -> src_timestep (s_source sv') = src_timestep (s_source sv) ->
    src_particles (s_source sv) (w_source w) = mk_particles O (layout2 gs) ->
    src_particles (s_source sv') (w_source w') = mk_particles O (layout2 (map tg gs)) ->
    I w0 (w_interp w) -> I' w0' (w_interp w') -> w_integrator w = fresh m -> w_integrator w' = fresh m ->
    s_writer sv = false -> s_writer sv' = false ->
    src_id (s_source sv) = Ok id -> src_id (s_source sv') = Ok id' ->
    snd (run O interpolate' eigvals mems' write' sv' w') = snd (run O interpolate eigvals mems write sv w).
  Proof.
    intros Aadd Asub Ascale Htg Hrel Hjac Heig Hv HP HP' En Eh Ep Ep' Hi Hi' Hf Hf' Ew Ew' Eid Eid'. rewrite mk_particles_2 in Ep, Ep'.
    assert (Hl : forall (u : nat -> T * T -> T * T) j x, length x = 2%nat -> length (on_rows2 (u j) x) = 2%nat).
    { intros u j x Hx. destruct (is_row2 x Hx) as (p & ->). rewrite on_rows2_row. apply row2_len. }
    destruct (as_map2 (path O m (run_fields (s_source sv) (fun j => on_rows2 (v j))))) as (phi & Hphi).
    { apply path_len, run_fields_dim. intros j x. apply (Hl v). }
    destruct (as_map2 (path O m (run_fields (s_source sv') (fun j => on_rows2 (v' j))))) as (phi' & Hphi').
    { apply path_len, run_fields_dim. intros j x. apply (Hl v'). }
    assert (EQ : forall q, phi' (A q) = A (phi q)).
    { intro q. apply row2_inj. rewrite <- Hphi', <- !(on_rows2_row A), <- Hphi.
      apply (path_turn O 2 (on_rows2 A)); [| | | |apply row2_len].
      - intros x y Hx Hy. destruct (is_row2 x Hx) as (p & ->). destruct (is_row2 y Hy) as (p' & ->).
        replace (vadd O (row2 p) (row2 p')) with (row2 (pt2 (o_add O) p p')) by (destruct p, p'; reflexivity).
        rewrite !on_rows2_row, Aadd. destruct (A p), (A p'); reflexivity.
      - intros x y Hx Hy. destruct (is_row2 x Hx) as (p & ->). destruct (is_row2 y Hy) as (p' & ->).
        replace (vsub O (row2 p) (row2 p')) with (row2 (pt2 (o_sub O) p p')) by (destruct p, p'; reflexivity).
        rewrite !on_rows2_row, Asub. destruct (A p), (A p'); reflexivity.
      - intros h x Hx. destruct (is_row2 x Hx) as (p & ->).
        replace (vscale O h (row2 p)) with (row2 (o_mul O h (fst p), o_mul O h (snd p))) by (destruct p; reflexivity).
        rewrite !on_rows2_row, Ascale. destruct (A p); reflexivity.
      - unfold run_fields. rewrite En, Eh. apply fields_turn; [intros j x; apply (Hl v)|].
        intros j x Hx. destruct (is_row2 x Hx) as (p & ->). rewrite !on_rows2_row, Hv. reflexivity. }
    rewrite (run_moved2 O interpolate eigvals mems write I HI sv _ m w gs id w0 phi HP Hi Hf Eid Ep Ew Hphi).
    rewrite (run_moved2 O interpolate' eigvals mems' write' I' HI' sv' _ m w' _ id' w0' phi' HP' Hi' Hf' Eid' Ep' Ew' Hphi').
    rewrite !compute_ftle_2.
    rewrite (mapr_turn (fun g => jac2_group O (g, image2 phi g)) tg (fun g => jac2_group O (g, image2 phi' g)) cj).
    2:{ intro g. rewrite <- Hjac. do 2 f_equal. rewrite !Htg, Hrel. unfold image2. cbn. rewrite !EQ. reflexivity. }
    destruct (mapr _ gs) as [Fs|]; [|reflexivity]. cbn [bind]. unfold compute_ftle_2x2, max_eigenvalue_2x2, compute_cauchy_green_2x2.
    rewrite En, Eh, !map_map. rewrite (map_ext _ _ Heig). reflexivity.
  Qed.

  Lemma turned_run3 (A : T * T * T -> T * T * T) (tg relabel : group3 T -> group3 T) (cj : m33 T -> m33 T) v v' m gs w0 w0' id id' :
    (forall p q, A (pt3 (o_add O) p q) = pt3 (o_add O) (A p) (A q)) ->
    (forall p q, A (pt3 (o_sub O) p q) = pt3 (o_sub O) (A p) (A q)) ->
    (forall h p, A (o_mul O h (fst (fst p)), o_mul O h (snd (fst p)), o_mul O h (snd p)) =
       (o_mul O h (fst (fst (A p))), o_mul O h (snd (fst (A p))), o_mul O h (snd (A p)))) ->
    (forall g, tg g = image3 A (relabel g)) -> (forall phi g, relabel (image3 phi g) = image3 phi (relabel g)) ->
    (forall g g', jac3_group O (tg g, tg g') = let* F := jac3_group O (g, g') in Ok (cj F)) ->
    (forall F, max_eig_3x3 O eigvals (cauchy_green_3x3 O (cj F)) = max_eig_3x3 O eigvals (cauchy_green_3x3 O F)) ->
    (forall j p, v' j (A p) = A (v j p)) ->
    presents_fields I (s_source sv) (fun j => on_rows3 (v j)) ->
    presents_fields I' (s_source sv') (fun j => on_rows3 (v' j)) ->
    src_steps (s_source sv') = src_steps (s_source sv) -> src_timestep (s_source sv') = src_timestep (s_source sv) ->
    src_particles (s_source sv) (w_source w) = mk_particles O (layout3 gs) ->
    src_particles (s_source sv') (w_source w') = mk_particles O (layout3 (map tg gs)) ->
    I w0 (w_interp w) -> I' w0' (w_interp w') -> w_integrator w = fresh m -> w_integrator w' = fresh m ->
    s_writer sv = false -> s_writer sv' = false ->
    src_id (s_source sv) = Ok id -> src_id (s_source sv') = Ok id' ->
    snd (run O interpolate' eigvals mems' write' sv' w') = snd (run O interpolate eigvals mems write sv w).
  Proof.
    intros Aadd Asub Ascale Htg Hrel Hjac Heig Hv HP HP' En Eh Ep Ep' Hi Hi' Hf Hf' Ew Ew' Eid Eid'. rewrite mk_particles_3 in Ep, Ep'.
    assert (Hl : forall (u : nat -> T * T * T -> T * T * T) j x, length x = 3%nat -> length (on_rows3 (u j) x) = 3%nat).
    { intros u j x Hx. destruct (is_row3 x Hx) as (p & ->). rewrite on_rows3_row. apply row3_len. }
    destruct (as_map3 (path O m (run_fields (s_source sv) (fun j => on_rows3 (v j))))) as (phi & Hphi).
    { apply path_len, run_fields_dim. intros j x. apply (Hl v). }
    destruct (as_map3 (path O m (run_fields (s_source sv') (fun j => on_rows3 (v' j))))) as (phi' & Hphi').
    { apply path_len, run_fields_dim. intros j x. apply (Hl v'). }
    assert (EQ : forall q, phi' (A q) = A (phi q)).
    { intro q. apply row3_inj. rewrite <- Hphi', <- !(on_rows3_row A), <- Hphi.
      apply (path_turn O 3 (on_rows3 A)); [| | | |apply row3_len].
      - intros x y Hx Hy. destruct (is_row3 x Hx) as (p & ->). destruct (is_row3 y Hy) as (p' & ->).
        replace (vadd O (row3 p) (row3 p')) with (row3 (pt3 (o_add O) p p')) by (destruct p as [[] ?], p' as [[] ?]; reflexivity).
        rewrite !on_rows3_row, Aadd. destruct (A p) as [[] ?], (A p') as [[] ?]; reflexivity.
      - intros x y Hx Hy. destruct (is_row3 x Hx) as (p & ->). destruct (is_row3 y Hy) as (p' & ->).
        replace (vsub O (row3 p) (row3 p')) with (row3 (pt3 (o_sub O) p p')) by (destruct p as [[] ?], p' as [[] ?]; reflexivity).
        rewrite !on_rows3_row, Asub. destruct (A p) as [[] ?], (A p') as [[] ?]; reflexivity.
      - intros h x Hx. destruct (is_row3 x Hx) as (p & ->).
        replace (vscale O h (row3 p)) with (row3 (o_mul O h (fst (fst p)), o_mul O h (snd (fst p)), o_mul O h (snd p))) by (destruct p as [[] ?]; reflexivity).
        rewrite !on_rows3_row, Ascale. destruct (A p) as [[] ?]; reflexivity.
      - unfold run_fields. rewrite En, Eh. apply fields_turn; [intros j x; apply (Hl v)|].
        intros j x Hx. destruct (is_row3 x Hx) as (p & ->). rewrite !on_rows3_row, Hv. reflexivity. }
    rewrite (run_moved3 O interpolate eigvals mems write I HI sv _ m w gs id w0 phi HP Hi Hf Eid Ep Ew Hphi).
    rewrite (run_moved3 O interpolate' eigvals mems' write' I' HI' sv' _ m w' _ id' w0' phi' HP' Hi' Hf' Eid' Ep' Ew' Hphi').
    rewrite !compute_ftle_3.
    rewrite (mapr_turn (fun g => jac3_group O (g, image3 phi g)) tg (fun g => jac3_group O (g, image3 phi' g)) cj).
    2:{ intro g. rewrite <- Hjac. do 2 f_equal. rewrite !Htg, Hrel. unfold image3. cbn. rewrite !EQ. reflexivity. }
    destruct (mapr _ gs) as [Fs|]; [|reflexivity]. cbn [bind]. unfold compute_ftle_3x3, max_eigenvalue_3x3, compute_cauchy_green_3x3.
    rewrite En, Eh, !map_map. f_equal. f_equal. induction Fs as [|F Fs IH]; cbn; [reflexivity|]. rewrite Heig.
    destruct (max_eig_3x3 _ _ _); [|reflexivity]. cbn. rewrite IH. reflexivity.
  Qed.
End Run.

(** ** The plane, exact arithmetic *)
Open Scope R_scope.
Definition relabel2 (a : axes2) (g : group2 R) : group2 R :=
  let along := swapped (exchange a) ((g_left g, g_right g), (g_bottom g, g_top g)) in
  let x := swapped (reverse_x a) (fst along) in
  let y := swapped (reverse_y a) (snd along) in
  Group2 (fst x) (snd x) (snd y) (fst y).
Definition cj2 (a : axes2) (F : m22 R) : m22 R :=
  let G := if exchange a then M22 (a11 F) (a10 F) (a01 F) (a00 F) else F in
  let b := xorb (reverse_x a) (reverse_y a) in
  M22 (a00 G) (signed b (a01 G)) (signed b (a10 G)) (a11 G).

(** The Jacobian over the reals. *)
Lemma jac2_R g g' : jac2_group Rops (g, g') =
  if Req_EM_T (fst (rl2 Rops g)) 0 then Err ZeroDivisionError else if Req_EM_T (snd (tb2 Rops g)) 0 then Err ZeroDivisionError
  else Ok (M22 (fst (rl2 Rops g') / fst (rl2 Rops g)) (fst (tb2 Rops g') / snd (tb2 Rops g))
               (snd (rl2 Rops g') / fst (rl2 Rops g)) (snd (tb2 Rops g') / snd (tb2 Rops g))).
Proof.
  unfold jac2_group, py_div, o_zero. cbn [fst snd o_eqb o_ofZ o_div Rops]. unfold R_eqb.
  destruct (Req_EM_T (fst (rl2 Rops g)) 0); [reflexivity|]. cbn [bind]. destruct (Req_EM_T (snd (tb2 Rops g)) 0); reflexivity.
Qed.
Ltac zero := match goal with |- context [Req_EM_T ?x 0] => destruct (Req_EM_T x 0) end.
Lemma signed_div b u d : signed b u / d = signed b (u / d).
Proof. destruct b; cbn; unfold Rdiv; ring. Qed.
Section Flips2.
  Variables (x y : bool) (g : group2 R).
  Ltac by_parts := destruct g as [[? ?] [? ?] [? ?] [? ?]]; unfold turn_group2, turn2, image2, rl2, tb2, pt2; cbn; destruct x, y; cbn; f_equal; ring.
  Lemma rl2_flips : rl2 Rops (turn_group2 (Axes2 false x y) g) = (fst (rl2 Rops g), signed (xorb x y) (snd (rl2 Rops g))).
  Proof. by_parts. Qed.
  Lemma tb2_flips : tb2 Rops (turn_group2 (Axes2 false x y) g) = (signed (xorb x y) (fst (tb2 Rops g)), snd (tb2 Rops g)).
  Proof. by_parts. Qed.
End Flips2.
Lemma jac2_flips x y g g' : jac2_group Rops (turn_group2 (Axes2 false x y) g, turn_group2 (Axes2 false x y) g') =
  let* F := jac2_group Rops (g, g') in Ok (cj2 (Axes2 false x y) F).
Proof.
  rewrite !jac2_R. rewrite !rl2_flips, !tb2_flips. cbn [fst snd].
  zero; [reflexivity|]. zero; [reflexivity|]. rewrite !signed_div. reflexivity.
Qed.
Lemma jac2_exchange e g g' : jac2_group Rops (turn_group2 (Axes2 e false false) g, turn_group2 (Axes2 e false false) g') =
  let* F := jac2_group Rops (g, g') in Ok (cj2 (Axes2 e false false) F).
Proof.
  rewrite !jac2_R. destruct e, g as [[? ?] [? ?] [? ?] [? ?]], g' as [[? ?] [? ?] [? ?] [? ?]]; unfold turn_group2, turn2, image2, rl2, tb2, pt2; cbn;
    repeat zero; reflexivity.
Qed.
Lemma turn_parts2 e x y g : turn_group2 (Axes2 e x y) g = turn_group2 (Axes2 false x y) (turn_group2 (Axes2 e false false) g).
Proof. destruct e, x, y, g as [[? ?] [? ?] [? ?] [? ?]]; reflexivity. Qed.
Lemma bind_ok {A B C} (r : res A) (f : A -> B) (g : B -> C) : (let* b := (let* a := r in Ok (f a)) in Ok (g b)) = let* a := r in Ok (g (f a)).
Proof. destruct r; reflexivity. Qed.
Lemma jac2_turn a g g' : jac2_group Rops (turn_group2 a g, turn_group2 a g') = let* F := jac2_group Rops (g, g') in Ok (cj2 a F).
Proof.
  destruct a as [e x y]. rewrite (turn_parts2 e x y g), (turn_parts2 e x y g'), jac2_flips, jac2_exchange, bind_ok.
  destruct (jac2_group Rops (g, g')) as [F|]; [|reflexivity]. reflexivity.
Qed.
Lemma eig2_turn a F : max_eig_2x2 Rops (cauchy_green_2x2 Rops (cj2 a F)) = max_eig_2x2 Rops (cauchy_green_2x2 Rops F).
Proof.
  set (C := cauchy_green_2x2 Rops F). set (C' := cauchy_green_2x2 Rops (cj2 a F)).
  assert (Ht : a00 C' + a11 C' = a00 C + a11 C) by (subst C C'; destruct a as [[] [] []], F; cbn; ring).
  assert (Hd : a00 C' * a11 C' - a01 C' * a10 C' = a00 C * a11 C - a01 C * a10 C) by (subst C C'; destruct a as [[] [] []], F; cbn; ring).
  unfold max_eig_2x2. cbn [o_add o_sub o_mul Rops]. rewrite Ht, Hd. reflexivity.
Qed.

(** ** Space, exact arithmetic *)
Definition relabel3 (a : axes3) (g : group3 R) : group3 R :=
  let along := pick (order a) (h_left g, h_right g) (h_bottom g, h_top g) (h_back g, h_front g) in
  let x := swapped (flip_x a) (fst (fst along)) in
  let y := swapped (flip_y a) (snd (fst along)) in
  let z := swapped (flip_z a) (snd along) in
  Group3 (fst x) (snd x) (snd y) (fst y) (snd z) (fst z).
Definition pick33 (o : order3) (F : m33 R) : m33 R :=
  let '(r0, r1, r2) := pick o (pick o (b00 F) (b01 F) (b02 F)) (pick o (b10 F) (b11 F) (b12 F)) (pick o (b20 F) (b21 F) (b22 F)) in
  M33 (fst (fst r0)) (snd (fst r0)) (snd r0) (fst (fst r1)) (snd (fst r1)) (snd r1) (fst (fst r2)) (snd (fst r2)) (snd r2).
Definition sign33 (x y z : bool) (F : m33 R) : m33 R :=
  M33 (b00 F) (signed (xorb x y) (b01 F)) (signed (xorb x z) (b02 F))
      (signed (xorb x y) (b10 F)) (b11 F) (signed (xorb y z) (b12 F))
      (signed (xorb x z) (b20 F)) (signed (xorb y z) (b21 F)) (b22 F).
Definition cj3 (a : axes3) (F : m33 R) : m33 R := sign33 (flip_x a) (flip_y a) (flip_z a) (pick33 (order a) F).

Lemma jac3_R g g' : jac3_group Rops (g, g') =
  let rl := rl3 Rops g in let tb := tb3 Rops g in let fb := fb3 Rops g in
  let rl' := rl3 Rops g' in let tb' := tb3 Rops g' in let fb' := fb3 Rops g' in
  if Req_EM_T (p0 rl) 0 then Err ZeroDivisionError else if Req_EM_T (p1 tb) 0 then Err ZeroDivisionError
  else if Req_EM_T (p2 fb) 0 then Err ZeroDivisionError
  else Ok (M33 (p0 rl' / p0 rl) (p0 tb' / p1 tb) (p0 fb' / p2 fb) (p1 rl' / p0 rl) (p1 tb' / p1 tb) (p1 fb' / p2 fb)
               (p2 rl' / p0 rl) (p2 tb' / p1 tb) (p2 fb' / p2 fb)).
Proof.
  unfold jac3_group, py_div, o_zero. cbn [fst snd o_eqb o_ofZ o_div Rops]. unfold R_eqb.
  destruct (Req_EM_T (p0 (rl3 Rops g)) 0); [reflexivity|]. cbn [bind]. destruct (Req_EM_T (p1 (tb3 Rops g)) 0); [reflexivity|]. cbn [bind].
  destruct (Req_EM_T (p2 (fb3 Rops g)) 0); reflexivity.
Qed.
Definition order_of (o : order3) : axes3 := Axes3 o false false false.
Definition flips (x y z : bool) : axes3 := Axes3 XYZ x y z.
Definition picked (o : order3) (p : R * R * R) : R * R * R := pick o (p0 p) (p1 p) (p2 p).
Lemma rl3_order o g : rl3 Rops (turn_group3 (order_of o) g) = picked o (p0 (pick o (rl3 Rops g) (tb3 Rops g) (fb3 Rops g))).
Proof. destruct o; reflexivity. Qed.
Lemma tb3_order o g : tb3 Rops (turn_group3 (order_of o) g) = picked o (p1 (pick o (rl3 Rops g) (tb3 Rops g) (fb3 Rops g))).
Proof. destruct o; reflexivity. Qed.
Lemma fb3_order o g : fb3 Rops (turn_group3 (order_of o) g) = picked o (p2 (pick o (rl3 Rops g) (tb3 Rops g) (fb3 Rops g))).
Proof. destruct o; reflexivity. Qed.
Lemma jac3_order o g g' : jac3_group Rops (turn_group3 (order_of o) g, turn_group3 (order_of o) g') = let* F := jac3_group Rops (g, g') in Ok (pick33 o F).
Proof.
  rewrite !jac3_R, !rl3_order, !tb3_order, !fb3_order.
  generalize (rl3 Rops g) (tb3 Rops g) (fb3 Rops g) (rl3 Rops g') (tb3 Rops g') (fb3 Rops g').
  intros [[? ?] ?] [[? ?] ?] [[? ?] ?] [[? ?] ?] [[? ?] ?] [[? ?] ?]. destruct o; unfold picked, pick, p0, p1, p2; cbn [fst snd];
    repeat zero; reflexivity.
Qed.
Section Flips.
  Variables (x y z : bool) (g : group3 R).
  Ltac by_parts := destruct g as [[[? ?] ?] [[? ?] ?] [[? ?] ?] [[? ?] ?] [[? ?] ?] [[? ?] ?]];
    unfold turn_group3, turn3, image3, rl3, tb3, fb3, pt3; cbn; destruct x, y, z; cbn; (apply f_equal2; [apply f_equal2|]); ring.
  Lemma rl3_flips : rl3 Rops (turn_group3 (flips x y z) g) =
    (fst (fst (rl3 Rops g)), signed (xorb x y) (snd (fst (rl3 Rops g))), signed (xorb x z) (snd (rl3 Rops g))).
  Proof. by_parts. Qed.
  Lemma tb3_flips : tb3 Rops (turn_group3 (flips x y z) g) =
    (signed (xorb x y) (fst (fst (tb3 Rops g))), snd (fst (tb3 Rops g)), signed (xorb y z) (snd (tb3 Rops g))).
  Proof. by_parts. Qed.
  Lemma fb3_flips : fb3 Rops (turn_group3 (flips x y z) g) =
    (signed (xorb x z) (fst (fst (fb3 Rops g))), signed (xorb y z) (snd (fst (fb3 Rops g))), snd (fb3 Rops g)).
  Proof. by_parts. Qed.
End Flips.
Lemma jac3_flips x y z g g' : jac3_group Rops (turn_group3 (flips x y z) g, turn_group3 (flips x y z) g') = let* F := jac3_group Rops (g, g') in Ok (sign33 x y z F).
Proof.
  rewrite !jac3_R. cbv zeta. rewrite !rl3_flips, !tb3_flips, !fb3_flips. unfold p0, p1, p2. cbn [fst snd].
  zero; [reflexivity|]. zero; [reflexivity|]. zero; [reflexivity|]. rewrite !signed_div. reflexivity.
Qed.
Lemma turn_parts3 o x y z g : turn_group3 (Axes3 o x y z) g = turn_group3 (flips x y z) (turn_group3 (order_of o) g).
Proof. destruct g as [[[? ?] ?] [[? ?] ?] [[? ?] ?] [[? ?] ?] [[? ?] ?] [[? ?] ?]]. destruct o, x, y, z; reflexivity. Qed.
Lemma jac3_turn a g g' : jac3_group Rops (turn_group3 a g, turn_group3 a g') = let* F := jac3_group Rops (g, g') in Ok (cj3 a F).
Proof. destruct a as [o x y z]. rewrite (turn_parts3 o x y z g), (turn_parts3 o x y z g'), jac3_flips, jac3_order, bind_ok. reflexivity. Qed.

(** The same characteristic polynomial. *)
Lemma charpoly_order o F t : charpoly33 (cauchy_green_3x3 Rops (pick33 o F)) t = charpoly33 (cauchy_green_3x3 Rops F) t.
Proof. destruct o, F; unfold charpoly33, det33, shift33; cbn; ring. Qed.
Lemma charpoly_sign x y z F t : charpoly33 (cauchy_green_3x3 Rops (sign33 x y z F)) t = charpoly33 (cauchy_green_3x3 Rops F) t.
Proof.
  assert (E : cauchy_green_3x3 Rops (sign33 x y z F) = sign33 x y z (cauchy_green_3x3 Rops F)).
  { destruct x, y, z, F; unfold sign33, cauchy_green_3x3, dot3; cbn; f_equal; ring. }
  rewrite E. destruct (cauchy_green_3x3 Rops F) as [a b c d e f g h i]. destruct x, y, z; unfold charpoly33, det33, shift33, sign33; cbn; ring.
Qed.
Lemma same_roots A B e e' : (forall t, charpoly33 A t = charpoly33 B t) -> roots_of_charpoly A e -> roots_of_charpoly B e' -> max3 e <= max3 e'.
Proof.
  intros H Ha Hb. set (M := max3 e).
  assert (Z : charpoly33 B M = 0).
  { rewrite <- H, Ha. subst M. destruct (max3_in e) as [E|[E|E]]; rewrite E; ring. }
  rewrite Hb in Z. destruct (max3_ge e') as (H1 & H2 & H3).
  destruct (Rmult_integral _ _ Z) as [Z'|Z']; [destruct (Rmult_integral _ _ Z') as [Z''|Z'']|]; lra.
Qed.
Lemma cg3_sym F : symmetric_3 (cauchy_green_3x3 Rops F).
Proof. rewrite cg3_is_FFt. unfold symmetric_3. rewrite tr33_mul, tr33_tr. reflexivity. Qed.
Lemma eig3_turn eigvals a F : eigvals_ok eigvals ->
  max_eig_3x3 Rops eigvals (cauchy_green_3x3 Rops (cj3 a F)) = max_eig_3x3 Rops eigvals (cauchy_green_3x3 Rops F).
Proof.
  intro Hok. destruct (Hok _ (cg3_sym F)) as (e & He & Hr). destruct (Hok _ (cg3_sym (cj3 a F))) as (e' & He' & Hr').
  assert (H : forall t, charpoly33 (cauchy_green_3x3 Rops (cj3 a F)) t = charpoly33 (cauchy_green_3x3 Rops F) t).
  { intro t. unfold cj3. rewrite charpoly_sign. apply charpoly_order. }
  assert (E : max3 e' = max3 e).
  { apply Rle_antisym; [exact (same_roots _ _ _ _ H Hr' Hr)|]. exact (same_roots _ _ _ _ (fun t => eq_sym (H t)) Hr Hr'). }
  unfold max_eig_3x3. rewrite He, He'. cbn [bind]. destruct e as [[x y] z], e' as [[x' y'] z']. rewrite !o_max_Rmax.
  unfold max3 in E. cbn [fst snd] in E. rewrite E. reflexivity.
Qed.

(** ** Whole runs *)
Section Turned.
  Context {S P W S' P' W' : Type}.
  Variable interpolate : S -> mat R -> S * res (mat R).
  Variable interpolate' : S' -> mat R -> S' * res (mat R).
  Variable eigvals : m33 R -> res (R * R * R).
  Variables mems mems' : nat -> memory (T := R).
  Variable write : W -> string -> list (xval R) -> mat R -> W * res unit.
  Variable write' : W' -> string -> list (xval R) -> mat R -> W' * res unit.
  Variables (I : (list R -> list R) -> S -> Prop) (I' : (list R -> list R) -> S' -> Prop).
  Hypothesis HI : samples_field interpolate I.
  Hypothesis HI' : samples_field interpolate' I'.
  Variables (sv : solver R S P) (sv' : solver R S' P') (w : world R S P W) (w' : world R S' P' W').

  Lemma axes_2 a v v' m gs w0 w0' id id' : (forall j, turned2 a (v j) (v' j)) ->
    presents_fields I (s_source sv) (fun j => on_rows2 (v j)) ->
    presents_fields I' (s_source sv') (fun j => on_rows2 (v' j)) ->
    src_steps (s_source sv') = src_steps (s_source sv) -> src_timestep (s_source sv') = src_timestep (s_source sv) ->
    src_particles (s_source sv) (w_source w) = mk_particles Rops (layout2 gs) ->
    src_particles (s_source sv') (w_source w') = mk_particles Rops (layout2 (map (turn_group2 a) gs)) ->
    I w0 (w_interp w) -> I' w0' (w_interp w') -> w_integrator w = fresh m -> w_integrator w' = fresh m ->
    s_writer sv = false -> s_writer sv' = false ->
    src_id (s_source sv) = Ok id -> src_id (s_source sv') = Ok id' ->
    snd (run Rops interpolate' eigvals mems' write' sv' w') = snd (run Rops interpolate eigvals mems write sv w).
  Proof.
    intro Hv. apply (turned_run2 Rops interpolate interpolate' eigvals mems mems' write write' I I' HI HI' sv sv' w w' (turn2 a) (turn_group2 a) (relabel2 a) (cj2 a)).
    - intros [? ?] [? ?]. destruct a as [[] [] []]; unfold turn2, pt2; cbn; f_equal; ring.
    - intros [? ?] [? ?]. destruct a as [[] [] []]; unfold turn2, pt2; cbn; f_equal; ring.
    - intros h [? ?]. destruct a as [[] [] []]; unfold turn2; cbn; f_equal; ring.
    - reflexivity.
    - intros phi g. destruct a as [[] [] []], g; reflexivity.
    - apply jac2_turn.
    - apply eig2_turn.
    - exact Hv.
  Qed.

  Lemma axes_3 a v v' m gs w0 w0' id id' : eigvals_ok eigvals -> (forall j, turned3 a (v j) (v' j)) ->
    presents_fields I (s_source sv) (fun j => on_rows3 (v j)) ->
    presents_fields I' (s_source sv') (fun j => on_rows3 (v' j)) ->
    src_steps (s_source sv') = src_steps (s_source sv) -> src_timestep (s_source sv') = src_timestep (s_source sv) ->
    src_particles (s_source sv) (w_source w) = mk_particles Rops (layout3 gs) ->
    src_particles (s_source sv') (w_source w') = mk_particles Rops (layout3 (map (turn_group3 a) gs)) ->
    I w0 (w_interp w) -> I' w0' (w_interp w') -> w_integrator w = fresh m -> w_integrator w' = fresh m ->
    s_writer sv = false -> s_writer sv' = false ->
    src_id (s_source sv) = Ok id -> src_id (s_source sv') = Ok id' ->
    snd (run Rops interpolate' eigvals mems' write' sv' w') = snd (run Rops interpolate eigvals mems write sv w).
  Proof.
    intros Hok Hv. apply (turned_run3 Rops interpolate interpolate' eigvals mems mems' write write' I I' HI HI' sv sv' w w' (turn3 a) (turn_group3 a) (relabel3 a) (cj3 a)).
    - intros [[? ?] ?] [[? ?] ?]. destruct a as [[] [] [] []]; unfold turn3, pt3; cbn; (apply f_equal2; [apply f_equal2|]); ring.
    - intros [[? ?] ?] [[? ?] ?]. destruct a as [[] [] [] []]; unfold turn3, pt3; cbn; (apply f_equal2; [apply f_equal2|]); ring.
    - intros h [[? ?] ?]. destruct a as [[] [] [] []]; unfold turn3; cbn; (apply f_equal2; [apply f_equal2|]); ring.
    - reflexivity.
    - intros phi g. destruct a as [[] [] [] []], g; reflexivity.
    - apply jac3_turn.
    - intro F. apply eig3_turn, Hok.
    - exact Hv.
  Qed.
End Turned.

(** ** Exchanged axes in any arithmetic *)
Section Exchanged.
  Context {T : Type} (O : ops T) (HC : commutative O).
  Definition xj2 (F : m22 T) : m22 T := M22 (a11 F) (a10 F) (a01 F) (a00 F).

  Lemma jac2_x g g' : jac2_group O (exchange_group2 g, exchange_group2 g') = let* F := jac2_group O (g, g') in Ok (xj2 F).
  Proof.
    unfold jac2_group. destruct g as [[? ?] [? ?] [? ?] [? ?]], g' as [[? ?] [? ?] [? ?] [? ?]].
    unfold exchange_group2, exchange2, image2, rl2, tb2, pt2, py_div. cbn.
    repeat match goal with |- context [o_eqb O ?x ?y] => destruct (o_eqb O x y); cbn [bind]; try reflexivity end.
  Qed.
  Lemma eig2_x F : max_eig_2x2 O (cauchy_green_2x2 O (xj2 F)) = max_eig_2x2 O (cauchy_green_2x2 O F).
  Proof.
    destruct HC as [Ca Cm]. set (C := cauchy_green_2x2 O F). set (C' := cauchy_green_2x2 O (xj2 F)).
    assert (E : C' = xj2 C).
    { subst C C'. destruct F as [a b c d]. unfold xj2, cauchy_green_2x2. cbn.
      rewrite (Ca (o_mul O d d)), (Ca (o_mul O d c)), (Ca (o_mul O c d)), (Ca (o_mul O c c)). reflexivity. }
    rewrite E. destruct C as [a b c d]. unfold max_eig_2x2, xj2. cbn. rewrite (Ca d a), (Cm d a), (Cm c b). reflexivity.
  Qed.

  Context {S P W S' P' W' : Type}.
  Variable interpolate : S -> mat T -> S * res (mat T).
  Variable interpolate' : S' -> mat T -> S' * res (mat T).
  Variable eigvals : m33 T -> res (T * T * T).
  Variables mems mems' : nat -> memory (T := T).
  Variable write : W -> string -> list (xval T) -> mat T -> W * res unit.
  Variable write' : W' -> string -> list (xval T) -> mat T -> W' * res unit.
  Variables (I : (list T -> list T) -> S -> Prop) (I' : (list T -> list T) -> S' -> Prop).
  Hypothesis HI : samples_field interpolate I.
  Hypothesis HI' : samples_field interpolate' I'.
  Variables (sv : solver T S P) (sv' : solver T S' P') (w : world T S P W) (w' : world T S' P' W').

  Lemma exchanged_2 v v' m gs w0 w0' id id' : (forall j, exchanged2 (v j) (v' j)) ->
    presents_fields I (s_source sv) (fun j => on_rows2 (v j)) ->
    presents_fields I' (s_source sv') (fun j => on_rows2 (v' j)) ->
    src_steps (s_source sv') = src_steps (s_source sv) -> src_timestep (s_source sv') = src_timestep (s_source sv) ->
    src_particles (s_source sv) (w_source w) = mk_particles O (layout2 gs) ->
    src_particles (s_source sv') (w_source w') = mk_particles O (layout2 (map exchange_group2 gs)) ->
    I w0 (w_interp w) -> I' w0' (w_interp w') -> w_integrator w = fresh m -> w_integrator w' = fresh m ->
    s_writer sv = false -> s_writer sv' = false ->
    src_id (s_source sv) = Ok id -> src_id (s_source sv') = Ok id' ->
    snd (run O interpolate' eigvals mems' write' sv' w') = snd (run O interpolate eigvals mems write sv w).
  Proof.
    intro Hv. apply (turned_run2 O interpolate interpolate' eigvals mems mems' write write' I I' HI HI' sv sv' w w' exchange2 exchange_group2
      (fun g => Group2 (g_bottom g) (g_top g) (g_right g) (g_left g)) xj2).
    - reflexivity.
    - reflexivity.
    - reflexivity.
    - reflexivity.
    - reflexivity.
    - apply jac2_x.
    - apply eig2_x.
    - exact Hv.
  Qed.
End Exchanged.
