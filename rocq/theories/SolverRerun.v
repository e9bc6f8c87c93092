(** Running a solver again. *)
From Coq Require Import Lia.
From Verif Require Import Base Num Particles Jacobian Ftle Integrate DataSource Solver SpecIntegrate
  IntegrateFacts SpecSolver.

Section Rerun.
  Context {T : Type} (O : ops T) {S P W : Type}.
  Variable interpolate : S -> mat T -> S * res (mat T).
  Variable eigvals : m33 T -> res (T * T * T).
  Variable mems : nat -> memory (T := T).
  Variable write : W -> string -> list (xval T) -> mat T -> W * res unit.
  Notation runs := (run O interpolate eigvals mems write).
  Variable E : S -> S -> Prop.
  (** Shapes of the queries considered: rows and columns. *)
  Variable D : nat -> nat -> Prop.
  Definition inD (q : mat T) : Prop := D (nrows q) (mcols q).
  Hypothesis HE : forall s t q, E s t -> inD q ->
    E (fst (interpolate s q)) (fst (interpolate t q)) /\ snd (interpolate s q) = snd (interpolate t q).

  Lemma sample_E s t b q : E s t -> inD q -> exists s' t' r,
    sample interpolate s b q = (s', r) /\ sample interpolate t b q = (t', r) /\ E s' t'.
  Proof.
    intros H Hd. destruct (HE s t q H Hd) as [H1 H2]. unfold sample.
    destruct (interpolate s q) as [s' r], (interpolate t q) as [t' r']. cbn in *. subst r'. eauto 6.
  Qed.
  Ltac fin := eexists _, _, _, _; split; [reflexivity|split; [reflexivity|assumption]].
  Lemma madd_shape (a b m : mat T) : madd O a b = Ok m -> inD a -> inD m.
  Proof.
    intros H. apply mat_map2_shape, same_shape_spec in H. destruct H as [H1 H2]. unfold inD. rewrite H1, H2. auto.
  Qed.
  Lemma copy_madd_shape (a p b m : mat T) : (let* t0 := copyto a p in madd O t0 b) = Ok m -> inD a -> inD m.
  Proof.
    destruct (copyto a p) as [t0|] eqn:Ec; [|discriminate]. cbn [bind]. intros H Ha.
    apply (madd_shape _ _ _ H). apply copyto_result_shape, same_shape_spec in Ec. destruct Ec as [H1 H2].
    unfold inD. rewrite H1, H2. exact Ha.
  Qed.
  Lemma integrate_E mem i s t h pos : bufs_ok i -> inD pos -> E s t -> exists i' s' t' r,
    integrate_pos O interpolate mem i s h pos = (i', s', r) /\
    integrate_pos O interpolate mem i t h pos = (i', t', r) /\ E s' t'.
  Proof.
    intros Hb Hd H. destruct i as [b|p b|b]; cbn [integrate_pos].
    - unfold euler_integrate. destruct (sample_E s t (get_buffer mem 0 b pos) pos H Hd) as (s1 & t1 & r & -> & -> & H1).
      destruct r; fin.
    - unfold ab2_integrate. destruct (sample_E s t (get_buffer mem 0 b pos) pos H Hd) as (s1 & t1 & r & -> & -> & H1).
      destruct r; [|fin]. destruct (match p with None => _ | Some _ => _ end); [|fin]. destruct (copyto _ _); fin.
    - unfold rk4_integrate. fold (rk4_bufs mem b pos).
      pose proof (rk4_bufs_shape mem b pos Hb) as Hs.
      destruct (rk4_bufs mem b pos) as [[[[k1 k2] k3] k4] tm]. destruct Hs as (_ & _ & _ & _ & Hs).
      assert (Ht : inD tm) by (apply same_shape_spec in Hs; unfold inD; destruct Hs as [-> ->]; exact Hd).
      destruct (sample_E s t k1 pos H Hd) as (s1 & t1 & r & -> & -> & H1). destruct r; [|fin].
      destruct (let* t0 := copyto tm pos in _) as [x1|e] eqn:X1; [|fin]. apply copy_madd_shape in X1; [|assumption].
      destruct (sample_E s1 t1 k2 x1 H1 X1) as (s2 & t2 & r & -> & -> & H2). destruct r; [|fin].
      destruct (let* t0 := copyto x1 pos in _) as [x2|e] eqn:X2; [|fin]. apply copy_madd_shape in X2; [|assumption].
      destruct (sample_E s2 t2 k3 x2 H2 X2) as (s3 & t3 & r & -> & -> & H3). destruct r; [|fin].
      destruct (let* t0 := copyto x2 pos in _) as [x3|e] eqn:X3; [|fin]. apply copy_madd_shape in X3; [|assumption].
      destruct (sample_E s3 t3 k4 x3 H3 X3) as (s4 & t4 & r & -> & -> & H4). destruct r; fin.
  Qed.

  (** Same one-step method. *)
  Definition one_step (i j : integrator T) : Prop :=
    match i, j with Euler _, Euler _ => True | RK4 _, RK4 _ => True | _, _ => False end.
  Lemma integrate_kind mem i s h pos i' s' r : one_step i i ->
    integrate_pos O interpolate mem i s h pos = (i', s', r) -> one_step i i'.
  Proof.
    destruct i as [b|p b|b]; cbn [integrate_pos one_step]; intros Hk H; [|contradiction|].
    - unfold euler_integrate in H. destruct (sample _ _ _ _) as [? [?|?]]; injection H as <- _ _; exact Logic.I.
    - unfold rk4_integrate in H. destruct (match b with Some _ => _ | None => _ end) as [[[[k1 k2] k3] k4] tm].
      repeat (match type of H with context [match ?x with _ => _ end] => destruct x end;
              try (injection H as <- _ _; exact Logic.I)).
  Qed.
  Lemma one_step_same i j : one_step i j -> same_memory i j.
  Proof. destruct i, j; cbn; tauto. Qed.
  Lemma one_step_trans i j i' j' : one_step i j -> one_step i i' -> one_step j j' -> one_step i' j'.
  Proof. destruct i, j, i', j'; cbn; tauto. Qed.
  Lemma one_step_l i j : one_step i j -> one_step i i /\ one_step j j.
  Proof. destruct i, j; cbn; tauto. Qed.

  Variable sv : solver T S P.
  (** Updates treat related interpolators alike, and the first one makes all of them related. *)
  Hypothesis HU : forall j s t, E s t ->
    (snd (src_update (s_source sv) s j) = Ok tt ->
     E (fst (src_update (s_source sv) s j)) (fst (src_update (s_source sv) t j))) /\
    snd (src_update (s_source sv) s j) = snd (src_update (s_source sv) t j).
  Variable J : S -> Prop.
  Hypothesis H0 : forall s t, J s -> J t ->
    (snd (src_update (s_source sv) s 0) = Ok tt ->
     E (fst (src_update (s_source sv) s 0)) (fst (src_update (s_source sv) t 0))) /\
    snd (src_update (s_source sv) s 0) = snd (src_update (s_source sv) t 0).

  Lemma steps_same id n : forall i (w1 w2 : world T S P W) p,
    reachable O interpolate (w_integrator w1) -> reachable O interpolate (w_integrator w2) ->
    one_step (w_integrator w1) (w_integrator w2) ->
    (if i =? 0 then J (w_interp w1) /\ J (w_interp w2) else E (w_interp w1) (w_interp w2)) ->
    inD (positions p) ->
    exists w1' w2' p' r, run_steps O interpolate mems sv id n i w1 p = (w1', p', r) /\
      run_steps O interpolate mems sv id n i w2 p = (w2', p', r).
  Proof.
    induction n as [|n IH]; intros i w1 w2 p R1 R2 K HI Hd.
    - cbn. eauto 8.
    - cbn [run_steps].
      assert (HH : (snd (src_update (s_source sv) (w_interp w1) i) = Ok tt ->
                    E (fst (src_update (s_source sv) (w_interp w1) i)) (fst (src_update (s_source sv) (w_interp w2) i))) /\
                   snd (src_update (s_source sv) (w_interp w1) i) = snd (src_update (s_source sv) (w_interp w2) i)).
      { destruct (Nat.eqb_spec i 0) as [->|_]; [destruct HI; apply H0; assumption|apply HU, HI]. }
      destruct (src_update (s_source sv) (w_interp w1) i) as [s1 r1], (src_update (s_source sv) (w_interp w2) i) as [t1 r2].
      cbn [fst snd] in HH. destruct HH as [HE1 <-].
      destruct r1 as [[]|e]; [|eauto 8]. specialize (HE1 eq_refl).
      unfold integrate.
      destruct (integrate_E (mems (w_clock w1)) (w_integrator w1) s1 t1 (src_timestep (s_source sv)) (positions p)
                  (reachable_bufs_ok _ _ _ R1) Hd HE1)
        as (i1 & s2 & t2 & r & E1 & E2 & HE2).
      destruct (integrate_pos O interpolate (mems (w_clock w2)) (w_integrator w2) t1 (src_timestep (s_source sv)) (positions p))
        as [[i2 t3] r3] eqn:E3.
      destruct (noleak O interpolate _ _ _ _ _ _ _ _ _ _ _ _ _ R1 R2 (one_step_same _ _ K) E2 E3) as [<- <-].
      rewrite E1. destruct r as [pos'|e]; [|eauto 8].
      match goal with |- exists w1' w2' p' r, run_steps _ _ _ _ _ _ _ ?x _ = _ /\ run_steps _ _ _ _ _ _ _ ?y _ = _ =>
        apply (IH (1 + i) x y) end; cbn [w_integrator w_interp].
      + eapply reach_step; [exact R1|exact E1].
      + eapply reach_step; [exact R2|exact E3].
      + destruct (one_step_l _ _ K). eapply one_step_trans; [exact K|eapply integrate_kind; eassumption|eapply integrate_kind; eassumption].
      + cbn. exact HE2.
      + cbn [positions set_positions]. pose proof (integrate_shape O interpolate _ _ _ _ _ _ _ _ E1) as Hsh.
        apply same_shape_spec in Hsh. unfold inD. destruct Hsh as [-> ->]. exact Hd.
  Qed.

  Lemma run_same (w1 w2 : world T S P W) :
    reachable O interpolate (w_integrator w1) -> reachable O interpolate (w_integrator w2) ->
    one_step (w_integrator w1) (w_integrator w2) -> J (w_interp w1) -> J (w_interp w2) -> s_writer sv = false ->
    src_particles (s_source sv) (w_source w1) = src_particles (s_source sv) (w_source w2) ->
    (forall p, src_particles (s_source sv) (w_source w1) = Ok p -> inD (positions p)) ->
    snd (runs sv w1) = snd (runs sv w2).
  Proof.
    intros R1 R2 K J1 J2 Ew Hp Hd. unfold run. rewrite Hp in *.
    destruct (src_particles (s_source sv) (w_source w2)) as [p|e]; [|reflexivity].
    destruct (src_id (s_source sv)) as [id|e]; [|reflexivity].
    destruct (steps_same id (src_steps (s_source sv)) 0 w1 w2 p R1 R2 K (conj J1 J2) (Hd p eq_refl)) as (w1' & w2' & p' & r & E1 & E2).
    rewrite E1, E2. destruct r as [[]|e]; [|reflexivity].
    destruct (compute_ftle _ _ _ _ _); [|reflexivity]. rewrite Ew. reflexivity.
  Qed.

  (** What a run leaves behind. *)
  Hypothesis J_interp : forall s q, J s -> J (fst (interpolate s q)).
  Hypothesis J_update : forall s j, J s -> J (fst (src_update (s_source sv) s j)).
  Hypothesis Hkeep : forall x p, src_particles (s_source sv) (src_keep (s_source sv) x p) = src_particles (s_source sv) x.

  Lemma J_sample s b q s' r : J s -> sample interpolate s b q = (s', r) -> J s'.
  Proof.
    intros Hs H. unfold sample in H. pose proof (J_interp s q Hs) as H1. destruct (interpolate s q). injection H as <- _. exact H1.
  Qed.
  Lemma J_integrate mem i s h pos i' s' r : J s -> integrate_pos O interpolate mem i s h pos = (i', s', r) -> J s'.
  Proof.
    intros Hs H. destruct i as [b|p b|b]; cbn [integrate_pos] in H.
    - unfold euler_integrate in H. destruct (sample _ _ _ _) as [s1 [?|?]] eqn:E1; injection H as _ <- _; exact (J_sample _ _ _ _ _ Hs E1).
    - unfold ab2_integrate in H. destruct (sample _ _ _ _) as [s1 [?|?]] eqn:E1; pose proof (J_sample _ _ _ _ _ Hs E1) as H1.
      + destruct (match p with None => _ | Some _ => _ end); [|injection H as _ <- _; exact H1].
        destruct (copyto _ _); injection H as _ <- _; exact H1.
      + injection H as _ <- _; exact H1.
    - unfold rk4_integrate in H. destruct (match b with Some _ => _ | None => _ end) as [[[[k1 k2] k3] k4] tm].
      destruct (sample interpolate s k1 pos) as [s1 [x1|e]] eqn:E1; pose proof (J_sample _ _ _ _ _ Hs E1) as H1;
        [|injection H as _ <- _; exact H1].
      destruct (bind _ _) as [t1|e]; [|injection H as _ <- _; exact H1].
      destruct (sample interpolate s1 k2 t1) as [s2 [x2|e]] eqn:E2; pose proof (J_sample _ _ _ _ _ H1 E2) as H2;
        [|injection H as _ <- _; exact H2].
      destruct (bind _ _) as [t2|e]; [|injection H as _ <- _; exact H2].
      destruct (sample interpolate s2 k3 t2) as [s3 [x3|e]] eqn:E3; pose proof (J_sample _ _ _ _ _ H2 E3) as H3;
        [|injection H as _ <- _; exact H3].
      destruct (bind _ _) as [t3|e]; [|injection H as _ <- _; exact H3].
      destruct (sample interpolate s3 k4 t3) as [s4 [x4|e]] eqn:E4; pose proof (J_sample _ _ _ _ _ H3 E4) as H4;
        injection H as _ <- _; exact H4.
  Qed.

  Lemma steps_inv id n : forall i (w : world T S P W) p w' p' r,
    reachable O interpolate (w_integrator w) -> one_step (w_integrator w) (w_integrator w) -> J (w_interp w) ->
    run_steps O interpolate mems sv id n i w p = (w', p', r) ->
    reachable O interpolate (w_integrator w') /\ one_step (w_integrator w) (w_integrator w') /\ J (w_interp w') /\
    w_source w' = w_source w.
  Proof.
    induction n as [|n IH]; intros i w p w' p' r R K HJ H; cbn [run_steps] in H; [injection H as <- <- <-; auto|].
    pose proof (J_update (w_interp w) i HJ) as HJ1.
    destruct (src_update (s_source sv) (w_interp w) i) as [s1 [[]|e]]; [|injection H as <- <- <-; cbn; auto].
    cbn [fst] in HJ1. unfold integrate in H.
    destruct (integrate_pos O interpolate (mems (w_clock w)) (w_integrator w) s1 (src_timestep (s_source sv)) (positions p))
      as [[i1 s2] r1] eqn:E1.
    pose proof (J_integrate _ _ _ _ _ _ _ _ HJ1 E1) as HJ2.
    pose proof (integrate_kind _ _ _ _ _ _ _ _ K E1) as K1.
    pose proof (reach_step _ _ _ _ _ _ _ _ _ _ R E1) as R1.
    destruct r1 as [pos'|e]; [|injection H as <- <- <-; cbn; auto].
    apply IH in H; cbn in *; [|exact R1|apply (one_step_l _ _ K1)|exact HJ2].
    destruct H as (A1 & A2 & A3 & A4). split; [exact A1|]. split; [|auto].
    revert K1 A2. clear. destruct (w_integrator w), i1, (w_integrator w'); cbn; tauto.
  Qed.

  Lemma rerun (w : world T S P W) : reachable O interpolate (w_integrator w) ->
    one_step (w_integrator w) (w_integrator w) -> J (w_interp w) -> s_writer sv = false ->
    (forall p, src_particles (s_source sv) (w_source w) = Ok p -> inD (positions p)) ->
    snd (runs sv (fst (runs sv w))) = snd (runs sv w).
  Proof.
    intros R K HJ Ew Hd. symmetry.
    enough (G : exists w', fst (runs sv w) = w' /\ reachable O interpolate (w_integrator w') /\
              one_step (w_integrator w) (w_integrator w') /\ J (w_interp w') /\
              src_particles (s_source sv) (w_source w') = src_particles (s_source sv) (w_source w)).
    { destruct G as (w' & -> & G1 & G2 & G3 & G4). apply run_same; auto. }
    clear Hd. unfold run. destruct (src_particles (s_source sv) (w_source w)) as [p|e] eqn:Ep; [|exists w; auto 6].
    destruct (src_id (s_source sv)) as [id|e]; [|exists w; auto 6].
    destruct (run_steps O interpolate mems sv id (src_steps (s_source sv)) 0 w p) as [[w1 p1] r] eqn:Es.
    destruct (steps_inv _ _ _ _ _ _ _ _ R K HJ Es) as (A1 & A2 & A3 & A4).
    assert (G : src_particles (s_source sv) (src_keep (s_source sv) (w_source w1) p1) = Ok p)
      by (rewrite Hkeep, A4; exact Ep).
    destruct r as [[]|e]; [|eexists; split; [reflexivity|]; cbn; auto].
    destruct (compute_ftle _ _ _ _ _); [|eexists; split; [reflexivity|]; cbn; auto].
    rewrite Ew. eexists; split; [reflexivity|]; cbn; auto.
  Qed.
End Rerun.
