(** Two interpolators that cannot be told apart give the same run. *)
From Coq Require Import Lia.
From Verif Require Import Base Num Particles Integrate DataSource Solver.

Section Sim.
  Context {T : Type} (O : ops T) {S1 S2 P W : Type}.
  Variable int1 : S1 -> mat T -> S1 * res (mat T).
  Variable int2 : S2 -> mat T -> S2 * res (mat T).
  Variable eigvals : Jacobian.m33 T -> res (T * T * T).
  Variable mems : nat -> memory (T := T).
  Variable write : W -> string -> list (xval T) -> mat T -> W * res unit.
  Variable E : S1 -> S2 -> Prop.
  Hypothesis HE : forall s t q, E s t -> E (fst (int1 s q)) (fst (int2 t q)) /\ snd (int1 s q) = snd (int2 t q).

  Lemma sample_sim s t b q : E s t -> exists s' t' r,
    sample int1 s b q = (s', r) /\ sample int2 t b q = (t', r) /\ E s' t'.
  Proof.
    intros H. destruct (HE s t q H) as [H1 H2]. unfold sample.
    destruct (int1 s q) as [s' r], (int2 t q) as [t' r']. cbn in *. subst r'. eauto 6.
  Qed.
  Ltac fin := eexists _, _, _, _; split; [reflexivity|split; [reflexivity|assumption]].
  Lemma integrate_sim mem i s t h pos : E s t -> exists i' s' t' r,
    integrate_pos O int1 mem i s h pos = (i', s', r) /\
    integrate_pos O int2 mem i t h pos = (i', t', r) /\ E s' t'.
  Proof.
    intros H. destruct i as [b|p b|b]; cbn [integrate_pos].
    - unfold euler_integrate. destruct (sample_sim s t (get_buffer mem 0 b pos) pos H) as (s1 & t1 & r & -> & -> & H1).
      destruct r; fin.
    - unfold ab2_integrate. destruct (sample_sim s t (get_buffer mem 0 b pos) pos H) as (s1 & t1 & r & -> & -> & H1).
      destruct r; [|fin]. destruct (match p with None => _ | Some _ => _ end); [|fin]. destruct (copyto _ _); fin.
    - unfold rk4_integrate. destruct (match b with Some _ => _ | None => _ end) as [[[[k1 k2] k3] k4] tm].
      destruct (sample_sim s t k1 pos H) as (s1 & t1 & r & -> & -> & H1). destruct r; [|fin].
      destruct (let* t0 := copyto tm pos in _) as [x1|e]; [|fin].
      destruct (sample_sim s1 t1 k2 x1 H1) as (s2 & t2 & r & -> & -> & H2). destruct r; [|fin].
      destruct (let* t0 := copyto x1 pos in _) as [x2|e]; [|fin].
      destruct (sample_sim s2 t2 k3 x2 H2) as (s3 & t3 & r & -> & -> & H3). destruct r; [|fin].
      destruct (let* t0 := copyto x2 pos in _) as [x3|e]; [|fin].
      destruct (sample_sim s3 t3 k4 x3 H3) as (s4 & t4 & r & -> & -> & H4). destruct r; fin.
  Qed.

  (** Worlds that differ in the interpolator only. *)
  Definition simW (w1 : world T S1 P W) (w2 : world T S2 P W) : Prop :=
    w_integrator w1 = w_integrator w2 /\ E (w_interp w1) (w_interp w2) /\ w_source w1 = w_source w2 /\
    w_queue w1 = w_queue w2 /\ w_writer w1 = w_writer w2 /\ w_clock w1 = w_clock w2.
  Variable src1 : source T S1 P.
  Variable src2 : source T S2 P.
  Hypothesis Hid : src_id src1 = src_id src2.
  Hypothesis Hh : src_timestep src1 = src_timestep src2.
  Hypothesis Hn : src_steps src1 = src_steps src2.
  Hypothesis Hp : forall x, src_particles src1 x = src_particles src2 x.
  Hypothesis Hk : forall x p, src_keep src1 x p = src_keep src2 x p.
  Hypothesis Hu : forall j s t, E s t -> E (fst (src_update src1 s j)) (fst (src_update src2 t j)) /\
    snd (src_update src1 s j) = snd (src_update src2 t j).
  Variable queue writer : bool.
  Notation sv1 := (Solver src1 queue writer).
  Notation sv2 := (Solver src2 queue writer).

  Lemma steps_sim id n : forall i w1 w2 p, simW w1 w2 -> exists w1' w2' p' r,
    run_steps O int1 mems sv1 id n i w1 p = (w1', p', r) /\
    run_steps O int2 mems sv2 id n i w2 p = (w2', p', r) /\ simW w1' w2'.
  Proof.
    induction n as [|n IH]; intros i w1 w2 p H; [cbn; eauto 8|].
    destruct w1 as [g1 s1 x1 q1 y1 c1], w2 as [g2 s2 x2 q2 y2 c2].
    destruct H as (H1 & H2 & H3 & H4 & H5 & H6). cbn in H1, H2, H3, H4, H5, H6. subst g2 x2 q2 y2 c2.
    cbn [run_steps s_source w_interp w_integrator w_source w_queue w_writer w_clock s_queue].
    destruct (Hu i s1 s2 H2) as [U1 U2].
    destruct (src_update src1 s1 i) as [s1' r1], (src_update src2 s2 i) as [s2' r2]. cbn in U1, U2. subst r2.
    destruct r1 as [[]|e]; [|do 4 eexists; split; [reflexivity|split; [reflexivity|]]; repeat split; exact U1].
    unfold integrate. rewrite <- Hh.
    destruct (integrate_sim (mems c1) g1 s1' s2' (src_timestep src1) (positions p) U1) as (i' & t1 & t2 & r & -> & -> & U3).
    destruct r as [pos'|e].
    - apply IH. repeat split; exact U3.
    - do 4 eexists; split; [reflexivity|split; [reflexivity|]]. repeat split; exact U3.
  Qed.
  Lemma run_sim w1 w2 : simW w1 w2 ->
    simW (fst (run O int1 eigvals mems write sv1 w1)) (fst (run O int2 eigvals mems write sv2 w2)) /\
    snd (run O int1 eigvals mems write sv1 w1) = snd (run O int2 eigvals mems write sv2 w2).
  Proof.
    intro H. unfold run. cbn [s_source s_queue s_writer].
    assert (Hx : w_source w1 = w_source w2) by apply H.
    rewrite Hp, Hx, Hid, Hn.
    destruct (src_particles src2 (w_source w2)) as [p|e]; [|split; [exact H|reflexivity]].
    destruct (src_id src2) as [id|e]; [|split; [exact H|reflexivity]].
    destruct (steps_sim id (src_steps src2) 0 w1 w2 p H) as (w1' & w2' & p' & r & -> & -> & H').
    assert (K : simW (keep sv1 w1' p') (keep sv2 w2' p')).
    { destruct H' as (A1 & A2 & A3 & A4 & A5 & A6). unfold keep. repeat split; cbn; auto. rewrite Hk, A3. reflexivity. }
    destruct r as [[]|e]; [|split; [exact K|reflexivity]].
    destruct H' as (A1 & A2 & A3 & A4 & A5 & A6).
    rewrite Hh. destruct (compute_ftle O eigvals (src_steps src2) (src_timestep src2) p') as [f|e].
    - destruct writer.
      + cbn [keep w_writer]. rewrite A5. destruct (write (w_writer w2') _ f (initial_centroid p')) as [wr r].
        split; [|reflexivity]. repeat split; cbn; auto; [rewrite Hk, A3; reflexivity|rewrite A4; reflexivity].
      + split; [|reflexivity]. repeat split; cbn; auto; [rewrite Hk, A3; reflexivity|rewrite A4; reflexivity].
    - split; [|reflexivity]. repeat split; cbn; auto; [rewrite Hk, A3; reflexivity|rewrite A4; reflexivity].
  Qed.
End Sim.
