(** Length of a computed field. *)
From Coq Require Import Lia Permutation.
From Verif Require Import Base Num NdArray NdFacts Particles ParticleFacts Jacobian JacobianFacts Ftle Integrate IntegrateFacts Interpolate Readers DataSource
  Solver SpecSolver SolverFacts SolverField Writers SpecWriters WriterMain Batches FileRun AnalyticalRun
  Monitor Executor SpecExecutor ExecutorFacts ExecutorMain ExecutorProps Jobs JobFacts.

(** ** Length of the result *)

Section Length.
  Context {T : Type} (O : ops T) {S P W : Type}.
  Variable interpolate : S -> mat T -> S * res (mat T).
  Variable eigvals : m33 T -> res (T * T * T).
  Variable mems : nat -> memory (T := T).
  Variable write : W -> string -> list (xval T) -> mat T -> W * res unit.

  Lemma integrate_keeps mem i s h p i' s' p' : integrate O interpolate mem i s h p = (i', s', p', Ok tt) ->
    nrows (positions p') = nrows (positions p) /\ num_neighbors p' = num_neighbors p.
  Proof.
    unfold integrate. destruct (integrate_pos O interpolate mem i s h (positions p)) as [[i1 s1] [pos'|e]] eqn:E; [|discriminate].
    intro H. injection H as _ _ <-. apply integrate_shape in E. apply same_shape_spec in E as [E _]. split; [exact E|reflexivity].
  Qed.

  Lemma advance_keeps k (src : source T S P) n a b : advance O interpolate mems k src n a b ->
    nrows (positions (snd b)) = nrows (positions (snd a)) /\ num_neighbors (snd b) = num_neighbors (snd a).
  Proof.
    induction 1 as [a|n a ig s p s1 ig' s' p' Ha IH Hu Hi]; [auto|]. apply integrate_keeps in Hi as [E1 E2].
    cbn [snd] in *. destruct IH as [I1 I2]. split; congruence.
  Qed.

  Definition points (p : particles T) : nat := nrows (positions p) / (if num_neighbors p =? 4 then 4 else 6).

  Lemma field_length n h (p : particles T) f : compute_ftle O eigvals n h p = Ok f -> length f = points p.
  Proof.
    unfold compute_ftle, points. destruct (num_neighbors p =? 4).
    - destruct (compute_flow_map_jacobian_2x2 O p) as [Fs|] eqn:E; cbn [bind]; [|discriminate]. intro H. apply ftle2_local in H as [-> _].
      unfold compute_flow_map_jacobian_2x2 in E. destruct (delta_right_left O p); [|discriminate]. destruct (delta_top_bottom O p); [|discriminate].
      cbn [bind] in E. unfold jac2_kernel in E. apply mapr_length in E. rewrite seq_length in E. exact E.
    - destruct (compute_flow_map_jacobian_3x3 O p) as [Fs|] eqn:E; cbn [bind]; [|discriminate]. intro H. apply ftle3_local in H as [-> _].
      unfold compute_flow_map_jacobian_3x3 in E. destruct (delta_right_left O p); [|discriminate]. destruct (delta_top_bottom O p); [|discriminate].
      destruct (delta_front_back O p); [|discriminate]. cbn [bind] in E. unfold jac3_kernel in E. apply mapr_length in E. rewrite seq_length in E. exact E.
  Qed.

  Lemma run_field_length (sv : solver T S P) (w w' : world T S P W) f p : s_writer sv = false ->
    run O interpolate eigvals mems write sv w = (w', Ok (Some f)) -> src_particles (s_source sv) (w_source w) = Ok p ->
    length f = points p.
  Proof.
    intros Hw H Hp. apply run_ok in H as (id & p0 & p' & _ & Hp0 & Ha & Hf & _); [|exact Hw].
    rewrite Hp in Hp0. injection Hp0 as <-. apply compute_ftle_spec in Hf. symmetry in Hf. apply field_length in Hf. rewrite Hf.
    apply advance_keeps in Ha as [E1 E2]. cbn [snd] in *. unfold points. rewrite E1, E2. reflexivity.
  Qed.
End Length.

Lemma points_2 {T} (O : ops T) gs : points (mk2 O gs) = length gs.
Proof. unfold points. cbn [positions num_neighbors mk2 Nat.eqb]. rewrite nrows_layout2, Nat.mul_comm. apply Nat.div_mul. lia. Qed.
Lemma points_3 {T} (O : ops T) gs : points (mk3 O gs) = length gs.
Proof. unfold points. cbn [positions num_neighbors mk3 Nat.eqb]. rewrite nrows_layout3, Nat.mul_comm. apply Nat.div_mul. lia. Qed.
