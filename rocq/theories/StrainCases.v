(** Concrete runs for C137 and C138. *)
From Coq Require Import Reals Lra Lia.
From Verif Require Import Base Num Particles Jacobian Ftle Integrate DataSource Solver SpecFtle SpecSeeds SpecIntegrate
  SpecSolver SpecOrder SpecConverge SpecStrain FtleFacts2 FtleFacts3 ParticleFacts JacobianFacts SolverFacts SolverField SolverLinear IntegrateMisc
  OrderFacts OrderRK4 OrderMain ConvergeFacts ConvergeMain ConvergeCases LimitMain FrameMain StrainFacts StrainLower.
Local Open Scope R_scope.

(** A source that presents one steady field in [n] snapshots [h] apart. *)
Definition steady (v : list R -> list R) (h : R) (n : nat) (p : res (particles R)) : source R (list R -> list R) unit :=
  Source (Ok "a"%string) h n (fun _ => p) (fun u _ => u) (fun _ _ => (v, Ok tt)).
Definition lone (v : list R -> list R) (h : R) (n : nat) (p : res (particles R)) : solver R (list R -> list R) unit := Solver (steady v h n p) false false.

Lemma steady_ok v h n p : presents_fields (fun v s => s = v) (steady v h n p) (fun _ => v).
Proof. intros j w s _ _. eexists. split; reflexivity. Qed.

(** The flow towards the origin. *)
Definition sink (x : list R) : list R := map Ropp x.
Lemma coord_sink i x : coord i (sink x) = - coord i x.
Proof. unfold coord, sink. revert i. induction x as [|a x IH]; intros [|i]; cbn; [ring|ring|reflexivity|apply IH]. Qed.
Lemma sink_lipschitz d : lipschitz_field d 1 (fun _ => sink).
Proof.
  split; [intros t x E; unfold sink; rewrite map_length; exact E|]. intros t x y e Hx Hy [E N]. split; [unfold sink; rewrite !map_length; exact E|].
  intro i. rewrite !coord_sink. specialize (N i). replace (- coord i x - - coord i y) with (- (coord i x - coord i y)) by ring. rewrite Rabs_Ropp. lra.
Qed.

Lemma sink_path h n p gs : h = 1 -> (1 <= n)%nat -> path Rops MEuler (run_fields (steady sink h n gs) (fun _ => sink)) (row2 p) = row2 (0, 0).
Proof.
  intros -> Hn. destruct n as [|n]; [lia|]. destruct p as [x y]. unfold run_fields. cbn [src_steps src_timestep steady seq map path euler_path row2].
  replace (textbook_euler Rops sink 1 [x; y]) with [0; 0] by (unfold textbook_euler, sink; cbn; f_equal; [ring|f_equal; ring]).
  clear Hn. generalize 1%nat as k. induction n as [|n IH]; intro k; [reflexivity|]. cbn [seq map euler_path].
  replace (textbook_euler Rops sink 1 [0; 0]) with [0; 0] by (unfold textbook_euler, sink; cbn; f_equal; [ring|f_equal; ring]). apply IH.
Qed.

Lemma sink_value eigvals mems :
  snd (run Rops (@field_interp R) eigvals mems still (lone sink 1 2 (mk_particles Rops (layout2 [cross2]))) (start MEuler tt)) = Ok (Some [XNegInf]).
Proof.
  rewrite (run_moved2 Rops _ eigvals mems still _ field_interp_ok (lone sink 1 2 (mk_particles Rops (layout2 [cross2]))) _ MEuler (start MEuler tt) [cross2] "a"%string (fun x => x) (fun _ => (0, 0))
    (steady_ok _ _ _ _) eq_refl eq_refl eq_refl (mk_particles_2 Rops [cross2]) eq_refl (fun q => sink_path 1 2 q _ eq_refl ltac:(lia))).
  rewrite compute_ftle_2, jacs_gradients2 by (constructor; [exact cross_aligned2|constructor]). cbn [bind map].
  replace (SpecConverge.gradient2 cross2 (image2 (fun _ => (0, 0)) cross2)) with (M22 0 0 0 0) by (unfold SpecConverge.gradient2, cross2, image2; cbn; f_equal; field).
  replace (o_mul Rops _ _) with 1 by (cbn; rewrite Rabs_R1; ring).
  rewrite (ftle2_one (M22 0 0 0 0) 1 0 R1_neq_R0 spectral_zero_2). cbn [bind]. unfold ftle_value. destruct (Req_EM_T 0 0); [|lra]. destruct (Rlt_dec 0 1); [reflexivity|lra].
Qed.

Lemma sink_refutes : exists v L h n gs, 0 <= L /\ lipschitz_field 2 L (fun _ => v) /\ Forall axis_aligned2 gs /\ (2 <= n)%nat /\ h <> 0 /\
  forall eigvals mems,
    snd (run Rops (@field_interp R) eigvals mems still (lone v h n (mk_particles Rops (layout2 gs))) (start MEuler tt)) = Ok (Some [XNegInf]).
Proof.
  exists sink, 1, 1, 2%nat, [cross2]. split; [lra|]. split; [apply sink_lipschitz|]. split; [constructor; [exact cross_aligned2|constructor]|].
  split; [lia|]. split; [lra|]. exact sink_value.
Qed.
