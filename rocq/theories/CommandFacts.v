(** Lemmas for C119: which command lines are accepted. *)
From Coq Require Import Lia.
From Verif Require Import Base Num NdArray Particles Jacobian Integrate Interpolate Readers DataSource Solver Writers Batches FileRun FileUtils Hyper SpecConfig HyperFacts Manager
  Monitor Executor ManagerRun Jobs Decorators Program SpecCommand.
Open Scope string_scope.

Lemma typed_ok {A} (f : string -> res A) s x : typed f s = Ok x <-> f s = Ok x.
Proof. unfold typed. destruct (f s); split; congruence. Qed.
Lemma typed_err {A} (f : string -> res A) s e : typed f s = Err e -> e = SystemExit.
Proof. unfold typed. destruct (f s); congruence. Qed.
Lemma choice_ok l s x : choice l s = Ok x <-> x = s /\ In s l.
Proof.
  unfold choice. destruct (existsb (String.eqb s) l) eqn:E.
  - apply existsb_exists in E as (y & Hy & Ey). apply String.eqb_eq in Ey. subst y. split; [intros [= <-]; auto|intros [-> _]; reflexivity].
  - split; [discriminate|]. intros [_ H]. enough (existsb (String.eqb s) l = true) by congruence. apply existsb_exists. exists s. split; [exact H|apply String.eqb_refl].
Qed.
Lemma optional_ok {A} (f : string -> res A) o r : optional f o = Ok r <->
  match o, r with None, None => True | Some s, Some x => f s = Ok x | _, _ => False end.
Proof.
  unfold optional. destruct o as [s|]; [|destruct r; split; (congruence || tauto)].
  destruct (typed f s) as [x|e] eqn:E; cbn [bind].
  - apply (proj1 (typed_ok f s x)) in E. rewrite E. destruct r as [y|]; split; (congruence || contradiction).
  - destruct r as [y|]; [|split; [congruence|contradiction]]. split; [congruence|]. intro H. apply (proj2 (typed_ok f s y)) in H. congruence.
Qed.
Lemma optional_err {A} (f : string -> res A) o e : optional f o = Err e -> e = SystemExit.
Proof. unfold optional. destruct o as [s|]; [|discriminate]. destruct (typed f s) eqn:E; cbn; [discriminate|]. intros [= <-]. eapply typed_err, E. Qed.
Lemma required_err o e : required o = Err e -> e = SystemExit.
Proof. destruct o; cbn; congruence. Qed.
Lemma required_ok o s : required o = Ok s <-> o = Some s.
Proof. destruct o; cbn; split; congruence. Qed.

Section Command.
  Context {T : Type}.
  Variable parse_float : string -> res T.

  Lemma args_err c e : parse_args parse_float c = Err e -> e = SystemExit.
  Proof.
    unfold parse_args.
    repeat match goal with |- bind ?x _ = Err e -> _ => let E := fresh "E" in destruct x eqn:E; cbn [bind];
      [|intros [= <-]; first [eapply required_err, E|eapply typed_err, E|eapply optional_err, E]] end.
    discriminate.
  Qed.

  Lemma used_shape o t : optional parse_tuple o = Ok t -> shape_used o t.
  Proof.
    intro H. apply optional_ok in H. unfold shape_used. destruct o as [s|], t as [t|]; auto.
    apply parse_iff in H as (zs & H1 & _ & _ & H2). exists zs. auto.
  Qed.
  Lemma shape_fine o : (exists t, optional parse_tuple o = Ok t) <-> shape_option o.
  Proof.
    unfold shape_option. split.
    - intros (t & H) s ->. apply optional_ok in H. destruct t as [t|]; [|contradiction]. apply parse_iff in H as (zs & H1 & H2 & H3 & _). exists zs. auto.
    - intro H. destruct o as [s|]; [|exists None; reflexivity]. destruct (H s eq_refl) as (zs & H1 & H2 & H3). eexists (Some _). apply optional_ok.
      apply parse_iff. exists zs. eauto.
  Qed.
  Lemma word_fine l o : (exists t, optional (choice l) o = Ok t) <-> one_of l o.
  Proof.
    unfold one_of. split.
    - intros (t & H) s ->. apply optional_ok in H. destruct t as [t|]; [|contradiction]. apply choice_ok in H. tauto.
    - intro H. destruct o as [s|]; [|exists None; reflexivity]. exists (Some s). apply optional_ok. apply choice_ok. auto.
  Qed.
  Lemma word_used l o t : optional (choice l) o = Ok t -> t = o.
  Proof.
    intro H. apply optional_ok in H. destruct o as [s|], t as [t|]; try contradiction; [|reflexivity]. apply choice_ok in H as [-> _]. reflexivity.
  Qed.
  Lemma number_fine o : (exists t, optional py_int o = Ok t) <-> whole_number o.
  Proof.
    unfold whole_number. split.
    - intros (t & H) s ->. apply optional_ok in H. destruct t as [t|]; [|contradiction]. apply py_int_iff in H. exists t. exact H.
    - intro H. destruct o as [s|]; [|exists None; reflexivity]. destruct (H s eq_refl) as (z & Hz). exists (Some z). apply optional_ok, py_int_iff, Hz.
  Qed.

  Lemma args_given c a : parse_args parse_float c = Ok a -> as_given parse_float c a.
  Proof.
    unfold parse_args.
    repeat match goal with |- bind ?x _ = Ok a -> _ => let E := fresh "E" in destruct x eqn:E; cbn [bind]; [|discriminate] end.
    intros [= <-].
    repeat match goal with H : required _ = Ok _ |- _ => apply required_ok in H | H : typed ?f ?s = Ok ?x |- _ => apply (proj1 (typed_ok f s x)) in H end.
    unfold as_given. cbn [experiment_name list_velocity_files list_coordinate_files list_particle_files snapshot_timestep flow_map_period integrator_name
      interpolator_name num_processes output_format flow_grid_shape particles_grid_shape].
    repeat (split; [first [assumption|eexists; split; eassumption|eapply word_used; eassumption|idtac]|]).
    - match goal with H : optional py_int _ = Ok ?r |- _ => apply optional_ok in H; destruct (c_num_processes c), r; try contradiction; [apply py_int_iff; exact H|reflexivity] end.
    - eapply used_shape; eassumption.
    - eapply used_shape; eassumption.
  Qed.

  Lemma args_accepted c : (exists a, parse_args parse_float c = Ok a) <-> acceptable parse_float c.
  Proof.
    split.
    - intros (a & H). revert H. unfold parse_args.
      repeat match goal with |- bind ?x _ = Ok a -> _ => let E := fresh "E" in destruct x eqn:E; cbn [bind]; [|discriminate] end.
      intros _.
      repeat match goal with H : required _ = Ok _ |- _ => apply required_ok in H | H : typed ?f ?s = Ok ?x |- _ => apply (proj1 (typed_ok f s x)) in H end.
      unfold acceptable.
      repeat (split; [first [congruence|eexists _, _; split; eassumption|eapply word_fine; eexists; eassumption|eapply number_fine; eexists; eassumption|eapply shape_fine; eexists; eassumption]|]).
      eapply shape_fine; eexists; eassumption.
    - intros (A1 & A2 & A3 & A4 & (s5 & h & A5 & A5') & (s6 & p & A6 & A6') & A7 & A8 & A9 & A10 & A11 & A12).
      apply word_fine in A7 as (r7 & R7). apply word_fine in A8 as (r8 & R8). apply word_fine in A9 as (r9 & R9).
      apply number_fine in A10 as (r10 & R10). apply shape_fine in A11 as (r11 & R11). apply shape_fine in A12 as (r12 & R12).
      apply (proj2 (typed_ok parse_float _ _)) in A5', A6'. unfold parse_args. rewrite A5, A6, R7, R8, R9, R10, R11, R12.
      destruct (c_experiment_name c), (c_list_velocity_files c), (c_list_coordinate_files c), (c_list_particle_files c); try congruence.
      cbn [required bind]. rewrite A5', A6'. cbn [bind]. eexists. reflexivity.
  Qed.

  Lemma refused (O : ops T) scp imems mems eigvals texts inputs c fs : ~ acceptable parse_float c ->
    main_ends O scp parse_float imems mems eigvals texts inputs c fs (false, Err SystemExit) fs /\
    forall out fs', main_ends O scp parse_float imems mems eigvals texts inputs c fs out fs' -> out = (false, Err SystemExit) /\ fs' = fs.
  Proof.
    intro N. destruct (parse_args parse_float c) as [a|e] eqn:E; [exfalso; apply N, args_accepted; eauto|].
    pose proof (args_err c e E) as ->. split.
    - apply (init_fails O scp parse_float imems mems eigvals texts inputs c fs SystemExit). rewrite E. reflexivity.
    - intros out fs' H. destruct H as [e He|m s r Hm _ _]; [|rewrite E in Hm; discriminate].
      rewrite E in He. cbn in He. injection He as <-. split; reflexivity.
  Qed.
End Command.
