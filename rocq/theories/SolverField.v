(** Runs of the solver on a field sampled point by point: every arithmetic. *)
From Coq Require Import Lia.
From Verif Require Import Base Num Particles Jacobian Ftle Integrate DataSource Solver SpecFtle SpecSeeds
  SpecIntegrate IntegrateFacts IntegratePoint ParticleFacts JacobianFacts SpecSolver SolverFacts.

Section Field.
  Context {T : Type} (O : ops T) {S P W : Type}.
  Variable interpolate : S -> mat T -> S * res (mat T).
  Variable eigvals : m33 T -> res (T * T * T).
  Variable mems : nat -> memory (T := T).
  Variable write : W -> string -> list (xval T) -> mat T -> W * res unit.
  Variable I : (list T -> list T) -> S -> Prop.
  Hypothesis HI : samples_field interpolate I.
  Notation runs := (run O interpolate eigvals mems write).

  Lemma sample_I v s buf pos s' r : I v s -> sample interpolate s buf pos = (s', r) -> I v s'.
  Proof.
    intros Hs E. unfold sample in E. destruct (HI v s pos Hs) as (s1 & E1 & H1). rewrite E1 in E.
    injection E as <- _. exact H1.
  Qed.
  Lemma integrate_I mem ig v s h pos ig' s' r : I v s ->
    integrate_pos O interpolate mem ig s h pos = (ig', s', r) -> I v s'.
  Proof.
    intros Hs E. destruct ig as [b|q b|b]; cbn [integrate_pos] in E.
    - unfold euler_integrate in E. destruct (sample _ _ _ _) as [s1 [x|e]] eqn:E1; injection E as _ <- _;
        exact (sample_I _ _ _ _ _ _ Hs E1).
    - unfold ab2_integrate in E. destruct (sample _ _ _ _) as [s1 [x|e]] eqn:E1;
        pose proof (sample_I _ _ _ _ _ _ Hs E1) as H1.
      + destruct (match q with None => _ | Some _ => _ end); [|injection E as _ <- _; exact H1].
        destruct (copyto _ _); injection E as _ <- _; exact H1.
      + injection E as _ <- _; exact H1.
    - unfold rk4_integrate in E. destruct (match b with Some _ => _ | None => _ end) as [[[[k1 k2] k3] k4] t].
      destruct (sample interpolate s k1 pos) as [s1 [x1|e]] eqn:E1; pose proof (sample_I _ _ _ _ _ _ Hs E1) as H1;
        [|injection E as _ <- _; exact H1].
      destruct (bind _ _) as [t1|e]; [|injection E as _ <- _; exact H1].
      destruct (sample interpolate s1 k2 t1) as [s2 [x2|e]] eqn:E2; pose proof (sample_I _ _ _ _ _ _ H1 E2) as H2;
        [|injection E as _ <- _; exact H2].
      destruct (bind _ _) as [t2|e]; [|injection E as _ <- _; exact H2].
      destruct (sample interpolate s2 k3 t2) as [s3 [x3|e]] eqn:E3; pose proof (sample_I _ _ _ _ _ _ H2 E3) as H3;
        [|injection E as _ <- _; exact H3].
      destruct (bind _ _) as [t3|e]; [|injection E as _ <- _; exact H3].
      destruct (sample interpolate s3 k4 t3) as [s4 [x4|e]] eqn:E4; pose proof (sample_I _ _ _ _ _ _ H3 E4) as H4;
        injection E as _ <- _; exact H4.
  Qed.

  (** The loop as a history of updates and integrations. *)
  Definition loop_history (src : source T S P) (n i : nat) : list ((S -> S) * T) :=
    map (fun j => (fun s => fst (src_update src s j), src_timestep src)) (seq i n).

  Lemma steps_seq sv id v n : forall i (w : world T S P W) p w0,
    presents_fields I (s_source sv) v -> i + n <= src_steps (s_source sv) -> I w0 (w_interp w) ->
    exists w', run_steps O interpolate mems sv id n i w p =
      (w', snd (fst (integrate_seq O interpolate mems (w_clock w) (w_integrator w) (w_interp w)
                       (loop_history (s_source sv) n i) p)),
       snd (integrate_seq O interpolate mems (w_clock w) (w_integrator w) (w_interp w)
                       (loop_history (s_source sv) n i) p)) /\
      (exists v', I v' (w_interp w')) /\ w_integrator w' =
        fst (fst (fst (integrate_seq O interpolate mems (w_clock w) (w_integrator w) (w_interp w)
                       (loop_history (s_source sv) n i) p))).
  Proof.
    induction n as [|n IH]; intros i w p w0 HP Hn Hs.
    - exists w. cbn. eauto.
    - destruct (HP i w0 (w_interp w) ltac:(lia) Hs) as (s1 & Eu & Hs1).
      cbn [run_steps loop_history seq map integrate_seq]. rewrite Eu. cbn [fst].
      destruct (integrate O interpolate (mems (w_clock w)) (w_integrator w) s1 (src_timestep (s_source sv)) p)
        as [[[ig s2] p1] r] eqn:Ei.
      assert (H2 : I (v i) s2).
      { unfold integrate in Ei.
        destruct (integrate_pos O interpolate (mems (w_clock w)) (w_integrator w) s1 (src_timestep (s_source sv)) (positions p))
          as [[a b] [x|e]] eqn:E; injection Ei as _ <- _ _; exact (integrate_I _ _ _ _ _ _ _ _ _ Hs1 E). }
      destruct r as [[]|e].
      + match goal with |- context [run_steps O interpolate mems sv id n (1 + i) ?w1 p1] =>
          destruct (IH (1 + i) w1 p1 (v i) HP ltac:(lia) H2) as (w' & E & Hi' & Hg) end.
        exists w'. split; [exact E|]. split; [exact Hi'|exact Hg].
      + eexists. split; [reflexivity|]. split; [exists (v i); exact H2|reflexivity].
  Qed.

  (** Time steps of the run: field [v j] in step j. *)
  Definition run_fields (src : source T S P) (v : nat -> list T -> list T) : list ((list T -> list T) * T) :=
    map (fun j => (v j, src_timestep src)) (seq 0 (src_steps src)).

  Lemma steps_path sv id v m (w : world T S P W) p w0 :
    presents_fields I (s_source sv) v -> I w0 (w_interp w) -> w_integrator w = fresh m ->
    exists w', run_steps O interpolate mems sv id (src_steps (s_source sv)) 0 w p =
      (w', set_positions p (Mat (mcols (positions p))
             (map (path O m (run_fields (s_source sv) v)) (mrows (positions p)))), Ok tt).
  Proof.
    intros HP Hs Hf.
    destruct (steps_seq sv id v (src_steps (s_source sv)) 0 w p w0 HP ltac:(lia) Hs) as (w' & E & _ & _).
    exists w'. rewrite E. rewrite Hf.
    destruct (seq_path O interpolate I HI mems (w_clock w) m (loop_history (s_source sv) (src_steps (s_source sv)) 0)
                (run_fields (s_source sv) v) w0 (w_interp w) p) as (i' & s' & E2).
    { unfold presents, loop_history, run_fields.
      assert (H : forall k l, l + k <= src_steps (s_source sv) ->
        Forall2 (fun (a : (S -> S) * T) (b : (list T -> list T) * T) => snd a = snd b /\ forall w s, I w s -> I (fst b) (fst a s))
          (map (fun j => (fun s => fst (src_update (s_source sv) s j), src_timestep (s_source sv))) (seq l k))
          (map (fun j => (v j, src_timestep (s_source sv))) (seq l k))).
      { induction k as [|k IH]; intros l Hl; cbn; constructor.
        - split; [reflexivity|]. cbn. intros u s Hu. destruct (HP l u s ltac:(lia) Hu) as (s1 & E1 & H1).
          rewrite E1. exact H1.
        - apply IH. lia. }
      apply H. lia. }
    { exact Hs. }
    rewrite E2. reflexivity.
  Qed.

  (** The result of a run without writer. *)
  Lemma run_path sv v m (w : world T S P W) p id w0 :
    presents_fields I (s_source sv) v -> I w0 (w_interp w) -> w_integrator w = fresh m ->
    src_id (s_source sv) = Ok id -> src_particles (s_source sv) (w_source w) = Ok p -> s_writer sv = false ->
    snd (runs sv w) =
      let* f := compute_ftle O eigvals (src_steps (s_source sv)) (src_timestep (s_source sv))
        (set_positions p (Mat (mcols (positions p))
             (map (path O m (run_fields (s_source sv) v)) (mrows (positions p))))) in Ok (Some f).
  Proof.
    intros HP Hs Hf Eid Ep Ew. unfold run. rewrite Ep, Eid.
    destruct (steps_path sv id v m w p w0 HP Hs Hf) as (w' & E). rewrite E.
    destruct (compute_ftle _ _ _ _ _); [|reflexivity]. rewrite Ew. reflexivity.
  Qed.

  (* ---- locality ---- *)
  Lemma rows_image2 (F : list T -> list T) (phi : T * T -> T * T) gs :
    (forall q, F (row2 q) = row2 (phi q)) ->
    map F (mrows (layout2 gs)) = mrows (layout2 (map (image2 phi) gs)).
  Proof.
    intro H. unfold layout2, arr2. cbn [mrows]. rewrite !map_map.
    rewrite (map_ext _ (fun q => row2 (phi q))) by (intro; apply H).
    rewrite <- (map_map phi row2). f_equal. rewrite !map_app, !map_map. reflexivity.
  Qed.
  Lemma rows_image3 (F : list T -> list T) (phi : T * T * T -> T * T * T) gs :
    (forall q, F (row3 q) = row3 (phi q)) ->
    map F (mrows (layout3 gs)) = mrows (layout3 (map (image3 phi) gs)).
  Proof.
    intro H. unfold layout3, arr3. cbn [mrows]. rewrite !map_map.
    rewrite (map_ext _ (fun q => row3 (phi q))) by (intro; apply H).
    rewrite <- (map_map phi row3). f_equal. rewrite !map_app, !map_map. reflexivity.
  Qed.

  Lemma vadd_len x y : length (vadd O x y) = Nat.min (length x) (length y).
  Proof. revert y; induction x as [|a x IH]; intros [|b y]; cbn; try reflexivity. rewrite IH. reflexivity. Qed.
  Lemma vsub_len x y : length (vsub O x y) = Nat.min (length x) (length y).
  Proof. revert y; induction x as [|a x IH]; intros [|b y]; cbn; try reflexivity. rewrite IH. reflexivity. Qed.
  Lemma vscale_len c x : length (vscale O c x) = length x.
  Proof. apply map_length. Qed.

  Definition keeps_dim (d : nat) (v : list T -> list T) : Prop := forall x, length x = d -> length (v x) = d.

  Lemma path_len d m st : Forall (fun a => keeps_dim d (fst a)) st ->
    forall x, length x = d -> length (path O m st x) = d.
  Proof.
    intro H. destruct m; cbn [path].
    - induction H as [|[v h] st Hv _ IH]; intros x Hx; [exact Hx|]. cbn in *. apply IH.
      unfold textbook_euler. rewrite vadd_len, vscale_len, (Hv x Hx), Hx. lia.
    - enough (G : forall vp, (forall q, vp = Some q -> length q = d) -> forall x, length x = d -> length (ab2_path O st vp x) = d)
        by (intros x Hx; apply G; [discriminate|exact Hx]).
      induction H as [|[v h] st Hv _ IH]; intros vp Hvp x Hx; [exact Hx|]. cbn in *. apply IH.
      + intros q [= <-]. apply Hv, Hx.
      + destruct vp as [q|].
        * unfold textbook_ab2. rewrite vadd_len, vscale_len, vsub_len, !vscale_len, (Hv x Hx), (Hvp q eq_refl), Hx. lia.
        * unfold textbook_euler. rewrite vadd_len, vscale_len, (Hv x Hx), Hx. lia.
    - induction H as [|[v h] st Hv _ IH]; intros x Hx; [exact Hx|]. cbn in *. apply IH.
      unfold textbook_rk4.
      assert (L : forall c k, length k = d -> length (vadd O x (vscale O c k)) = d)
        by (intros c k Hk; rewrite vadd_len, vscale_len, Hk, Hx; lia).
      apply L. rewrite !vadd_len, !vscale_len. rewrite !Hv; [lia| | | |]; repeat first [apply L|apply Hv|exact Hx].
  Qed.

  Lemma as_map2 (F : list T -> list T) : (forall x, length x = 2 -> length (F x) = 2) ->
    exists phi, forall q, F (row2 q) = row2 (phi q).
  Proof.
    intro H. exists (fun q => match F (row2 q) with [a; b] => (a, b) | _ => q end).
    intros [x y]. specialize (H [x; y] eq_refl). cbn [row2] in *.
    destruct (F [x; y]) as [|a [|b [|c l]]]; try discriminate. reflexivity.
  Qed.
  Lemma as_map3 (F : list T -> list T) : (forall x, length x = 3 -> length (F x) = 3) ->
    exists phi, forall q, F (row3 q) = row3 (phi q).
  Proof.
    intro H. exists (fun q => match F (row3 q) with [a; b; c] => (a, b, c) | _ => q end).
    intros [[x y] z]. specialize (H [x; y; z] eq_refl). cbn [row3] in *.
    destruct (F [x; y; z]) as [|a [|b [|c [|d l]]]]; try discriminate. reflexivity.
  Qed.

  Lemma run_fields_dim d src v : (forall j, keeps_dim d (v j)) -> Forall (fun a => keeps_dim d (fst a)) (run_fields src v).
  Proof. intro H. unfold run_fields. apply Forall_forall. intros a Ha. apply in_map_iff in Ha. destruct Ha as (j & <- & _). apply H. Qed.

  (** compute_ftle of moved groups, group by group. *)
  Definition moved2 (phi : T * T -> T * T) (gs : list (group2 T)) : particles T :=
    set_positions (mk2 O gs) (layout2 (map (image2 phi) gs)).
  Definition moved3 (phi : T * T * T -> T * T * T) (gs : list (group3 T)) : particles T :=
    set_positions (mk3 O gs) (layout3 (map (image3 phi) gs)).

  Lemma jac2_moved phi gs : compute_flow_map_jacobian_2x2 O (moved2 phi gs) = mapr (fun g => jac2_group O (g, image2 phi g)) gs.
  Proof.
    unfold moved2. set (l := map (fun g => (g, image2 phi g)) gs).
    replace (mk2 O gs) with (mk2 O (map fst l))
      by (unfold l; rewrite map_map; cbn [fst]; rewrite map_id; reflexivity).
    replace (map (image2 phi) gs) with (map snd l) by (unfold l; rewrite map_map; reflexivity).
    rewrite jac2_pairs. unfold l. clear. induction gs as [|g gs IH]; cbn; [reflexivity|].
    rewrite IH. reflexivity.
  Qed.
  Lemma jac3_moved phi gs : compute_flow_map_jacobian_3x3 O (moved3 phi gs) = mapr (fun g => jac3_group O (g, image3 phi g)) gs.
  Proof.
    unfold moved3. set (l := map (fun g => (g, image3 phi g)) gs).
    replace (mk3 O gs) with (mk3 O (map fst l))
      by (unfold l; rewrite map_map; cbn [fst]; rewrite map_id; reflexivity).
    replace (map (image3 phi) gs) with (map snd l) by (unfold l; rewrite map_map; reflexivity).
    rewrite jac3_pairs. unfold l. clear. induction gs as [|g gs IH]; cbn; [reflexivity|].
    rewrite IH. reflexivity.
  Qed.

  Lemma mapr_nth {A B} (f : A -> res B) l out i a : mapr f l = Ok out -> nth_error l i = Some a ->
    exists b, f a = Ok b /\ nth_error out i = Some b.
  Proof.
    revert out i; induction l as [|x l IH]; intros out i E H; [destruct i; discriminate|]. cbn in E.
    destruct (f x) as [b|] eqn:Eb; [|discriminate]. cbn in E.
    destruct (mapr f l) as [bs|] eqn:El; [|discriminate]. injection E as <-.
    destruct i as [|i]; cbn in *; [injection H as <-; eauto|]. apply IH; [reflexivity|exact H].
  Qed.

  Lemma mapr_single {A B} (f : A -> res B) a b : f a = Ok b -> mapr f [a] = Ok [b].
  Proof. intro H. cbn. rewrite H. reflexivity. Qed.

  Lemma ftle2_local (Fs : list (m22 T)) t out : compute_ftle_2x2 O Fs t = Ok out ->
    length out = length Fs /\
    forall i F, nth_error Fs i = Some F -> exists x, nth_error out i = Some x /\ compute_ftle_2x2 O [F] t = Ok [x].
  Proof.
    unfold compute_ftle_2x2, ftle_of_eigs, max_eigenvalue_2x2, compute_cauchy_green_2x2.
    destruct (py_div O (o_one O) t) as [inv|]; [|discriminate]. cbn [bind]. intros [= <-].
    rewrite !map_map, map_length. split; [reflexivity|]. intros i F H.
    eexists. split; [apply map_nth_error; exact H|]. reflexivity.
  Qed.
  Lemma ftle3_local (Fs : list (m33 T)) t out : compute_ftle_3x3 O eigvals Fs t = Ok out ->
    length out = length Fs /\
    forall i F, nth_error Fs i = Some F -> exists x, nth_error out i = Some x /\ compute_ftle_3x3 O eigvals [F] t = Ok [x].
  Proof.
    unfold compute_ftle_3x3, ftle_of_eigs, max_eigenvalue_3x3, compute_cauchy_green_3x3.
    destruct (mapr _ _) as [es|] eqn:Ee; [|discriminate]. cbn [bind].
    destruct (py_div O (o_one O) t) as [inv|]; [|discriminate]. cbn [bind]. intros [= <-].
    rewrite map_length. split; [rewrite (mapr_length _ _ _ Ee), map_length; reflexivity|]. intros i F H.
    apply (map_nth_error (cauchy_green_3x3 O)) in H. destruct (mapr_nth _ _ _ _ _ Ee H) as (e & E1 & E2).
    cbn [map]. rewrite (mapr_single _ _ _ E1). cbn [bind map].
    eexists. split; [apply (map_nth_error (fun e => xscale O inv (log_sqrt O e)) _ _ E2)|]. reflexivity.
  Qed.

  Lemma compute_ftle_2 n h phi gs : compute_ftle O eigvals n h (moved2 phi gs) =
    let* Fs := mapr (fun g => jac2_group O (g, image2 phi g)) gs in
    compute_ftle_2x2 O Fs (o_mul O (o_ofZ O (Z.of_nat n - 1)) (o_abs O h)).
  Proof. rewrite <- jac2_moved. reflexivity. Qed.
  Lemma compute_ftle_3 n h phi gs : compute_ftle O eigvals n h (moved3 phi gs) =
    let* Fs := mapr (fun g => jac3_group O (g, image3 phi g)) gs in
    compute_ftle_3x3 O eigvals Fs (o_mul O (o_ofZ O (Z.of_nat n - 1)) (o_abs O h)).
  Proof. rewrite <- jac3_moved. reflexivity. Qed.

  Lemma run_moved2 sv v m (w : world T S P W) gs id w0 phi :
    presents_fields I (s_source sv) v -> I w0 (w_interp w) -> w_integrator w = fresh m ->
    src_id (s_source sv) = Ok id -> src_particles (s_source sv) (w_source w) = Ok (mk2 O gs) -> s_writer sv = false ->
    (forall q, path O m (run_fields (s_source sv) v) (row2 q) = row2 (phi q)) ->
    snd (runs sv w) =
      let* f := compute_ftle O eigvals (src_steps (s_source sv)) (src_timestep (s_source sv)) (moved2 phi gs) in
      Ok (Some f).
  Proof.
    intros HP Hs Hf Eid Ep Ew Hphi. rewrite (run_path sv v m w _ id w0 HP Hs Hf Eid Ep Ew).
    cbn [positions mk2]. rewrite (rows_image2 _ phi gs Hphi). reflexivity.
  Qed.
  Lemma run_moved3 sv v m (w : world T S P W) gs id w0 phi :
    presents_fields I (s_source sv) v -> I w0 (w_interp w) -> w_integrator w = fresh m ->
    src_id (s_source sv) = Ok id -> src_particles (s_source sv) (w_source w) = Ok (mk3 O gs) -> s_writer sv = false ->
    (forall q, path O m (run_fields (s_source sv) v) (row3 q) = row3 (phi q)) ->
    snd (runs sv w) =
      let* f := compute_ftle O eigvals (src_steps (s_source sv)) (src_timestep (s_source sv)) (moved3 phi gs) in
      Ok (Some f).
  Proof.
    intros HP Hs Hf Eid Ep Ew Hphi. rewrite (run_path sv v m w _ id w0 HP Hs Hf Eid Ep Ew).
    cbn [positions mk3]. rewrite (rows_image3 _ phi gs Hphi). reflexivity.
  Qed.

  Lemma run_id_ok sv (w : world T S P W) o : snd (runs sv w) = Ok o -> exists id, src_id (s_source sv) = Ok id.
  Proof.
    unfold run. destruct (src_particles _ _); [|discriminate]. destruct (src_id _) as [id|]; [eauto|discriminate].
  Qed.

  Lemma local2 sv v m (w : world T S P W) w0 gs p f :
    presents_fields I (s_source sv) v -> (forall j x, length x = 2 -> length (v j x) = 2) ->
    I w0 (w_interp w) -> w_integrator w = fresh m -> s_writer sv = false ->
    mk_particles O (layout2 gs) = Ok p -> src_particles (s_source sv) (w_source w) = Ok p ->
    snd (runs sv w) = Ok (Some f) ->
    length f = length gs /\
    forall i g, nth_error gs i = Some g -> exists x, nth_error f i = Some x /\
      snd (runs (Solver (with_particles (s_source sv) (mk_particles O (layout2 [g]))) (s_queue sv) false) w)
      = Ok (Some [x]).
  Proof.
    intros HP Hd Hs Hf Ew Hp Ep E. rewrite mk_particles_2 in Hp. injection Hp as <-.
    destruct (run_id_ok _ _ _ E) as [id Eid].
    destruct (as_map2 (path O m (run_fields (s_source sv) v))) as (phi & Hphi).
    { apply path_len. apply run_fields_dim. exact Hd. }
    rewrite (run_moved2 sv v m w gs id w0 phi HP Hs Hf Eid Ep Ew Hphi), compute_ftle_2 in E.
    destruct (mapr _ gs) as [Fs|] eqn:Em; [|discriminate]. cbn [bind] in E.
    destruct (compute_ftle_2x2 _ _ _) as [out|] eqn:Eo; [|discriminate]. cbn [bind] in E. injection E as <-.
    destruct (ftle2_local _ _ _ Eo) as [HL Hn]. split; [rewrite HL; exact (mapr_length _ _ _ Em)|].
    intros i g Hg. destruct (mapr_nth _ _ _ _ _ Em Hg) as (F & EF & HF). destruct (Hn _ _ HF) as (x & Hx & Ex).
    exists x. split; [exact Hx|].
    set (sv' := Solver _ _ _).
    assert (Ep' : src_particles (s_source sv') (w_source w) = Ok (mk2 O [g]))
      by (cbn [sv' s_source with_particles src_particles]; apply mk_particles_2).
    rewrite (run_moved2 sv' v m w [g] id w0 phi HP Hs Hf Eid Ep' eq_refl Hphi), compute_ftle_2.
    rewrite (mapr_single (fun g => jac2_group O (g, image2 phi g)) g F EF). cbn [bind]. cbn [sv' s_source with_particles src_steps src_timestep]. rewrite Ex. reflexivity.
  Qed.
  Lemma local3 sv v m (w : world T S P W) w0 gs p f :
    presents_fields I (s_source sv) v -> (forall j x, length x = 3 -> length (v j x) = 3) ->
    I w0 (w_interp w) -> w_integrator w = fresh m -> s_writer sv = false ->
    mk_particles O (layout3 gs) = Ok p -> src_particles (s_source sv) (w_source w) = Ok p ->
    snd (runs sv w) = Ok (Some f) ->
    length f = length gs /\
    forall i g, nth_error gs i = Some g -> exists x, nth_error f i = Some x /\
      snd (runs (Solver (with_particles (s_source sv) (mk_particles O (layout3 [g]))) (s_queue sv) false) w)
      = Ok (Some [x]).
  Proof.
    intros HP Hd Hs Hf Ew Hp Ep E. rewrite mk_particles_3 in Hp. injection Hp as <-.
    destruct (run_id_ok _ _ _ E) as [id Eid].
    destruct (as_map3 (path O m (run_fields (s_source sv) v))) as (phi & Hphi).
    { apply path_len. apply run_fields_dim. exact Hd. }
    rewrite (run_moved3 sv v m w gs id w0 phi HP Hs Hf Eid Ep Ew Hphi), compute_ftle_3 in E.
    destruct (mapr _ gs) as [Fs|] eqn:Em; [|discriminate]. cbn [bind] in E.
    destruct (compute_ftle_3x3 _ _ _ _) as [out|] eqn:Eo; [|discriminate]. cbn [bind] in E. injection E as <-.
    destruct (ftle3_local _ _ _ Eo) as [HL Hn]. split; [rewrite HL; exact (mapr_length _ _ _ Em)|].
    intros i g Hg. destruct (mapr_nth _ _ _ _ _ Em Hg) as (F & EF & HF). destruct (Hn _ _ HF) as (x & Hx & Ex).
    exists x. split; [exact Hx|].
    set (sv' := Solver _ _ _).
    assert (Ep' : src_particles (s_source sv') (w_source w) = Ok (mk3 O [g]))
      by (cbn [sv' s_source with_particles src_particles]; apply mk_particles_3).
    rewrite (run_moved3 sv' v m w [g] id w0 phi HP Hs Hf Eid Ep' eq_refl Hphi), compute_ftle_3.
    rewrite (mapr_single (fun g => jac3_group O (g, image3 phi g)) g F EF). cbn [bind]. cbn [sv' s_source with_particles src_steps src_timestep]. rewrite Ex. reflexivity.
  Qed.
End Field.
