(** C16: what integration does to the geometry attributes of the particles. *)
From Coq Require Import Lia.
From Verif Require Import Base Num Particles Integrate SpecSeeds ParticleFacts SpecIntegrate IntegrateFacts.

Section Wf.
  Context {T : Type} (O : ops T) {S : Type}.
  Variable interpolate : S -> mat T -> S * res (mat T).
  (** The interpolator returns arrays (all rows equally long). *)
  Hypothesis Hwf : forall s m s' v, interpolate s m = (s', Ok v) -> wf_mat v.

  Lemma zip_length {A B C} (f : A -> B -> C) l m : length (zip_with f l m) = Nat.min (length l) (length m).
  Proof. revert m. induction l as [|a l IH]; intros [|b m]; cbn; auto. Qed.

  Lemma mat_map2_wf {A B C} (f : A -> B -> C) a b m :
    wf_mat a -> wf_mat b -> mat_map2 f a b = Ok m -> wf_mat m.
  Proof.
    unfold mat_map2, wf_mat. intros Ha Hb. destruct (same_shape a b) eqn:E; [|discriminate].
    apply same_shape_spec in E. destruct E as [_ E]. intro H; injection H as <-. cbn [mcols mrows].
    rewrite <- E in Hb. revert Ha Hb. generalize (mrows b), (mcols a). generalize (mrows a).
    induction l as [|x l IH]; intros [|y l0] n Ha Hb; cbn; constructor.
    - rewrite zip_length. inversion Ha; inversion Hb; subst. lia.
    - inversion Ha; inversion Hb; subst. apply IH; assumption.
  Qed.

  Lemma smul_wf a (m : mat T) : wf_mat m -> wf_mat (smul O a m).
  Proof.
    unfold wf_mat, smul, mat_map. cbn. intro H. apply Forall_map.
    eapply Forall_impl; [|exact H]. cbn. intros r Hr. rewrite map_length. exact Hr.
  Qed.

  Lemma copyto_wf {A} (d s v : mat A) : wf_mat s -> copyto d s = Ok v -> wf_mat v.
  Proof.
    unfold wf_mat, copyto. intro Hs. destruct (same_shape d s) eqn:E.
    - intro H; injection H as <-. cbn. apply same_shape_spec in E. destruct E as [_ ->]. exact Hs.
    - destruct ((mcols s =? mcols d) || (mcols s =? 1)) eqn:E1; [|discriminate].
      assert (Hr : forall r : list A, length r = mcols s ->
        length (match r with [a] => repeat a (mcols d) | _ => r end) = mcols d).
      { intros r Hr. apply orb_true_iff in E1. rewrite !Nat.eqb_eq in E1.
        destruct r as [|a [|b r]]; cbn [length] in *.
        - destruct E1; lia.
        - apply repeat_length.
        - destruct E1; lia. }
      destruct (nrows s =? nrows d).
      + intro H; injection H as <-. cbn. apply Forall_map. eapply Forall_impl; [|exact Hs]. exact Hr.
      + destruct (mrows s) as [|r [|? ?]]; try discriminate. intro H; injection H as <-. cbn.
        inversion_clear Hs as [|? ? Hr1 _]. apply Forall_forall. intros x Hx. apply repeat_spec in Hx. subst x.
        apply Hr, Hr1.
  Qed.

  Lemma sample_wf s buf pos s' v : sample interpolate s buf pos = (s', Ok v) -> wf_mat v.
  Proof.
    unfold sample. destruct (interpolate s pos) as [s1 [m|e]] eqn:E; intro H; injection H as _ H;
      [|discriminate]. cbn in H. eapply copyto_wf; [|exact H]. eapply Hwf, E.
  Qed.

  Definition wf_int (i : integrator T) : Prop :=
    match i with AB2 (Some vp) _ => wf_mat vp | _ => True end.

  Lemma wf_step mem i s h pos i' s' r :
    wf_int i -> wf_mat pos -> integrate_pos O interpolate mem i s h pos = (i', s', r) ->
    wf_int i' /\ (forall pos', r = Ok pos' -> wf_mat pos').
  Proof.
    intros Hi Hp. destruct i as [b|p b|b]; cbn [integrate_pos].
    - unfold euler_integrate. destruct (sample _ _ _ _) as [s1 [v|e]] eqn:E;
        intro H; injection H as <- _ <-; (split; [exact I|]); intros pos' H; [|discriminate].
      eapply mat_map2_wf; [exact Hp| |exact H]. apply smul_wf. eapply sample_wf, E.
    - unfold ab2_integrate. destruct (sample _ _ _ _) as [s1 [v|e]] eqn:E.
      2:{ intro H; injection H as <- _ <-. split; [exact Hi|discriminate]. }
      pose proof (sample_wf _ _ _ _ _ E) as Hv.
      destruct (match p with None => _ | Some _ => _ end) as [q|e] eqn:Eq.
      2:{ intro H; injection H as <- _ <-. split; [exact Hi|discriminate]. }
      assert (Hq : wf_mat q).
      { destruct p as [vp|].
        - unfold ab2_step in Eq. destruct (msub O _ _) as [d|] eqn:Em; [|discriminate]. cbn [bind] in Eq.
          eapply mat_map2_wf; [exact Hp| |exact Eq]. apply smul_wf.
          eapply mat_map2_wf; [| |exact Em]; apply smul_wf; assumption.
        - eapply mat_map2_wf; [exact Hp| |exact Eq]. apply smul_wf, Hv. }
      destruct (copyto _ _) as [pv|e] eqn:Ec.
      2:{ intro H; injection H as <- _ <-. split; [exact Hi|discriminate]. }
      intro H; injection H as <- _ <-. split.
      + cbn. eapply copyto_wf; [exact Hv|exact Ec].
      + intros pos' H; injection H as <-. exact Hq.
    - unfold rk4_integrate. fold (rk4_bufs mem b pos).
      destruct (rk4_bufs mem b pos) as [[[[bk1 bk2] bk3] bk4] btmp].
      assert (Bad : forall (j : integrator T) (sx : S) e,
        (match j with RK4 _ => True | _ => False end) ->
        (j, sx, Err e) = (i', s', r) -> wf_int i' /\ (forall pos', r = Ok pos' -> wf_mat pos')).
      { intros j sx e Hj H; injection H as <- _ <-. split; [|discriminate]. destruct j; [contradiction..|exact I]. }
      destruct (sample _ _ bk1 _) as [s1 [k1|e]] eqn:E1; [|apply Bad; exact I].
      destruct (bind _ _) as [t1|e]; [|apply Bad; exact I].
      destruct (sample _ _ bk2 _) as [s2 [k2|e]] eqn:E2; [|apply Bad; exact I].
      destruct (bind _ _) as [t2|e]; [|apply Bad; exact I].
      destruct (sample _ _ bk3 _) as [s3 [k3|e]] eqn:E3; [|apply Bad; exact I].
      destruct (bind _ _) as [t3|e]; [|apply Bad; exact I].
      destruct (sample _ _ bk4 _) as [s4 [k4|e]] eqn:E4; [|apply Bad; exact I].
      intro H. injection H as <- _ <-. split; [exact I|]. intros pos' H. unfold rk4_step in H.
      apply sample_wf in E1, E2, E3, E4.
      destruct (madd O k1 _) as [x1|] eqn:M1; [|discriminate]. cbn [bind] in H.
      assert (W1 : wf_mat x1) by (eapply mat_map2_wf; [exact E1| |exact M1]; apply smul_wf, E2).
      destruct (madd O x1 (smul O _ k3)) as [x2|] eqn:M2; [|discriminate]. cbn [bind] in H.
      assert (W2 : wf_mat x2) by (eapply mat_map2_wf; [exact W1| |exact M2]; apply smul_wf, E3).
      destruct (madd O x2 k4) as [x3|] eqn:M3; [|discriminate]. cbn [bind] in H.
      assert (W3 : wf_mat x3) by (eapply mat_map2_wf; [exact W2|exact E4|exact M3]).
      eapply mat_map2_wf; [exact Hp| |exact H]. apply smul_wf, W3.
  Qed.

  Lemma wf_seq mems hist : forall k i s p i' s' p' r,
    wf_int i -> wf_mat (positions p) ->
    integrate_seq O interpolate mems k i s hist p = (i', s', p', r) -> wf_mat (positions p').
  Proof.
    induction hist as [|[u h] hist IH]; intros k i s p i' s' p' r Hi Hp H.
    - cbn in H. injection H as _ _ <- _. exact Hp.
    - cbn in H. unfold integrate in H.
      destruct (integrate_pos O interpolate (mems k) i (u s) h (positions p)) as [[i1 s1] [pos'|e]] eqn:E.
      + destruct (wf_step _ _ _ _ _ _ _ _ Hi Hp E) as [Hi1 Hp1]. eapply IH; [exact Hi1| |exact H].
        cbn. apply Hp1. reflexivity.
      + injection H as _ _ <- _. exact Hp.
  Qed.

  Lemma wf_layout2 (gs : list (group2 T)) : wf_mat (layout2 gs).
  Proof.
    unfold wf_mat, layout2, arr2. cbn [mcols mrows]. apply Forall_map. apply Forall_forall.
    intros [x y] _. reflexivity.
  Qed.
  Lemma wf_layout3 (gs : list (group3 T)) : wf_mat (layout3 gs).
  Proof.
    unfold wf_mat, layout3, arr3. cbn [mcols mrows]. apply Forall_map. apply Forall_forall.
    intros [[x y] z] _. reflexivity.
  Qed.

  Lemma frozen_2d name i mems k s hist gs p i' s' p' r :
    create_integrator name = Ok i -> mk_particles O (layout2 gs) = Ok p ->
    integrate_seq O interpolate mems k i s hist p = (i', s', p', r) ->
    exists gs', length gs' = length gs /\ positions p' = layout2 gs' /\
      initial_delta_right_left p' = arr2 (map (rl2 O) gs) /\
      initial_delta_top_bottom p' = arr2 (map (tb2 O) gs) /\
      initial_centroid p' = arr2 (map (mean2 O) gs) /\
      delta_right_left O p' = Ok (arr2 (map (rl2 O) gs')) /\
      delta_top_bottom O p' = Ok (arr2 (map (tb2 O) gs')) /\
      centroid O p' = Ok (arr2 (map (mean2 O) gs')).
  Proof.
    intros Hc Hp H. rewrite mk_particles_2 in Hp. injection Hp as <-.
    assert (Hi : wf_int i).
    { unfold create_integrator in Hc. destruct (String.eqb _ "ab2"); [injection Hc as <-; exact I|].
      destruct (String.eqb _ "euler"); [injection Hc as <-; exact I|].
      destruct (String.eqb _ "rk4"); [injection Hc as <-; exact I|discriminate]. }
    pose proof (wf_seq _ _ _ _ _ (mk2 O gs) _ _ _ _ Hi (wf_layout2 gs) H) as W.
    destruct (integrate_seq_frozen _ _ _ _ _ _ _ _ _ _ _ _ H) as (F1 & F2 & F3 & F4 & F5 & F6).
    apply same_shape_spec in F6. destruct F6 as [F6 F7]. cbn [positions mk2] in F6, F7.
    rewrite nrows_layout2 in F6. change (mcols (layout2 gs)) with 2 in F7.
    destruct (is_layout2 (positions p') W F7) as [gs' Hg].
    { rewrite F6. rewrite Nat.mul_comm. apply Nat.mod_mul. lia. }
    exists gs'. rewrite Hg, nrows_layout2 in F6.
    split; [lia|]. split; [exact Hg|]. rewrite F1, F2, F4. repeat split.
    - unfold delta_right_left. rewrite Hg, F5. apply drl2.
    - unfold delta_top_bottom. rewrite Hg, F5. apply dtb2.
    - unfold centroid. rewrite Hg, F5. apply cen2.
  Qed.

  Lemma frozen_3d name i mems k s hist gs p i' s' p' r :
    create_integrator name = Ok i -> mk_particles O (layout3 gs) = Ok p ->
    integrate_seq O interpolate mems k i s hist p = (i', s', p', r) ->
    exists gs', length gs' = length gs /\ positions p' = layout3 gs' /\
      initial_delta_right_left p' = arr3 (map (rl3 O) gs) /\
      initial_delta_top_bottom p' = arr3 (map (tb3 O) gs) /\
      initial_delta_front_back p' = arr3 (map (fb3 O) gs) /\
      initial_centroid p' = arr3 (map (mean3 O) gs) /\
      delta_right_left O p' = Ok (arr3 (map (rl3 O) gs')) /\
      delta_top_bottom O p' = Ok (arr3 (map (tb3 O) gs')) /\
      delta_front_back O p' = Ok (arr3 (map (fb3 O) gs')) /\
      centroid O p' = Ok (arr3 (map (mean3 O) gs')).
  Proof.
    intros Hc Hp H. rewrite mk_particles_3 in Hp. injection Hp as <-.
    assert (Hi : wf_int i).
    { unfold create_integrator in Hc. destruct (String.eqb _ "ab2"); [injection Hc as <-; exact I|].
      destruct (String.eqb _ "euler"); [injection Hc as <-; exact I|].
      destruct (String.eqb _ "rk4"); [injection Hc as <-; exact I|discriminate]. }
    pose proof (wf_seq _ _ _ _ _ (mk3 O gs) _ _ _ _ Hi (wf_layout3 gs) H) as W.
    destruct (integrate_seq_frozen _ _ _ _ _ _ _ _ _ _ _ _ H) as (F1 & F2 & F3 & F4 & F5 & F6).
    apply same_shape_spec in F6. destruct F6 as [F6 F7]. cbn [positions mk3] in F6, F7.
    rewrite nrows_layout3 in F6. change (mcols (layout3 gs)) with 3 in F7.
    destruct (is_layout3 (positions p') W F7) as [gs' Hg].
    { rewrite F6. rewrite Nat.mul_comm. apply Nat.mod_mul. lia. }
    exists gs'. rewrite Hg, nrows_layout3 in F6.
    split; [lia|]. split; [exact Hg|]. rewrite F1, F2, F3, F4. repeat split.
    - unfold delta_right_left. rewrite Hg, F5. apply drl3.
    - unfold delta_top_bottom. rewrite Hg, F5. apply dtb3.
    - unfold delta_front_back. rewrite Hg, F5. apply dfb3.
    - unfold centroid. rewrite Hg, F5. apply cen3.
  Qed.
End Wf.
