(** What a run of the solver can do: every arithmetic, source, interpolator and writer. *)
From Coq Require Import Lia.
From Verif Require Import Base Num Particles Jacobian Ftle Integrate DataSource Solver SpecFtle SpecSeeds SpecIntegrate SpecSolver.

Section Facts.
  Context {T : Type} (O : ops T) {S P W : Type}.
  Variable interpolate : S -> mat T -> S * res (mat T).
  Variable eigvals : m33 T -> res (T * T * T).
  Variable mems : nat -> memory (T := T).
  Variable write : W -> string -> list (xval T) -> mat T -> W * res unit.
  Notation runs := (run O interpolate eigvals mems write).
  Notation steps := (run_steps O interpolate mems (W := W)).

  (** Messages added by steps i ... i+m-1. *)
  Definition sent (sv : solver T S P) (id : string) (i m : nat) : list message :=
    if s_queue sv then map (Progress id) (seq i m) else [].

  Lemma sent_S sv id i m q :
    (if s_queue sv then q ++ [Progress id i] else q) ++ sent sv id (1 + i) m = q ++ sent sv id i (1 + m).
  Proof. unfold sent. destruct (s_queue sv); [|reflexivity]. rewrite <- app_assoc. reflexivity. Qed.

  Lemma steps_outcome (sv : solver T S P) id k a0 n : forall i (w : world T S P W) p w' p' r,
    w_clock w = k + i ->
    advance O interpolate mems k (s_source sv) i a0 (w_integrator w, w_interp w, p) ->
    steps sv id n i w p = (w', p', r) ->
    w_source w' = w_source w /\ w_writer w' = w_writer w /\
    ((r = Ok tt /\ w_clock w' = k + (i + n) /\
      advance O interpolate mems k (s_source sv) (i + n) a0 (w_integrator w', w_interp w', p') /\
      w_queue w' = w_queue w ++ sent sv id i n) \/
     (exists e m b, r = Err e /\ m < n /\ advance O interpolate mems k (s_source sv) (i + m) a0 b /\
        blocked O interpolate mems k (s_source sv) (i + m) b e (w_integrator w', w_interp w', p') /\
        w_queue w' = w_queue w ++ sent sv id i m)).
  Proof.
    induction n as [|n IH]; intros i w p w' p' r Hk Ha E; cbn [run_steps] in E.
    - injection E as <- <- <-. split; [reflexivity|]. split; [reflexivity|]. left.
      rewrite Nat.add_0_r. split; [reflexivity|]. split; [exact Hk|]. split; [exact Ha|].
      unfold sent. destruct (s_queue sv); cbn; rewrite app_nil_r; reflexivity.
    - destruct (src_update (s_source sv) (w_interp w) i) as [s1 [[]|e]] eqn:Eu.
      + destruct (integrate O interpolate (mems (w_clock w)) (w_integrator w) s1 (src_timestep (s_source sv)) p)
          as [[[ig s2] p1] [[]|e]] eqn:Ei.
        * apply IH in E; [|cbn [w_clock]; lia|].
          2:{ cbn [w_integrator w_interp]. rewrite Hk in Ei. eapply advance_S; [exact Ha|exact Eu|exact Ei]. }
          cbn [w_source w_writer w_queue w_clock] in E. destruct E as (E1 & E2 & [(E3 & E4 & E5 & E6) | E3]).
          -- split; [exact E1|]. split; [exact E2|]. left. split; [exact E3|].
             replace (i + Datatypes.S n) with (1 + i + n) by lia. split; [lia|]. split; [exact E5|].
             rewrite E6. apply sent_S.
          -- split; [exact E1|]. split; [exact E2|]. right. destruct E3 as (e & m & b & E4 & E5 & E6 & E7 & E8).
             exists e, (1 + m), b. split; [exact E4|]. split; [lia|].
             replace (i + (1 + m)) with (1 + i + m) by lia. split; [exact E6|]. split; [exact E7|].
             rewrite E8. apply sent_S.
        * injection E as <- <- <-. split; [reflexivity|]. split; [reflexivity|]. right.
          exists e, 0, (w_integrator w, w_interp w, p). split; [reflexivity|]. split; [lia|].
          rewrite Nat.add_0_r. split; [exact Ha|]. split.
          -- right. exists s1, ig, s2, p1. rewrite <- Hk. auto.
          -- cbn. unfold sent. destruct (s_queue sv); cbn; rewrite app_nil_r; reflexivity.
      + injection E as <- <- <-. split; [reflexivity|]. split; [reflexivity|]. right.
        exists e, 0, (w_integrator w, w_interp w, p). split; [reflexivity|]. split; [lia|].
        rewrite Nat.add_0_r. split; [exact Ha|]. split.
        * left. exists s1. auto.
        * cbn. unfold sent. destruct (s_queue sv); cbn; rewrite app_nil_r; reflexivity.
  Qed.

  (** The four ways a run can end. *)
  Lemma run_outcome sv (w w' : world T S P W) r : runs sv w = (w', r) ->
    (exists e, start_fails sv w e /\ w' = w /\ r = Err e) \/
    exists id p, src_id (s_source sv) = Ok id /\ src_particles (s_source sv) (w_source w) = Ok p /\
    let adv := advance O interpolate mems (w_clock w) (s_source sv) in
    let n := src_steps (s_source sv) in
    ((exists e m b c, r = Err e /\ m < n /\ adv m (w_integrator w, w_interp w, p) b /\
        blocked O interpolate mems (w_clock w) (s_source sv) m b e c /\
        c = (w_integrator w', w_interp w', snd c) /\
        w_queue w' = w_queue w ++ sent sv id 0 m /\ w_writer w' = w_writer w /\
        w_source w' = src_keep (s_source sv) (w_source w) (snd c)) \/
     (exists p', adv n (w_integrator w, w_interp w, p) (w_integrator w', w_interp w', p') /\
        w_clock w' = w_clock w + n /\
        w_queue w' = w_queue w ++ sent sv id 0 n ++ (if s_queue sv then [Done id] else []) /\
        w_source w' = src_keep (s_source sv) (w_source w) p' /\
        ((exists e, compute_ftle O eigvals n (src_timestep (s_source sv)) p' = Err e /\
            r = Err e /\ w_writer w' = w_writer w) \/
         (exists f, compute_ftle O eigvals n (src_timestep (s_source sv)) p' = Ok f /\
            ((s_writer sv = false /\ r = Ok (Some f) /\ w_writer w' = w_writer w) \/
             (s_writer sv = true /\ exists rw,
                write (w_writer w) (append "ftle_" id) f (initial_centroid p') = (w_writer w', rw) /\
                r = (let* _ := rw in Ok None))))))).
  Proof.
    unfold run. intro E.
    destruct (src_particles (s_source sv) (w_source w)) as [p|e] eqn:Ep.
    2:{ injection E as <- <-. left. exists e. split; [left; exact Ep|]. auto. }
    destruct (src_id (s_source sv)) as [id|e] eqn:Eid.
    2:{ injection E as <- <-. left. exists e. split; [right; eauto|]. auto. }
    right. exists id, p. split; [reflexivity|]. split; [reflexivity|].
    destruct (steps sv id (src_steps (s_source sv)) 0 w p) as [[w1 p1] r1] eqn:Es.
    pose proof (steps_outcome sv id (w_clock w) (w_integrator w, w_interp w, p) _ _ _ _ _ _ _
                  (eq_sym (Nat.add_0_r _)) (advance_0 _ _ _ _ _ _) Es) as (H1 & H2 & H).
    cbn [Nat.add] in H.
    destruct H as [(-> & Hc & Ha & Hq) | (e & m & b & -> & Hm & Ha & Hb & Hq)].
    2:{ injection E as <- <-. left. exists e, m, b, (w_integrator w1, w_interp w1, p1). cbn.
        rewrite H1, H2. repeat (split; [first [reflexivity|assumption]|]). reflexivity. }
    right. exists p1.
    destruct (compute_ftle O eigvals (src_steps (s_source sv)) (src_timestep (s_source sv)) p1) as [f|e] eqn:Ef.
    2:{ injection E as <- <-. cbn. split; [exact Ha|]. split; [exact Hc|]. split.
        { rewrite Hq. destruct (s_queue sv); rewrite <- ?app_assoc, ?app_nil_r; reflexivity. }
        split; [rewrite H1; reflexivity|]. left. exists e. rewrite H2. auto. }
    destruct (s_writer sv) eqn:Ew.
    - destruct (write _ _ _ _) as [wr rw] eqn:Ewr. injection E as <- <-. cbn in *. split; [exact Ha|]. split; [exact Hc|]. split.
      { rewrite Hq. destruct (s_queue sv); rewrite <- ?app_assoc, ?app_nil_r; reflexivity. }
      split; [rewrite H1; reflexivity|]. right. exists f. split; [reflexivity|]. right. split; [reflexivity|].
      exists rw. rewrite <- H2. split; [exact Ewr|reflexivity].
    - injection E as <- <-. cbn. split; [exact Ha|]. split; [exact Hc|]. split.
      { rewrite Hq. destruct (s_queue sv); rewrite <- ?app_assoc, ?app_nil_r; reflexivity. }
      split; [rewrite H1; reflexivity|]. right. exists f. split; [reflexivity|]. left. rewrite H2. auto.
  Qed.

  Lemma compute_ftle_spec n h p r : field_of O eigvals n h p r <-> r = compute_ftle O eigvals n h p.
  Proof.
    unfold field_of, compute_ftle. destruct (num_neighbors p =? 4) eqn:E.
    - apply Nat.eqb_eq in E. split.
      + intros [H _]. specialize (H E). destruct (compute_flow_map_jacobian_2x2 O p); exact H.
      + intros ->. split; [|intro H; contradiction]. intros _.
        destruct (compute_flow_map_jacobian_2x2 O p); reflexivity.
    - apply Nat.eqb_neq in E. split.
      + intros [_ H]. specialize (H E). destruct (compute_flow_map_jacobian_3x3 O p); exact H.
      + intros ->. split; [intro H; contradiction|]. intros _.
        destruct (compute_flow_map_jacobian_3x3 O p); reflexivity.
  Qed.

  (** The steps are determined. *)
  Lemma advance_det k src n a b : advance O interpolate mems (P := P) k src n a b ->
    forall b', advance O interpolate mems k src n a b' -> b = b'.
  Proof.
    induction 1 as [a|n a ig s p s1 ig' s' p' Ha IH Hu Hi]; intros b' H'.
    - inversion H'; reflexivity.
    - inversion H' as [|? ? ig0 s0 p0 s10 ig0' s0' p0' Ha0 Hu0 Hi0]; subst. apply IH in Ha0. injection Ha0 as <- <- <-.
      rewrite Hu in Hu0. injection Hu0 as <-. rewrite Hi in Hi0. injection Hi0 as <- <- <-. reflexivity.
  Qed.
  Lemma advance_le k src n a b : advance O interpolate mems (P := P) k src n a b ->
    forall m, m <= n -> exists c, advance O interpolate mems k src m a c.
  Proof.
    induction 1 as [a|n a ig s p s1 ig' s' p' Ha IH Hu Hi]; intros m Hm.
    - replace m with 0 by lia. eexists; constructor.
    - destruct (Nat.eq_dec m (1 + n)) as [->|Hne].
      + eexists. eapply advance_S; eassumption.
      + apply IH. lia.
  Qed.
  Lemma advance_not_blocked k src n a b : advance O interpolate mems (P := P) k src n a b ->
    forall m c e d, m < n -> advance O interpolate mems k src m a c ->
      blocked O interpolate mems k src m c e d -> False.
  Proof.
    intros H m c e d Hm Hc Hb.
    destruct (advance_le _ _ _ _ _ H (1 + m) ltac:(lia)) as [x Hx].
    inversion Hx as [|? ? ig s p s1 ig' s' p' Ha Hu Hi]; subst.
    pose proof (advance_det _ _ _ _ _ Ha _ Hc) as <-.
    destruct Hb as [(s2 & E & _) | (s2 & i2 & s3 & p2 & E & E' & _)]; rewrite Hu in E; [discriminate|].
    injection E as <-. rewrite Hi in E'. discriminate.
  Qed.

  (* ---- C50 ---- *)
  Lemma run_ok sv (w w' : world T S P W) f : s_writer sv = false ->
    runs sv w = (w', Ok (Some f)) <->
    exists id p p' , src_id (s_source sv) = Ok id /\ src_particles (s_source sv) (w_source w) = Ok p /\
      advance O interpolate mems (w_clock w) (s_source sv) (src_steps (s_source sv))
        (w_integrator w, w_interp w, p) (w_integrator w', w_interp w', p') /\
      field_of O eigvals (src_steps (s_source sv)) (src_timestep (s_source sv)) p' (Ok f) /\
      w' = World (w_integrator w') (w_interp w') (src_keep (s_source sv) (w_source w) p')
             (w_queue w ++ if s_queue sv then step_messages id (src_steps (s_source sv)) ++ [Done id] else [])
             (w_writer w) (w_clock w + src_steps (s_source sv)).
  Proof.
    intro Hw. split.
    - intro E. apply run_outcome in E. destruct E as [(e & _ & _ & E) | E]; [discriminate|].
      destruct E as (id & p & Eid & Ep & [(e & m & b & c & E & _) | (p' & Ha & Hk & Hq & Hs & E)]); [discriminate|].
      exists id, p, p'. split; [exact Eid|]. split; [exact Ep|]. split; [exact Ha|].
      destruct E as [(e & _ & E & _) | (f' & Ef & [(_ & E & Ewr) | (E & _)])]; [discriminate| |congruence].
      injection E as <-. split; [apply compute_ftle_spec; congruence|].
      destruct w'. cbn in *. subst. unfold sent, step_messages. destruct (s_queue sv); reflexivity.
    - intros (id & p & p' & Eid & Ep & Ha & Hf & Ew).
      destruct (runs sv w) as [w2 r] eqn:E. pose proof E as E0. apply run_outcome in E.
      destruct E as [(e & [H | (_ & H)] & _ & _) | E]; [congruence|congruence|].
      destruct E as (id2 & p2 & Eid2 & Ep2 & E). rewrite Eid in Eid2. injection Eid2 as <-.
      rewrite Ep in Ep2. injection Ep2 as <-. cbn zeta in E.
      destruct E as [(e & m & b & c & _ & Hm & Hb & Hbl & _) | (p2 & Ha2 & Hk2 & Hq2 & Hs2 & E)].
      { exfalso. exact (advance_not_blocked _ _ _ _ _ Ha _ _ _ _ Hm Hb Hbl). }
      pose proof (advance_det _ _ _ _ _ Ha _ Ha2) as Heq. injection Heq as E1 E2 E3. subst p2.
      apply compute_ftle_spec in Hf.
      destruct E as [(e & E & _) | (f2 & E & [(_ & Er & Ewr) | (E' & _)])]; [congruence| |congruence].
      rewrite <- Hf in E. injection E as <-. subst r. f_equal.
      rewrite Ew. destruct w2; cbn in *. subst. unfold sent, step_messages. destruct (s_queue sv); reflexivity.
  Qed.

  (* ---- C53 ---- *)
  Lemma messages sv (w w' : world T S P W) r : runs sv w = (w', r) ->
    (s_queue sv = false -> w_queue w' = w_queue w) /\
    (s_queue sv = true ->
       (exists e, start_fails sv w e /\ r = Err e /\ w_queue w' = w_queue w) \/
       exists id p, src_id (s_source sv) = Ok id /\ src_particles (s_source sv) (w_source w) = Ok p /\
       let adv := advance O interpolate mems (w_clock w) (s_source sv) in
       let n := src_steps (s_source sv) in
       ((exists m e b c, m < n /\ r = Err e /\ adv m (w_integrator w, w_interp w, p) b /\
           blocked O interpolate mems (w_clock w) (s_source sv) m b e c /\
           w_queue w' = w_queue w ++ step_messages id m) \/
        ((exists b, adv n (w_integrator w, w_interp w, p) b) /\
           w_queue w' = w_queue w ++ step_messages id n ++ [Done id]))).
  Proof.
    intro E. apply run_outcome in E. split; intro Hq.
    - destruct E as [(e & _ & -> & _) | (id & p & _ & _ & E)]; [reflexivity|].
      unfold sent in E. rewrite Hq in E.
      destruct E as [(e & m & b & c & _ & _ & _ & _ & _ & E & _) | (p' & _ & _ & E & _)]; rewrite E, ?app_nil_r; reflexivity.
    - destruct E as [(e & H & -> & ->) | (id & p & Eid & Ep & E)]; [left; eauto|right].
      unfold sent in E. rewrite Hq in E. exists id, p. split; [exact Eid|]. split; [exact Ep|].
      destruct E as [(e & m & b & c & H1 & H2 & H3 & H4 & _ & H5 & _) | (p' & H1 & _ & H2 & _)].
      + left. exists m, e, b, c. auto.
      + right. split; [eauto|]. exact H2.
  Qed.

  Lemma messages_ok sv (w w' : world T S P W) o : runs sv w = (w', Ok o) -> s_queue sv = true ->
    exists id, src_id (s_source sv) = Ok id /\
      w_queue w' = w_queue w ++ step_messages id (src_steps (s_source sv)) ++ [Done id].
  Proof.
    intros E Hq. destruct (proj2 (messages _ _ _ _ E) Hq) as [(e & _ & H & _) | (id & p & Eid & _ & H)]; [discriminate|].
    exists id. split; [exact Eid|].
    destruct H as [(m & e & b & c & _ & H & _) | (_ & H)]; [discriminate|exact H].
  Qed.

  (* ---- C55 ---- *)
  Lemma outputs sv (w w' : world T S P W) r : runs sv w = (w', r) ->
    (s_writer sv = false -> w_writer w' = w_writer w /\ (forall o, r = Ok o -> exists f, o = Some f)) /\
    (s_writer sv = true ->
       (exists e, r = Err e /\ w_writer w' = w_writer w) \/
       (exists id p b f rw,
          src_id (s_source sv) = Ok id /\ src_particles (s_source sv) (w_source w) = Ok p /\
          advance O interpolate mems (w_clock w) (s_source sv) (src_steps (s_source sv))
            (w_integrator w, w_interp w, p) b /\
          field_of O eigvals (src_steps (s_source sv)) (src_timestep (s_source sv)) (snd b) (Ok f) /\
          write (w_writer w) (append "ftle_" id) f (initial_centroid p) = (w_writer w', rw) /\
          r = match rw with Ok tt => Ok None | Err e => Err e end)).
  Proof.
    intro E. apply run_outcome in E. split; intro Hw.
    - destruct E as [(e & _ & -> & ->) | (id & p & _ & _ & E)]; [split; [reflexivity|discriminate]|].
      destruct E as [(e & m & b & c & -> & _ & _ & _ & _ & _ & E & _) | (p' & _ & _ & _ & _ & E)];
        [split; [exact E|discriminate]|].
      destruct E as [(e & _ & -> & E) | (f & _ & [(_ & -> & E) | (E & _)])]; [split; [exact E|discriminate]| |congruence].
      split; [exact E|]. intros o [= <-]. eauto.
    - destruct E as [(e & _ & -> & ->) | (id & p & Eid & Ep & E)]; [left; eauto|].
      destruct E as [(e & m & b & c & -> & _ & _ & _ & _ & _ & E & _) | (p' & Ha & _ & _ & _ & E)]; [left; eauto|].
      destruct E as [(e & _ & -> & E) | (f & Ef & [(E & _) | (_ & rw & E & ->)])]; [left; eauto|congruence|].
      right. exists id, p, (w_integrator w', w_interp w', p'), f, rw.
      split; [exact Eid|]. split; [exact Ep|]. split; [exact Ha|].
      split; [apply compute_ftle_spec; symmetry; exact Ef|]. split.
      + replace (initial_centroid p) with (initial_centroid p'); [exact E|]. clear - Ha.
        enough (forall k src n a b, advance O interpolate mems (P := P) k src n a b ->
                  initial_centroid (snd b) = initial_centroid (snd a)) as H by (exact (H _ _ _ _ _ Ha)).
        clear. intros k src n a b H.
        induction H as [a|n a ig s p s1 ig' s' p' Ha IH Hu Hi]; [reflexivity|].
        rewrite <- IH. cbn. unfold integrate in Hi.
        destruct (integrate_pos _ _ _ _ _ _ _) as [[? ?] [?|?]]; injection Hi as <- <- <-; reflexivity.
      + destruct rw as [[]|]; reflexivity.
  Qed.
End Facts.
