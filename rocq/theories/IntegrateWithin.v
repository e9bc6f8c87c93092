(** Runs of the solver with an interpolator that is only known inside a region: every arithmetic. *)
From Coq Require Import Lia.
From Verif Require Import Base Num Particles Jacobian Ftle Integrate DataSource Solver SpecIntegrate SpecGridRun IntegrateFacts IntegratePoint.

Section Within.
  Context {T : Type} (O : ops T) {S P W : Type} (cnt d : nat) (D : list T -> Prop).
  Variable interpolate : S -> mat T -> S * res (mat T).
  Variable I : (list T -> list T) -> S -> Prop.
  Hypothesis HI : samples_within cnt d D interpolate I.

  Lemma sample_in v s (buf : mat T) (f : list T -> list T) rows :
    I v s -> length rows = cnt -> nrows buf = length rows -> mcols buf = d -> Forall (fun r => D (f r)) rows ->
    exists s', sample interpolate s buf (Mat d (map f rows)) =
                 (s', Ok (Mat d (map (fun r => v (f r)) rows))) /\ I v s'.
  Proof.
    intros Hs Hn Hr Hc HD. unfold sample. destruct (HI v s (Mat d (map f rows)) Hs (eq_trans (map_length f rows) Hn) eq_refl) as (s' & E & Hs').
    { apply Forall_map. exact HD. }
    rewrite E. exists s'. split; [|exact Hs']. cbn [bind mrows mcols]. rewrite map_map. f_equal.
    apply copyto_same. apply same_shape_spec. unfold nrows in *. cbn. rewrite map_length. lia.
  Qed.

  Lemma euler_in mem b v s h rows : I v s -> length rows = cnt -> Forall D rows ->
    exists i' s', integrate_pos O interpolate mem (Euler b) s h (Mat d rows) =
      (Euler i', s', Ok (Mat d (map (textbook_euler O v h) rows))) /\ I v s'.
  Proof.
    intros Hs Hn HD. cbn [integrate_pos]. unfold euler_integrate.
    pose proof (get_buffer_shape mem 0 b (Mat d rows)) as Hb. apply same_shape_spec in Hb.
    destruct Hb as [Hb1 Hb2]. set (buf := get_buffer mem 0 b (Mat d rows)) in *. clearbody buf.
    destruct (sample_in v s buf (fun r => r) rows Hs Hn Hb1 Hb2 HD) as (s' & E & Hs').
    rewrite <- (map_self d rows) in E. rewrite E. eexists _, s'. split; [|exact Hs'].
    rewrite euler_step_map. reflexivity.
  Qed.

  Lemma ab2_in_first mem b v s h rows : I v s -> length rows = cnt -> Forall D rows ->
    exists b' s', integrate_pos O interpolate mem (AB2 None b) s h (Mat d rows) =
      (AB2 (Some (Mat d (map v rows))) b', s', Ok (Mat d (map (textbook_euler O v h) rows))) /\ I v s'.
  Proof.
    intros Hs Hn HD. cbn [integrate_pos]. unfold ab2_integrate.
    pose proof (get_buffer_shape mem 0 b (Mat d rows)) as Hb. apply same_shape_spec in Hb.
    destruct Hb as [Hb1 Hb2]. set (buf := get_buffer mem 0 b (Mat d rows)) in *. clearbody buf.
    destruct (sample_in v s buf (fun r => r) rows Hs Hn Hb1 Hb2 HD) as (s' & E & Hs').
    rewrite <- (map_self d rows) in E. rewrite E.
    rewrite euler_step_map. rewrite copyto_same by apply empty_like_shape.
    eexists _, s'. split; [|exact Hs']. reflexivity.
  Qed.

  Lemma ab2_in_next mem b v s h rows prev : I v s -> length rows = cnt -> length prev = length rows -> Forall D rows ->
    exists b' s', integrate_pos O interpolate mem (AB2 (Some (Mat d prev)) b) s h (Mat d rows) =
      (AB2 (Some (Mat d (map v rows))) b', s',
       Ok (Mat d (zip_with (fun x w => textbook_ab2 O v h w x) rows prev))) /\ I v s'.
  Proof.
    intros Hs Hn Hlen HD. cbn [integrate_pos]. unfold ab2_integrate.
    pose proof (get_buffer_shape mem 0 b (Mat d rows)) as Hb. apply same_shape_spec in Hb.
    destruct Hb as [Hb1 Hb2]. set (buf := get_buffer mem 0 b (Mat d rows)) in *. clearbody buf.
    destruct (sample_in v s buf (fun r => r) rows Hs Hn Hb1 Hb2 HD) as (s' & E & Hs').
    rewrite <- (map_self d rows) in E. change (fun r => v ((fun r0 => r0) r)) with v in E. rewrite E.
    cbv iota beta. change (fun r : list T => v r) with v. rewrite (ab2_step_map O d v h rows prev Hlen). rewrite copyto_same.
    2:{ apply same_shape_spec. unfold nrows. cbn. rewrite map_length. lia. }
    eexists _, s'. split; [|exact Hs']. reflexivity.
  Qed.

  Lemma rk4_in mem b v s h rows : bufs_ok (RK4 b) -> I v s -> length rows = cnt -> Forall (rk4_asks O D v h) rows ->
    exists b' s', integrate_pos O interpolate mem (RK4 b) s h (Mat d rows) =
      (RK4 b', s', Ok (Mat d (map (textbook_rk4 O v h) rows))) /\ I v s' /\ bufs_ok (RK4 b').
  Proof.
    intros Hb Hs Hn HD.
    assert (G : exists b' s', integrate_pos O interpolate mem (RK4 b) s h (Mat d rows) =
      (RK4 b', s', Ok (Mat d (map (textbook_rk4 O v h) rows))) /\ I v s').
    2:{ destruct G as (b' & s' & E & Hs'). exists b', s'. repeat split; try assumption.
        apply (integrate_bufs_ok O interpolate _ _ _ _ _ _ _ _ Hb E). }
    cbn [integrate_pos]. unfold rk4_integrate. fold (rk4_bufs mem b (Mat d rows)).
    pose proof (rk4_bufs_shape mem b (Mat d rows) Hb) as Hsh.
    destruct (rk4_bufs mem b (Mat d rows)) as [[[[bk1 bk2] bk3] bk4] btmp].
    destruct Hsh as (H1 & H2 & H3 & H4 & H5). apply same_shape_spec in H1, H2, H3, H4.
    destruct H1 as [R1 C1], H2 as [R2 C2], H3 as [R3 C3], H4 as [R4 C4].
    assert (Tmp : forall g k t, same_shape t (Mat d rows) = true ->
      (let* t0 := copyto t (Mat d rows) in madd O t0 (smul O g (Mat d (map k rows))))
      = Ok (Mat d (map (fun r => vadd O r (vscale O g (k r))) rows))).
    { intros g k t Ht. rewrite (copyto_same _ _ Ht). cbn [bind]. rewrite smul_map.
      rewrite (map_self d rows) at 1. apply madd_map. }
    assert (Sh : forall f : list T -> list T, same_shape (Mat d (map f rows)) (Mat d rows) = true).
    { intro f. apply same_shape_spec. unfold nrows. cbn. rewrite map_length. split; reflexivity. }
    destruct (sample_in v s bk1 (fun r => r) rows Hs Hn R1 C1) as (s1 & E1 & Hs1).
    { revert HD. apply Forall_impl. intros r Q. apply Q. }
    rewrite <- (map_self d rows) in E1. rewrite E1. rewrite (Tmp _ _ _ H5).
    match goal with |- context [sample interpolate s1 bk2 (Mat d (map ?f rows))] =>
      destruct (sample_in v s1 bk2 f rows Hs1 Hn R2 C2) as (s2 & E2 & Hs2); [|rewrite E2] end.
    { revert HD. apply Forall_impl. intros r Q. apply Q. }
    rewrite (Tmp _ _ _ (Sh _)).
    match goal with |- context [sample interpolate s2 bk3 (Mat d (map ?f rows))] =>
      destruct (sample_in v s2 bk3 f rows Hs2 Hn R3 C3) as (s3 & E3 & Hs3); [|rewrite E3] end.
    { revert HD. apply Forall_impl. intros r Q. apply Q. }
    rewrite (Tmp _ _ _ (Sh _)).
    match goal with |- context [sample interpolate s3 bk4 (Mat d (map ?f rows))] =>
      destruct (sample_in v s3 bk4 f rows Hs3 Hn R4 C4) as (s4 & E4 & Hs4); [|rewrite E4] end.
    { revert HD. apply Forall_impl. intros r Q. apply Q. }
    eexists _, s4. split; [|exact Hs4]. f_equal.
    unfold rk4_step. rewrite !smul_map, madd_map. cbn [bind]. rewrite madd_map. cbn [bind].
    rewrite madd_map. cbn [bind]. rewrite smul_map. rewrite (map_self d rows) at 1. rewrite madd_map.
    reflexivity.
  Qed.

  (* ---- the loop of the solver ---- *)
  Variable mems : nat -> memory (T := T).
  Variable K : nat -> S -> Prop.
  Hypothesis HK : forall j v s, I v s -> K (1 + j) s.
  Variables (sv : solver T S P) (f : nat -> list T -> list T).
  Hypothesis Hup : forall j s, j < src_steps (s_source sv) -> K j s -> exists s', src_update (s_source sv) s j = (s', Ok tt) /\ I (f j) s'.
  Let h := src_timestep (s_source sv).
  Definition from_step (i n : nat) : list ((list T -> list T) * T) := map (fun j => (f j, h)) (seq i n).

  Lemma loop_euler id n : forall i (w : world T S P W) p b, i + n <= src_steps (s_source sv) -> K i (w_interp w) -> w_integrator w = Euler b ->
    mcols (positions p) = d -> length (mrows (positions p)) = cnt -> Forall (euler_asks O D (from_step i n)) (mrows (positions p)) ->
    exists w', run_steps O interpolate mems sv id n i w p =
      (w', set_positions p (Mat d (map (euler_path O (from_step i n)) (mrows (positions p)))), Ok tt).
  Proof.
    induction n as [|n IH]; intros i w p b Hn Hk Hb Hc Hl HD.
    - exists w. cbn. rewrite map_id. destruct p as [[? ?] ? ? ? ? ?]; cbn in *; subst; reflexivity.
    - cbn [run_steps]. destruct (Hup i (w_interp w) ltac:(lia) Hk) as (s1 & E1 & Hs1). rewrite E1. unfold integrate.
      destruct (positions p) as [c rows] eqn:Ep. cbn [mcols mrows] in *. subst c. rewrite Hb.
      assert (D1 : Forall D rows) by (revert HD; apply Forall_impl; intros r Q; apply Q).
      destruct (euler_in (mems (w_clock w)) b (f i) s1 h rows Hs1 Hl D1) as (b1 & s2 & E2 & Hs2).
      fold h. rewrite E2.
      match goal with |- context [run_steps O interpolate mems sv id n (1 + i) ?w1 ?p1] =>
        destruct (IH (1 + i) w1 p1 b1) as (w' & E); [lia|exact (HK _ _ _ Hs2)|reflexivity|destruct p; reflexivity|cbn [set_positions Particles.positions mrows]; rewrite map_length; exact Hl| |] end.
      { cbn [set_positions Particles.positions mrows]. apply Forall_map. revert HD. apply Forall_impl. intros r Q. apply Q. }
      rewrite E. exists w'. cbn [set_positions Particles.positions mrows]. rewrite map_map. reflexivity.
  Qed.

  Lemma loop_rk4 id n : forall i (w : world T S P W) p b, i + n <= src_steps (s_source sv) -> K i (w_interp w) -> w_integrator w = RK4 b ->
    bufs_ok (RK4 b) -> mcols (positions p) = d -> length (mrows (positions p)) = cnt -> Forall (rk4_path_asks O D (from_step i n)) (mrows (positions p)) ->
    exists w', run_steps O interpolate mems sv id n i w p =
      (w', set_positions p (Mat d (map (rk4_path O (from_step i n)) (mrows (positions p)))), Ok tt).
  Proof.
    induction n as [|n IH]; intros i w p b Hn Hk Hb Hbo Hc Hl HD.
    - exists w. cbn. rewrite map_id. destruct p as [[? ?] ? ? ? ? ?]; cbn in *; subst; reflexivity.
    - cbn [run_steps]. destruct (Hup i (w_interp w) ltac:(lia) Hk) as (s1 & E1 & Hs1). rewrite E1. unfold integrate.
      destruct (positions p) as [c rows] eqn:Ep. cbn [mcols mrows] in *. subst c. rewrite Hb.
      assert (D1 : Forall (rk4_asks O D (f i) h) rows) by (revert HD; apply Forall_impl; intros r Q; apply Q).
      destruct (rk4_in (mems (w_clock w)) b (f i) s1 h rows Hbo Hs1 Hl D1) as (b1 & s2 & E2 & Hs2 & Hb1).
      fold h. rewrite E2.
      match goal with |- context [run_steps O interpolate mems sv id n (1 + i) ?w1 ?p1] =>
        destruct (IH (1 + i) w1 p1 b1) as (w' & E); [lia|exact (HK _ _ _ Hs2)|reflexivity|exact Hb1|destruct p; reflexivity|cbn [set_positions Particles.positions mrows]; rewrite map_length; exact Hl| |] end.
      { cbn [set_positions Particles.positions mrows]. apply Forall_map. revert HD. apply Forall_impl. intros r Q. apply Q. }
      rewrite E. exists w'. cbn [set_positions Particles.positions mrows]. rewrite map_map. reflexivity.
  Qed.

  Lemma Forall_zip {A B C} (Q : C -> Prop) (g : A -> B -> C) l m : Forall2 (fun a b => Q (g a b)) l m -> Forall Q (zip_with g l m).
  Proof. induction 1; cbn; constructor; assumption. Qed.
  Lemma zip_length {A B C} (g : A -> B -> C) l m : length m = length l -> length (zip_with g l m) = length l.
  Proof. revert m. induction l as [|a l IH]; intros [|b m] H; cbn in *; try discriminate; [reflexivity|]. f_equal. apply IH. lia. Qed.

  Lemma Forall2_zip_map {A B C E} (Q : C -> E -> Prop) (g : A -> B -> C) (k : A -> E) l m :
    Forall2 (fun a b => Q (g a b) (k a)) l m -> Forall2 Q (zip_with g l m) (map k l).
  Proof. induction 1; cbn; constructor; assumption. Qed.

  Lemma loop_ab2 id n : forall i (w : world T S P W) p b prev, i + n <= src_steps (s_source sv) -> K i (w_interp w) ->
    w_integrator w = AB2 (Some (Mat d prev)) b -> mcols (positions p) = d -> length (mrows (positions p)) = cnt ->
    Forall2 (fun x q => ab2_asks O D (from_step i n) (Some q) x) (mrows (positions p)) prev ->
    exists w', run_steps O interpolate mems sv id n i w p =
      (w', set_positions p (Mat d (zip_with (fun x q => ab2_path O (from_step i n) (Some q) x) (mrows (positions p)) prev)), Ok tt).
  Proof.
    induction n as [|n IH]; intros i w p b prev Hn Hk Hb Hc Hl HD.
    - exists w. cbn. destruct p as [[c rows] ? ? ? ? ?]; cbn in *; subst c.
      replace (zip_with (fun x _ => x) rows prev) with rows; [reflexivity|].
      clear - HD. induction HD; cbn; [reflexivity|]. f_equal. assumption.
    - cbn [run_steps]. destruct (Hup i (w_interp w) ltac:(lia) Hk) as (s1 & E1 & Hs1). rewrite E1. unfold integrate.
      destruct (positions p) as [c rows] eqn:Ep. cbn [mcols mrows] in *. subst c. rewrite Hb.
      assert (Hlen : length prev = length rows) by (symmetry; clear - HD; induction HD; cbn; [reflexivity|]; f_equal; assumption).
      assert (D1 : Forall D rows) by (clear - HD; induction HD as [|? ? ? ? Q]; constructor; [apply Q|assumption]).
      destruct (ab2_in_next (mems (w_clock w)) b (f i) s1 h rows prev Hs1 Hl Hlen D1) as (b1 & s2 & E2 & Hs2).
      fold h. rewrite E2.
      match goal with |- context [run_steps O interpolate mems sv id n (1 + i) ?w1 ?p1] =>
        destruct (IH (1 + i) w1 p1 b1 (map (f i) rows)) as (w' & E); [lia|exact (HK _ _ _ Hs2)|reflexivity|destruct p; reflexivity|cbn [set_positions Particles.positions mrows]; rewrite zip_length by exact Hlen; exact Hl| |] end.
      { cbn [set_positions Particles.positions mrows]. apply Forall2_zip_map. clear - HD.
        induction HD as [|? ? ? ? Q]; constructor; [apply Q|assumption]. }
      rewrite E. exists w'. cbn [set_positions Particles.positions mrows].
      rewrite ab2_zip_path by exact Hlen. reflexivity.
  Qed.

  Lemma loop_within id m n (w : world T S P W) p : n = src_steps (s_source sv) -> K 0 (w_interp w) -> w_integrator w = fresh m ->
    mcols (positions p) = d -> length (mrows (positions p)) = cnt -> Forall (asks O D m (from_step 0 n)) (mrows (positions p)) ->
    exists w', run_steps O interpolate mems sv id n 0 w p =
      (w', set_positions p (Mat d (map (path O m (from_step 0 n)) (mrows (positions p)))), Ok tt).
  Proof.
    intros En Hk Hm Hc Hl HD. destruct m; cbn [fresh path asks] in *.
    - apply loop_euler with (b := None); try assumption. lia.
    - destruct n as [|n].
      + exists w. cbn. rewrite map_id. destruct p as [[? ?] ? ? ? ? ?]; cbn in *; subst; reflexivity.
      + cbn [run_steps]. destruct (Hup 0 (w_interp w) ltac:(lia) Hk) as (s1 & E1 & Hs1). rewrite E1. unfold integrate.
        destruct (positions p) as [c rows] eqn:Ep. cbn [mcols mrows] in *. subst c. rewrite Hm.
        assert (D1 : Forall D rows) by (revert HD; apply Forall_impl; intros r Q; apply Q).
        destruct (ab2_in_first (mems (w_clock w)) None (f 0) s1 h rows Hs1 Hl D1) as (b1 & s2 & E2 & Hs2).
        fold h. rewrite E2.
        match goal with |- context [run_steps O interpolate mems sv id n (1 + 0) ?w1 ?p1] =>
          destruct (loop_ab2 id n 1 w1 p1 b1 (map (f 0) rows)) as (w' & E); [lia|exact (HK _ _ _ Hs2)|reflexivity|destruct p; reflexivity|cbn [set_positions Particles.positions mrows]; rewrite map_length; exact Hl| |] end.
        { cbn [set_positions Particles.positions mrows]. clear - HD. induction HD as [|? ? Q]; cbn; constructor; [apply Q|assumption]. }
        change (1 + 0) with 1 at 1. rewrite E. exists w'. cbn [set_positions Particles.positions mrows].
        rewrite zip_map_map. reflexivity.
    - apply loop_rk4 with (b := None); try assumption; [lia|exact Logic.I].
  Qed.
End Within.
