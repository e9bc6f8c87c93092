(** Whole tasks of the file workflow in binary64, with an interpolator that is accurate in a region of the plane. *)
From Coq Require Import Reals Lia Lra Psatz Floats.
From Flocq Require Import Core BinarySingleNaN PrimFloat.
From Verif Require Import Base Num NdArray Particles Jacobian Ftle Integrate GridInterp Interpolate Readers DataSource Solver FileRun SpecSeeds SpecInterp SpecFtle SpecGrid
  SpecFiles SpecIntegrate SpecOrder SpecConverge SpecFloat64 SpecAccuracy SpecFloatGrid SpecFloatJac SpecRounding SpecFloatRun SpecGridRun SpecScatter ParticleFacts ReaderFacts GridPlace HighPerfFacts OrderFacts
  OrderRK4 IntegrateReal SolverFacts SolverField IntegrateWithin FloatArith FloatGrid FloatKernel FloatAxis FloatPlace FloatVec FloatSteps FloatPath FloatRuns FloatFtleRun FloatRegion
  GridRunField GridRunFiles GridRunMain.
Local Open Scope R_scope.

Definition in_region (D : R * R -> Prop) (x : list PrimFloat.float) : Prop := exists q, stands x (row2 q) /\ D q.

Section Point.
  Context (lnF : PrimFloat.float -> PrimFloat.float).
  Local Notation O := (Fops lnF).
  Variables (D : R * R -> Prop) (m : method) (B M delta L rho h : R) (n : nat) (hF : PrimFloat.float).
  Hypothesis Ht : tame_on_grid m B M delta L rho n h.
  Hypothesis Rh : represents hF h.
  Hypothesis HB : bounded_by B D.
  Variables (f : nat -> list PrimFloat.float -> list PrimFloat.float) (v : nat -> list R -> list R).
  Hypothesis Hev : forall k, (k < n)%nat -> forall x q, stands x (row2 q) -> D q -> exists V, stands (f k x) V /\ near delta V (v k (row2 q)).
  Hypothesis Hsp : forall k, (k < n)%nat -> forall q, D q -> sized M (v k (row2 q)).
  Hypothesis Hlip : forall k, (k < n)%nat -> lipschitz_field 2 L (fun _ => v k).

  Lemma region_point x q : stands x (row2 q) -> clearance rho D q ->
    asks O (in_region D) m (steps f hF n) x /\
    exists Y, stands (path O m (steps f hF n) x) Y /\ near (rounding_bound n h delta B L) Y (path Rops m (steps v h n) (row2 q)).
  Proof.
    intros Sx Cq. destruct Ht as (HB1 & HM & Hd & HL & Hn2 & Hn & Hper & H6 & Hrho & Hm).
    assert (B1 : bpow radix2 (-100) <= B <= bpow radix2 800).
    { rewrite (pow_bpow 100), (pow_bpow 800), <- bpow_opp in HB1. exact HB1. }
    assert (M1 : bpow radix2 (-500) <= M).
    { destruct HM as [HM _]. rewrite (pow_bpow 500), <- bpow_opp in HM. exact HM. }
    assert (P1 : M + delta <= bpow radix2 800).
    { change 800%Z with (Z.of_nat 800). rewrite <- pow_bpow. change (2 ^ 800) with (2 * 2 ^ 799). lra. }
    assert (N2 : 2 <= INR n) by (change 2 with (INR 2); apply le_INR; exact Hn2). pose proof (Rabs_pos h) as H0.
    assert (h1 : Rabs h <= bpow radix2 800).
    { change 800%Z with (Z.of_nat 800). rewrite <- pow_bpow. apply Rle_trans with (2 ^ 199); [|apply Rle_pow; [lra|lia]].
      eapply Rle_trans; [|apply Hper]. rewrite <- (Rmult_1_l (Rabs h)) at 1. apply Rmult_le_compat_r; lra. }
    assert (BP : 0 < B) by (pose proof (bpow_gt_0 radix2 (-100)); lra).
    assert (MP : 0 < M) by (pose proof (bpow_gt_0 radix2 (-500)); lra).
    assert (EG : growth B M delta h = 2 * (Rabs h * (M + delta)) + B / 2 ^ 51).
    { unfold growth. f_equal. unfold Rdiv. rewrite pow_bpow, <- bpow_opp, uround_bpow. change 4 with (bpow radix2 2). rewrite <- bpow_plus.
      change (2 + -53)%Z with (- Z.of_nat 51)%Z. ring. }
    assert (G0 : 0 <= INR n * growth B M delta h).
    { apply Rmult_le_pos; [apply pos_INR|]. rewrite EG. assert (0 < 2 ^ 51) by (apply pow_lt; lra).
      assert (0 <= Rabs h * (M + delta)) by (apply Rmult_le_pos; lra). assert (0 < B / 2 ^ 51) by (apply Rdiv_lt_0_compat; assumption). lra. }
    assert (REG : forall X, near rho X (row2 q) -> exists p, X = row2 p /\ D p).
    { intros X NX. destruct (near_row2_coords _ _ _ NX) as (p & -> & D1 & D2). exists p. split; [reflexivity|exact (Cq p D1 D2)]. }
    assert (RB : forall X, near rho X (row2 q) -> sized B X).
    { intros X NX. destruct (REG X NX) as ([a b] & -> & I). destruct (HB _ I) as [I1 I2]. cbn [fst snd] in I1, I2.
      intros [|[|k]]; cbn [coord nth row2]; [exact I1|exact I2|]. unfold coord. destruct k; cbn [nth]; rewrite Rabs_R0; lra. }
    assert (FLD : forall k, (k < n)%nat ->
      (forall x X, stands x X -> near rho X (row2 q) -> exists V, stands (f k x) V /\ near delta V (v k X)) /\
      (forall X, near rho X (row2 q) -> sized M (v k X)) /\ lipschitz_field 2 L (fun _ => v k)).
    { intros k Hk. split; [|split; [|exact (Hlip k Hk)]].
      - intros y X Sy NX. destruct (REG X NX) as (p & -> & I). exact (Hev k Hk y p Sy I).
      - intros X NX. destruct (REG X NX) as (p & -> & I). exact (Hsp k Hk p I). }
    destruct (history_D lnF 2 B M delta L h hF (row2 q) rho B1 M1 (proj1 Hd) HL P1 h1 H6 Rh) with (N := n) (f := f) (v := v) (m := m) (n := n) (x := x) (X := row2 q) (A := 0)
      as (A1 & Y & SY & NY); try assumption; [destruct q; reflexivity|exact (le_n _)|apply near_refl|rewrite EG; lra|].
    split.
    - revert A1. apply asks_mono. intros z (Z & SZ & NZ). destruct (REG Z NZ) as (p & -> & I). exists p. auto.
    - exists Y. split; [exact SY|]. eapply near_le; [apply (NY 0 (row2 q)); [destruct q; reflexivity|apply near_refl]|].
      assert (HdP : 0 <= Rabs h * delta) by (apply Rmult_le_pos; lra). assert (HhL : 0 <= Rabs h * L) by (apply Rmult_le_pos; lra).
      assert (U0 : 0 < uround * B) by (apply Rmult_lt_0_compat; [destruct uround_val; lra|lra]).
      eapply Rle_trans; [apply (accumulate_bound _ _ _ _ (2 * (Rabs h * L)))|].
      + unfold spread. lra.
      + unfold fresh_error. lra.
      + lra.
      + unfold spread. eapply Rle_trans; [|apply exp_ge]. lra.
      + rewrite Rplus_0_l. apply Req_le. unfold fresh_error, rounding_bound.
        replace (B / 2 ^ 50) with (8 * uround * B).
        * f_equal; [ring|]. f_equal. ring.
        * unfold Rdiv. rewrite pow_bpow, <- bpow_opp, uround_bpow. change 8 with (bpow radix2 3). rewrite <- bpow_plus. change (3 + -53)%Z with (- Z.of_nat 50)%Z. ring.
  Qed.
End Point.

Section Run.
  Context (lnF : PrimFloat.float -> PrimFloat.float) (scp : scipy PrimFloat.float) (imems : nat -> memory (T := PrimFloat.float)) {W : Type}.
  Variable eigvals : m33 PrimFloat.float -> res (PrimFloat.float * PrimFloat.float * PrimFloat.float).
  Variable mems : nat -> memory (T := PrimFloat.float).
  Variable write : W -> string -> list (xval PrimFloat.float) -> mat PrimFloat.float -> W * res unit.
  Local Notation O := (Fops lnF).

  (** The interpolator knows the field [f k] after the k-th update ([knows]), if it was [ready] before. *)
  Lemma region_run : forall fs (D : R * R -> Prop) (knows : (list PrimFloat.float -> list PrimFloat.float) -> istate scp -> Prop) (ready : nat -> istate scp -> Prop)
      m B M delta L rho n h hF v f,
    accurate_log lnF -> tame_on_grid m B M delta L rho n h -> represents hF h -> bounded_by B D ->
    (forall k, (k < n)%nat -> lipschitz_field 2 L (fun _ => v k)) ->
    (forall k, (k < n)%nat -> forall q, D q -> sized M (v k (row2 q))) ->
    forall src first rest seeds gs Gs,
    snapshot_files src = first :: rest -> length (first :: rest) = n -> snapshot_timestep src = hF -> file_id src = Text.stem first ->
    (forall cnt, cnt <> 3%nat -> samples_within cnt 2 (in_region D) (i_interpolate O scp imems) knows) ->
    (forall j g s, knows g s -> ready (1 + j)%nat s) ->
    (forall k, (k < n)%nat -> (forall x, length x = 2%nat -> length (f k x) = 2%nat) /\
      (forall s, ready k s -> exists s', src_update (file_task O scp fs src) s k = (s', Ok tt) /\ knows (f k) s') /\
      (forall x q, stands x (row2 q) -> D q -> exists V, stands (f k x) V /\ near delta V (v k (row2 q)))) ->
    fs (particle_file src) = Ok seeds -> holds_seeds gs seeds -> Forall2 seated2 gs Gs -> Forall spaced2 Gs ->
    Forall (fun G => Forall (clearance rho D) (corners2 G)) Gs ->
    forall phi E0 E, 0 <= E0 -> E = rounding_bound n h delta B L + E0 -> E <= 2 ^ 199 ->
    (forall G x, In G Gs -> In x (corners2 G) -> near E0 (path Rops m (steps v h n) (row2 x)) (row2 (phi x))) ->
    Forall (fun G => exists s, resolved2 E phi G s) Gs ->
    forall queue writer (w : world PrimFloat.float (istate scp) unit W),
    ready 0%nat (w_interp w) -> w_integrator w = fresh m ->
    exists xs,
      Forall2 (fun G x => exists s, spectral_norm_2 (gradient2 G (image2 phi G)) s /\ ftle_within E (side2 G) s ((INR n - 1) * Rabs h) x) Gs xs /\
      let r := file_worker O scp imems eigvals mems write fs src queue writer w in
      (writer = false -> snd r = Ok (Some (map XVal xs))) /\
      (writer = true -> let rw := write (w_writer w) (append "ftle_" (Text.stem first)) (map XVal xs) (arr2 (map (mean2 O) gs)) in
       w_writer (fst r) = fst rw /\ snd r = (let* _ := snd rw in Ok None)).
  Proof.
    intros fs D knows ready m B M delta L rho n h hF v f Hln Ht Rh HB HL Hsp src first rest seeds gs Gs F1 En F4 F5 Hkn Hrd Hf
      Eseeds Hseeds HG HS HC phi E0 E HE0 EE HE Hphi HR queue writer w Hi Hm.
    pose proof Ht as (_ & HM & Hd & HL0 & Hn2 & Hn & Hper & _).
    assert (PTS : forall x q, stands x (row2 q) -> clearance rho D q ->
      asks O (in_region D) m (steps f hF n) x /\
      exists Y, stands (path O m (steps f hF n) x) Y /\ near (rounding_bound n h delta B L) Y (path Rops m (steps v h n) (row2 q))).
    { apply (region_point lnF D m B M delta L rho h n hF Ht Rh HB f v); [|exact Hsp|exact HL].
      intros k Hk x q Sx I. exact (proj2 (proj2 (Hf k Hk)) x q Sx I). }
    (* the particles *)
    destruct Hseeds as (S1 & S2 & S3 & S4 & S5). destruct (seeds_2d O seeds gs S1 S2 S3 S4 S5) as (p & Ep & Emk).
    rewrite mk_particles_2 in Emk. injection Emk as <-.
    set (sv := Solver (file_task O scp fs src) queue writer).
    assert (Esteps : src_steps (s_source sv) = n) by (cbn [sv s_source file_task file_batch src_steps]; rewrite F1; exact En).
    assert (Etime : src_timestep (s_source sv) = hF) by (cbn [sv s_source file_task file_batch src_timestep]; exact F4).
    assert (Epart : src_particles (s_source sv) (w_source w) = Ok (mk2 O gs)).
    { cbn [sv s_source file_task file_batch src_particles]. rewrite Eseeds. cbn [bind]. exact Ep. }
    assert (Eid : src_id (s_source sv) = Ok (Text.stem first)) by (cbn [sv s_source file_task file_batch src_id]; rewrite F5; reflexivity).
    (* the map of one point *)
    destruct (as_map2 (path O m (steps f hF n))) as (psi & Hpsi).
    { intros x Hx. destruct (Forall_forall (fun a => keeps_dim 2 (fst a)) (steps (fun k x => if (k <? n)%nat then f k x else x) hF n)) as [_ KD].
      replace (steps f hF n) with (steps (fun k x => if (k <? n)%nat then f k x else x) hF n).
      - apply path_len; [|exact Hx]. apply KD. intros a Ha. unfold steps in Ha. apply in_map_iff in Ha. destruct Ha as (k & <- & Hk). apply in_seq in Hk.
        cbn [fst]. intros z Hz. destruct (Nat.ltb_spec k n); [|lia]. apply (proj1 (Hf k ltac:(lia))). exact Hz.
      - unfold steps. apply map_ext_in. intros k Hk. apply in_seq in Hk. f_equal. destruct (Nat.ltb_spec k n); [reflexivity|lia]. }
    (* the images *)
    assert (RB : 0 <= rounding_bound n h delta B L).
    { unfold rounding_bound. apply Rmult_le_pos; [|left; apply exp_pos]. apply Rmult_le_pos; [apply pos_INR|].
      pose proof Ht as ((HB0 & _) & _). assert (0 < / 2 ^ 100) by (apply Rinv_0_lt_compat, pow_lt; lra).
      assert (0 <= B / 2 ^ 50) by (apply Rmult_le_pos; [lra|left; apply Rinv_0_lt_compat, pow_lt; lra]).
      assert (0 <= 2 * Rabs h * delta) by (apply Rmult_le_pos; [pose proof (Rabs_pos h); lra|apply Hd]). lra. }
    destruct (images_F psi phi E (fun X => exists G, In G Gs /\ In X (corners2 G) /\ clearance rho D X))
      with (gs := gs) (Gs := Gs) as (Gs' & K1 & K2); [|exact HG| |].
    { intros x X Sx (G & HG1 & HX & C1). apply stand2_row in Sx. destruct (PTS (row2 x) X Sx C1) as (_ & Y & SY & NY).
      pose proof (near_trans _ _ _ _ _ NY (Hphi G X HG1 HX)) as NN. rewrite Hpsi in SY.
      destruct (row2_of Y) as (q & ->). { destruct NN as [-> _]. destruct (phi X). reflexivity. }
      exists q. split; [apply stand2_row; exact SY|]. rewrite EE. exact NN. }
    { apply Forall_forall. intros G HG1. rewrite Forall_forall in HC. pose proof (HC G HG1) as WG.
      apply Forall_forall. intros x Hx. rewrite Forall_forall in WG. exists G. split; [exact HG1|]. split; [exact Hx|exact (WG x Hx)]. }
    destruct (period_F lnF n h hF Hn2 Hn Rh Hper) as (tau & Rt & Ot & Pt & Et).
    assert (PT : 0 < (INR n - 1) * Rabs h) by (assert (0 < / 2 ^ 199) by (apply Rinv_0_lt_compat, pow_lt; lra); lra).
    destruct (seeds_F lnF E phi _ tau h n gs (map (image2 psi) gs) Gs Gs' (mk2 O gs) Hln Rt Ot Pt Et PT) as (Fs & xs & E1 & E2 & E3);
      try assumption; [lra|apply mk_particles_2|apply map_length|].
    exists xs. split; [eapply Forall2_imp; [|exact E3]; intros G x (s & Rs & Hx); exists s; split; [apply Rs|exact Hx]|].
    (* the loop *)
    assert (EF : from_step (P := unit) sv f 0 n = steps f hF n).
    { unfold from_step, steps. apply map_ext. intro k. rewrite Etime. reflexivity. }
    destruct (loop_within (W := W) (P := unit) O (length (mrows (layout2 gs))) 2 (in_region D) (i_interpolate O scp imems) knows) with (mems := mems) (K := ready) (sv := sv) (f := f)
        (id := Text.stem first) (m := m) (n := n) (w := w) (p := mk2 O gs) as (w' & EL).
    { apply Hkn. cbn [layout2 arr2 mrows]. rewrite map_length, !app_length, !map_length. lia. }
    { exact Hrd. }
    { intros j s Hj Hk. rewrite Esteps in Hj. exact (proj1 (proj2 (Hf j Hj)) s Hk). }
    { symmetry. exact Esteps. }
    { exact Hi. }
    { exact Hm. }
    { reflexivity. }
    { reflexivity. }
    { rewrite EF. cbn [positions mk2 layout2 arr2 mrows]. apply Forall_map.
      assert (ALL : forall proj Proj, (forall g G, seated2 g G -> stand2 (proj g) (Proj G)) -> (forall G, In (Proj G) (corners2 G)) ->
        Forall (fun x => asks O (in_region D) m (steps f hF n) (row2 x)) (map proj gs)).
      { intros proj Proj H1 H2. apply Forall_map. clear - HG HC H1 H2 PTS. induction HG as [|g G gs Gs Hg HG IH]; [constructor|].
        inversion HC as [|? ? C1 C2]; subst. constructor; [|exact (IH C2)]. rewrite Forall_forall in C1.
        apply (PTS (row2 (proj g)) (Proj G)); [apply stand2_row; exact (H1 g G Hg)|exact (C1 _ (H2 G))]. }
      repeat (apply Forall_app; split).
      - apply (ALL g_left g_left); [intros g G H; apply H|intro; cbn; tauto].
      - apply (ALL g_right g_right); [intros g G H; apply H|intro; cbn; tauto].
      - apply (ALL g_top g_top); [intros g G H; apply H|intro; cbn; tauto].
      - apply (ALL g_bottom g_bottom); [intros g G H; apply H|intro; cbn; tauto]. }
    pose proof (steps_outcome O (i_interpolate O scp imems) mems sv (Text.stem first) (w_clock w) (w_integrator w, w_interp w, mk2 O gs) n 0 w (mk2 O gs) w' _ _
      (eq_sym (Nat.add_0_r _)) (SpecSolver.advance_0 _ _ _ _ _ _) EL) as (_ & Ww & _).
    rewrite EF in EL. cbn [positions mk2] in EL. rewrite (rows_image2 _ psi gs Hpsi) in EL.
    change (set_positions (mk2 O gs) (Mat 2 (mrows (layout2 (map (image2 psi) gs))))) with (moved2 O psi gs) in EL.
    assert (EC : compute_ftle O eigvals n hF (moved2 O psi gs) = Ok (map XVal xs)).
    { unfold compute_ftle. cbn [moved2 mk2 num_neighbors set_positions Nat.eqb]. unfold moved2, set_positions in *. cbn [mk2 num_neighbors] in *. rewrite E1. cbn [bind]. exact E2. }
    cbv zeta. unfold file_worker, run. fold sv. rewrite Epart, Eid, Esteps. cbv zeta. rewrite EL, Etime, EC.
    cbn [sv s_writer]. destruct writer; (split; intro Hw; try discriminate Hw); [|reflexivity].
    cbn [keep w_writer]. rewrite Ww.
    change (initial_centroid (moved2 O psi gs)) with (arr2 (map (mean2 O) gs)).
    destruct (write _ _ _ _) as [wr r]. split; reflexivity.
  Qed.
End Run.
