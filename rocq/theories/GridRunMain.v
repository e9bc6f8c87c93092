(** Whole tasks of the file workflow on gridded data, in binary64. *)
From Coq Require Import Reals Lia Lra Psatz Floats.
From Flocq Require Import Core BinarySingleNaN PrimFloat.
From Verif Require Import Base Num NdArray Particles Jacobian Ftle Integrate GridInterp Interpolate Readers DataSource Solver FileRun SpecSeeds SpecInterp SpecFtle SpecGrid
  SpecFiles SpecIntegrate SpecOrder SpecConverge SpecFloat64 SpecAccuracy SpecFloatGrid SpecFloatJac SpecRounding SpecFloatRun SpecGridRun ParticleFacts ReaderFacts GridPlace HighPerfFacts OrderFacts
  OrderRK4 IntegrateReal SolverFacts SolverField IntegrateWithin FloatArith FloatGrid FloatKernel FloatAxis FloatPlace FloatVec FloatSteps FloatPath FloatRuns FloatFtleRun FloatRegion
  GridRunField GridRunFiles.
Local Open Scope R_scope.

Lemma asks_mono {T} (O : ops T) (D D' : list T -> Prop) m st : (forall x, D x -> D' x) -> forall x, asks O D m st x -> asks O D' m st x.
Proof.
  intro H. destruct m; cbn [asks].
  - induction st as [|[v h] st IH]; intros x A; [exact I|]. destruct A as [A1 A2]. split; [exact (H _ A1)|exact (IH _ A2)].
  - generalize (@None (list T)). induction st as [|[v h] st IH]; intros p x A; [exact I|]. destruct A as [A1 A2]. split; [exact (H _ A1)|exact (IH _ _ A2)].
  - induction st as [|[v h] st IH]; intros x A; [exact I|]. destruct A as [A1 A2]. split; [|exact (IH _ A2)].
    destruct A1 as (B1 & B2 & B3 & B4). split; [exact (H _ B1)|]. split; [exact (H _ B2)|]. split; [exact (H _ B3)|exact (H _ B4)].
Qed.

Lemma clear_inside rho n lo hi c X : (2 <= n)%nat -> lo < hi -> clear_of rho lo hi c -> Rabs (X - c) <= rho ->
  well_inside n (position n lo hi X) /\ lo <= X <= hi.
Proof.
  intros Hn Hlt [C1 C2] HX. apply Rabs_le_inv in HX.
  assert (N2 : 2 <= INR n) by (change 2 with (INR 2); apply le_INR; exact Hn).
  assert (P49 : 0 < 2 ^ 49) by (apply pow_lt; lra). assert (D49 : 0 < (hi - lo) / 2 ^ 49) by (apply Rdiv_lt_0_compat; lra).
  split; [|lra]. split.
  - unfold position. apply Rmult_le_pos; [apply Rmult_le_pos; lra|]. left. apply Rinv_0_lt_compat. lra.
  - unfold position. apply Rmult_le_reg_r with (hi - lo); [lra|].
    replace ((X - lo) * (INR n - 1) / (hi - lo) * (hi - lo)) with ((X - lo) * (INR n - 1)) by (field; lra).
    apply Rle_trans with ((hi - lo - (hi - lo) / 2 ^ 49) * (INR n - 1)); [apply Rmult_le_compat_r; lra|].
    replace ((hi - lo - (hi - lo) / 2 ^ 49) * (INR n - 1)) with ((INR n - 1 - (INR n - 1) / 2 ^ 49) * (hi - lo)) by (field; lra).
    apply Rmult_le_compat_r; [lra|].
    replace (INR n / 2 ^ 50) with (INR n / 2 / 2 ^ 49) by (change (2 ^ 50) with (2 * 2 ^ 49); field; lra).
    assert (INR n / 2 / 2 ^ 49 <= (INR n - 1) / 2 ^ 49); [|lra].
    unfold Rdiv. apply Rmult_le_compat_r; [left; apply Rinv_0_lt_compat; exact P49|]. lra.
Qed.

Lemma near_row2_coords e X q : near e X (row2 q) -> exists p, X = row2 p /\ Rabs (fst p - fst q) <= e /\ Rabs (snd p - snd q) <= e.
Proof.
  destruct q as [a b]. intros [HL HN]. destruct (row2_of X) as (p & ->); [rewrite HL; reflexivity|]. exists p. split; [reflexivity|].
  destruct p as [c d]. split; [exact (HN 0%nat)|exact (HN 1%nat)].
Qed.

Section Point.
  Context (lnF : PrimFloat.float -> PrimFloat.float).
  Local Notation O := (Fops lnF).
  Variables (nx ny : nat) (x0 x1 y0 y1 : R).
  Hypothesis Hnx : (2 <= nx)%nat.
  Hypothesis Hny : (2 <= ny)%nat.
  Hypothesis Ex : x0 < x1.
  Hypothesis Ey : y0 < y1.
  Variables (m : method) (B M delta L rho h : R) (n : nat) (hF : PrimFloat.float).
  Hypothesis Ht : tame_on_grid m B M delta L rho n h.
  Hypothesis Rh : represents hF h.
  Hypothesis HBx : Rabs x0 <= B /\ Rabs x1 <= B.
  Hypothesis HBy : Rabs y0 <= B /\ Rabs y1 <= B.
  Variables (f : nat -> list PrimFloat.float -> list PrimFloat.float) (v : nat -> list R -> list R).
  Hypothesis Hev : forall k, (k < n)%nat -> forall x q, stands x (row2 q) ->
    well_inside nx (position nx x0 x1 (fst q)) -> well_inside ny (position ny y0 y1 (snd q)) ->
    exists V, stands (f k x) V /\ near delta V (v k (row2 q)).
  Hypothesis Hsp : forall k, (k < n)%nat -> forall X Y, x0 <= X <= x1 -> y0 <= Y <= y1 -> sized M (v k [X; Y]).
  Hypothesis Hlip : forall k, (k < n)%nat -> lipschitz_field 2 L (fun _ => v k).

  Lemma grid_point x q : stands x (row2 q) -> clear_of rho x0 x1 (fst q) -> clear_of rho y0 y1 (snd q) ->
    asks O (on_grid nx ny x0 x1 y0 y1) m (steps f hF n) x /\
    exists Y, stands (path O m (steps f hF n) x) Y /\ near (rounding_bound n h delta B L) Y (path Rops m (steps v h n) (row2 q)).
  Proof.
    intros Sx Cx Cy. destruct Ht as (HB & HM & Hd & HL & Hn2 & Hn & Hper & H6 & Hrho & Hm).
    assert (B1 : bpow radix2 (-100) <= B <= bpow radix2 800).
    { rewrite (pow_bpow 100), (pow_bpow 800), <- bpow_opp in HB. exact HB. }
    assert (M1 : bpow radix2 (-500) <= M).
    { destruct HM as [HM _]. rewrite (pow_bpow 500), <- bpow_opp in HM. exact HM. }
    assert (P1 : M + delta <= bpow radix2 800).
    { change 800%Z with (Z.of_nat 800). rewrite <- pow_bpow. change (2 ^ 800) with (2 * 2 ^ 799). lra. }
    assert (N2 : 2 <= INR n) by (change 2 with (INR 2); apply le_INR; exact Hn2). pose proof (Rabs_pos h) as H0.
    assert (h1 : Rabs h <= bpow radix2 800).
    { change 800%Z with (Z.of_nat 800). rewrite <- pow_bpow. apply Rle_trans with (2 ^ 199); [|apply Rle_pow; [lra|lia]].
      eapply Rle_trans; [|apply Hper]. rewrite <- (Rmult_1_l (Rabs h)) at 1. apply Rmult_le_compat_r; lra. }
    assert (BP : 0 < B) by (pose proof (bpow_gt_0 radix2 (-100)); lra).
    assert (MP : 0 < M) by (pose proof (bpow_gt_0 radix2 (-500)); lra).
    assert (EG : growth B M delta h = 2 * (Rabs h * (M + delta)) + B / 2 ^ 51).
    { unfold growth. f_equal. unfold Rdiv. rewrite pow_bpow, <- bpow_opp, uround_bpow. change 4 with (bpow radix2 2). rewrite <- bpow_plus.
      change (2 + -53)%Z with (- Z.of_nat 51)%Z. ring. }
    assert (G0 : 0 <= INR n * growth B M delta h).
    { apply Rmult_le_pos; [apply pos_INR|]. rewrite EG. assert (0 < 2 ^ 51) by (apply pow_lt; lra).
      assert (0 <= Rabs h * (M + delta)) by (apply Rmult_le_pos; lra). assert (0 < B / 2 ^ 51) by (apply Rdiv_lt_0_compat; assumption). lra. }
    assert (REG : forall X, near rho X (row2 q) -> exists p, X = row2 p /\ (well_inside nx (position nx x0 x1 (fst p)) /\ x0 <= fst p <= x1) /\
        (well_inside ny (position ny y0 y1 (snd p)) /\ y0 <= snd p <= y1)).
    { intros X NX. destruct (near_row2_coords _ _ _ NX) as (p & -> & D1 & D2). exists p. split; [reflexivity|].
      split; [apply (clear_inside rho nx x0 x1 (fst q)); assumption|apply (clear_inside rho ny y0 y1 (snd q)); assumption]. }
    assert (RB : forall X, near rho X (row2 q) -> sized B X).
    { intros X NX. destruct (REG X NX) as ([a b] & -> & (_ & I1) & (_ & I2)). cbn [fst snd] in I1, I2.
      destruct HBx as [X1 X2]. destruct HBy as [Y1 Y2]. apply Rabs_le_inv in X1, X2, Y1, Y2.
      intros [|[|k]]; cbn [coord nth row2]; [apply Rabs_le; lra|apply Rabs_le; lra|]. unfold coord. destruct k; cbn [nth]; rewrite Rabs_R0; lra. }
    assert (FLD : forall k, (k < n)%nat ->
      (forall x X, stands x X -> near rho X (row2 q) -> exists V, stands (f k x) V /\ near delta V (v k X)) /\
      (forall X, near rho X (row2 q) -> sized M (v k X)) /\ lipschitz_field 2 L (fun _ => v k)).
    { intros k Hk. split; [|split; [|exact (Hlip k Hk)]].
      - intros y X Sy NX. destruct (REG X NX) as (p & -> & (W1 & _) & (W2 & _)). exact (Hev k Hk y p Sy W1 W2).
      - intros X NX. destruct (REG X NX) as ([a b] & -> & (_ & I1) & (_ & I2)). exact (Hsp k Hk a b I1 I2). }
    destruct (history_D lnF 2 B M delta L h hF (row2 q) rho B1 M1 (proj1 Hd) HL P1 h1 H6 Rh) with (N := n) (f := f) (v := v) (m := m) (n := n) (x := x) (X := row2 q) (A := 0)
      as (A1 & Y & SY & NY); try assumption; [destruct q; reflexivity|exact (le_n _)|apply near_refl|rewrite EG; lra|].
    split.
    - revert A1. apply asks_mono. intros z (Z & SZ & NZ). destruct (REG Z NZ) as (p & -> & (W1 & _) & (W2 & _)). exists p. auto.
    - exists Y. split; [exact SY|]. eapply near_le; [apply (NY 0 (row2 q)); [destruct q; reflexivity|apply near_refl]|].
      assert (HdP : 0 <= Rabs h * delta) by (apply Rmult_le_pos; lra). assert (HhL : 0 <= Rabs h * L) by (apply Rmult_le_pos; lra).
      assert (U0 : 0 < uround * B) by (apply Rmult_lt_0_compat; [destruct uround_val; lra|lra]).
      eapply Rle_trans; [apply (accumulate_bound _ _ _ _ (2 * (Rabs h * L)))|].
      + unfold spread. lra.
      + unfold fresh_error. lra.
      + lra.
      + unfold spread. eapply Rle_trans; [|apply exp_ge]. lra.
      + rewrite Rplus_0_l. apply Req_le. unfold fresh_error, rounding_bound.
        replace (B / 2 ^ 50) with (8 * uround * B).
        * f_equal; [ring|]. f_equal. ring.
        * unfold Rdiv. rewrite pow_bpow, <- bpow_opp, uround_bpow. change 8 with (bpow radix2 3). rewrite <- bpow_plus. change (3 + -53)%Z with (- Z.of_nat 50)%Z. ring.
  Qed.
End Point.

Section Run.
  Context (lnF : PrimFloat.float -> PrimFloat.float) (scp : scipy PrimFloat.float) (imems : nat -> memory (T := PrimFloat.float)) {W : Type}.
  Variable eigvals : m33 PrimFloat.float -> res (PrimFloat.float * PrimFloat.float * PrimFloat.float).
  Variable mems : nat -> memory (T := PrimFloat.float).
  Variable write : W -> string -> list (xval PrimFloat.float) -> mat PrimFloat.float -> W * res unit.
  Local Notation O := (Fops lnF).

  Lemma grid_run_F : forall fs name fn nx ny x0 x1 y0 y1 m B M eps L rho n h hF v,
    accurate_log lnF -> case_variant name "grid" -> (2 <= nx)%nat -> (2 <= ny)%nat ->
    (Z.of_nat nx <= INT_MAX)%Z -> (Z.of_nat ny <= INT_MAX)%Z -> sane_extent x0 x1 -> sane_extent y0 y1 ->
    Rabs x0 <= B /\ Rabs x1 <= B -> Rabs y0 <= B /\ Rabs y1 <= B ->
    forall delta, delta = sampling_error nx ny x0 x1 y0 y1 L M eps -> tame_on_grid m B M delta L rho n h -> represents hF h ->
    (forall k, lipschitz_field 2 L (fun _ => v k)) ->
    (forall k, (k < n)%nat -> forall X Y, x0 <= X <= x1 -> y0 <= Y <= y1 -> sized M (v k [X; Y])) ->
    forall first rest coordinates particle period src seeds gs Gs,
    mk_file_source (first :: rest) coordinates particle hF period = Ok src -> length (first :: rest) = n ->
    gridded fs nx ny x0 x1 y0 y1 M eps v (first :: rest) coordinates ->
    (exists a b, In a coordinates /\ In b coordinates /\ a <> b) ->
    fs particle = Ok seeds -> holds_seeds gs seeds -> Forall2 seated2 gs Gs -> Forall spaced2 Gs ->
    Forall (fun G => Forall (fun x => clear_of rho x0 x1 (fst x) /\ clear_of rho y0 y1 (snd x)) (corners2 G)) Gs ->
    forall phi E0 E, 0 <= E0 -> E = rounding_bound n h delta B L + E0 -> E <= 2 ^ 199 ->
    (forall G x, In G Gs -> In x (corners2 G) -> near E0 (path Rops m (steps v h n) (row2 x)) (row2 (phi x))) ->
    Forall (fun G => exists s, resolved2 E phi G s) Gs ->
    forall queue writer (w : world PrimFloat.float (istate scp) unit W),
    create_interpolator O scp name (Some [nx; ny]) fn = Ok (fst (w_interp w)) -> w_integrator w = fresh m ->
    exists xs,
      Forall2 (fun G x => exists s, spectral_norm_2 (gradient2 G (image2 phi G)) s /\ ftle_within E (side2 G) s ((INR n - 1) * Rabs h) x) Gs xs /\
      let r := file_worker O scp imems eigvals mems write fs src queue writer w in
      (writer = false -> snd r = Ok (Some (map XVal xs))) /\
      (writer = true -> let rw := write (w_writer w) (append "ftle_" (Text.stem first)) (map XVal xs) (arr2 (map (mean2 O) gs)) in
       w_writer (fst r) = fst rw /\ snd r = (let* _ := snd rw in Ok None)).
  Proof.
    intros fs name fn nx ny x0 x1 y0 y1 m B M eps L rho n h hF v Hln Hname Hnx Hny Bx By Ex Ey HBx HBy delta Edelta Ht Rh HL Hsp
      first rest coordinates particle period src seeds gs Gs Esrc En Hgr Htwo Eseeds Hseeds HG HS HC phi E0 E HE0 EE HE Hphi HR queue writer w Hi Hm.
    pose proof (sane_lt _ _ Ex) as Lx. pose proof (sane_lt _ _ Ey) as Ly.
    pose proof (not_reused _ _ _ _ _ _ Esrc Htwo) as Hre.
    unfold mk_file_source in Esrc. injection Esrc as Esrc.
    assert (F1 : snapshot_files src = first :: rest) by (rewrite <- Esrc; reflexivity).
    assert (F2 : coordinate_files src = coordinates) by (rewrite <- Esrc; reflexivity).
    assert (F3 : particle_file src = particle) by (rewrite <- Esrc; reflexivity).
    assert (F4 : snapshot_timestep src = hF) by (rewrite <- Esrc; reflexivity).
    assert (F5 : file_id src = Text.stem first) by (rewrite <- Esrc; reflexivity). clear Esrc.
    pose proof Ht as (_ & HM & Hd & HL0 & Hn2 & Hn & Hper & _).
    assert (M0 : 0 <= M) by (assert (0 < / 2 ^ 500) by (apply Rinv_0_lt_compat, pow_lt; lra); lra).
    assert (M8 : M <= 2 ^ 898) by (apply Rle_trans with (2 ^ 799); [lra|apply Rle_pow; [lra|lia]]).
    destruct (task_fields lnF scp fs nx ny x0 x1 y0 y1 Hnx Hny Bx By Ex Ey M eps L M0 M8 src v) as (f & Hf); [rewrite F1, F2; exact Hgr|exact Hre|exact HL|].
    rewrite F1, En in Hf.
    assert (PTS : forall x q, stands x (row2 q) -> clear_of rho x0 x1 (fst q) -> clear_of rho y0 y1 (snd q) ->
      asks O (on_grid nx ny x0 x1 y0 y1) m (steps f hF n) x /\
      exists Y, stands (path O m (steps f hF n) x) Y /\ near (rounding_bound n h delta B L) Y (path Rops m (steps v h n) (row2 q))).
    { apply (grid_point lnF nx ny x0 x1 y0 y1 Hnx Hny Lx Ly m B M delta L rho h n hF Ht Rh HBx HBy f v); [|exact Hsp|intros k _; apply HL].
      intros k Hk x q Sx W1 W2. rewrite Edelta. exact (proj2 (proj2 (Hf k Hk)) x q Sx W1 W2). }
    (* the particles *)
    destruct Hseeds as (S1 & S2 & S3 & S4 & S5). destruct (seeds_2d O seeds gs S1 S2 S3 S4 S5) as (p & Ep & Emk).
    rewrite mk_particles_2 in Emk. injection Emk as <-.
    set (sv := Solver (file_task O scp fs src) queue writer).
    assert (Esteps : src_steps (s_source sv) = n) by (cbn [sv s_source file_task file_batch src_steps]; rewrite F1; exact En).
    assert (Etime : src_timestep (s_source sv) = hF) by (cbn [sv s_source file_task file_batch src_timestep]; exact F4).
    assert (Epart : src_particles (s_source sv) (w_source w) = Ok (mk2 O gs)).
    { cbn [sv s_source file_task file_batch src_particles]. rewrite F3, Eseeds. cbn [bind]. exact Ep. }
    assert (Eid : src_id (s_source sv) = Ok (Text.stem first)) by (cbn [sv s_source file_task file_batch src_id]; rewrite F5; reflexivity).
    (* the map of one point *)
    destruct (as_map2 (path O m (steps f hF n))) as (psi & Hpsi).
    { intros x Hx. destruct (Forall_forall (fun a => keeps_dim 2 (fst a)) (steps (fun k x => if (k <? n)%nat then f k x else x) hF n)) as [_ KD].
      replace (steps f hF n) with (steps (fun k x => if (k <? n)%nat then f k x else x) hF n).
      - apply path_len; [|exact Hx]. apply KD. intros a Ha. unfold steps in Ha. apply in_map_iff in Ha. destruct Ha as (k & <- & Hk). apply in_seq in Hk.
        cbn [fst]. intros z Hz. destruct (Nat.ltb_spec k n); [|lia]. apply (proj1 (Hf k ltac:(lia))). exact Hz.
      - unfold steps. apply map_ext_in. intros k Hk. apply in_seq in Hk. f_equal. destruct (Nat.ltb_spec k n); [reflexivity|lia]. }
    (* the images *)
    assert (RB : 0 <= rounding_bound n h delta B L).
    { unfold rounding_bound. apply Rmult_le_pos; [|left; apply exp_pos]. apply Rmult_le_pos; [apply pos_INR|].
      pose proof Ht as ((HB & _) & _). assert (0 < / 2 ^ 100) by (apply Rinv_0_lt_compat, pow_lt; lra).
      assert (0 <= B / 2 ^ 50) by (apply Rmult_le_pos; [lra|left; apply Rinv_0_lt_compat, pow_lt; lra]).
      assert (0 <= 2 * Rabs h * delta) by (apply Rmult_le_pos; [pose proof (Rabs_pos h); lra|apply Hd]). lra. }
    destruct (images_F psi phi E (fun X => exists G, In G Gs /\ In X (corners2 G) /\ clear_of rho x0 x1 (fst X) /\ clear_of rho y0 y1 (snd X)))
      with (gs := gs) (Gs := Gs) as (Gs' & K1 & K2); [|exact HG| |].
    { intros x X Sx (G & HG1 & HX & C1 & C2). apply stand2_row in Sx. destruct (PTS (row2 x) X Sx C1 C2) as (_ & Y & SY & NY).
      pose proof (near_trans _ _ _ _ _ NY (Hphi G X HG1 HX)) as NN. rewrite Hpsi in SY.
      destruct (row2_of Y) as (q & ->). { destruct NN as [-> _]. destruct (phi X). reflexivity. }
      exists q. split; [apply stand2_row; exact SY|]. rewrite EE. exact NN. }
    { apply Forall_forall. intros G HG1. rewrite Forall_forall in HC. pose proof (HC G HG1) as WG.
      apply Forall_forall. intros x Hx. rewrite Forall_forall in WG. exists G. split; [exact HG1|]. split; [exact Hx|exact (WG x Hx)]. }
    destruct (period_F lnF n h hF Hn2 Hn Rh Hper) as (tau & Rt & Ot & Pt & Et).
    assert (PT : 0 < (INR n - 1) * Rabs h) by (assert (0 < / 2 ^ 199) by (apply Rinv_0_lt_compat, pow_lt; lra); lra).
    destruct (seeds_F lnF E phi _ tau h n gs (map (image2 psi) gs) Gs Gs' (mk2 O gs) Hln Rt Ot Pt Et PT) as (Fs & xs & E1 & E2 & E3);
      try assumption; [lra|apply mk_particles_2|apply map_length|].
    exists xs. split; [eapply Forall2_imp; [|exact E3]; intros G x (s & Rs & Hx); exists s; split; [apply Rs|exact Hx]|].
    (* the loop *)
    assert (EF : from_step (P := unit) sv f 0 n = steps f hF n).
    { unfold from_step, steps. apply map_ext. intro k. rewrite Etime. reflexivity. }
    destruct (loop_within (W := W) O (length (mrows (layout2 gs))) 2 (on_grid nx ny x0 x1 y0 y1) (i_interpolate O scp imems) (knows lnF scp nx ny x0 x1 y0 y1)
      (knows_samples lnF scp imems nx ny x0 x1 y0 y1 _) mems (fun _ => shaped scp nx ny) (fun _ => knows_shaped lnF scp nx ny x0 x1 y0 y1) sv f) with (id := Text.stem first) (m := m) (n := n) (w := w) (p := mk2 O gs)
      as (w' & EL).
    { intros j s Hj Hk. rewrite Esteps in Hj. exact (proj1 (proj2 (Hf j Hj)) s Hk). }
    { symmetry. exact Esteps. }
    { rewrite (create_grid O scp name [nx; ny] fn Hname) in Hi. injection Hi as Hi. exists (highperf_new [nx; ny]). split; [symmetry; exact Hi|]. split; [reflexivity|exact I]. }
    { exact Hm. }
    { reflexivity. }
    { reflexivity. }
    { rewrite EF. cbn [positions mk2 layout2 arr2 mrows]. apply Forall_map.
      assert (ALL : forall proj Proj, (forall g G, seated2 g G -> stand2 (proj g) (Proj G)) -> (forall G, In (Proj G) (corners2 G)) ->
        Forall (fun x => asks O (on_grid nx ny x0 x1 y0 y1) m (steps f hF n) (row2 x)) (map proj gs)).
      { intros proj Proj H1 H2. apply Forall_map. clear - HG HC H1 H2 PTS. induction HG as [|g G gs Gs Hg HG IH]; [constructor|].
        inversion HC as [|? ? C1 C2]; subst. constructor; [|exact (IH C2)]. rewrite Forall_forall in C1. destruct (C1 _ (H2 G)) as [D1 D2].
        apply (PTS (row2 (proj g)) (Proj G)); [apply stand2_row; exact (H1 g G Hg)|exact D1|exact D2]. }
      repeat (apply Forall_app; split).
      - apply (ALL g_left g_left); [intros g G H; apply H|intro; cbn; tauto].
      - apply (ALL g_right g_right); [intros g G H; apply H|intro; cbn; tauto].
      - apply (ALL g_top g_top); [intros g G H; apply H|intro; cbn; tauto].
      - apply (ALL g_bottom g_bottom); [intros g G H; apply H|intro; cbn; tauto]. }
    pose proof (steps_outcome O (i_interpolate O scp imems) mems sv (Text.stem first) (w_clock w) (w_integrator w, w_interp w, mk2 O gs) n 0 w (mk2 O gs) w' _ _
      (eq_sym (Nat.add_0_r _)) (SpecSolver.advance_0 _ _ _ _ _ _) EL) as (_ & Ww & _).
    rewrite EF in EL. cbn [positions mk2] in EL. rewrite (rows_image2 _ psi gs Hpsi) in EL.
    change (set_positions (mk2 O gs) (Mat 2 (mrows (layout2 (map (image2 psi) gs))))) with (moved2 O psi gs) in EL.
    assert (EC : compute_ftle O eigvals n hF (moved2 O psi gs) = Ok (map XVal xs)).
    { unfold compute_ftle. cbn [moved2 mk2 num_neighbors set_positions Nat.eqb]. unfold moved2, set_positions in *. cbn [mk2 num_neighbors] in *. rewrite E1. cbn [bind]. exact E2. }
    cbv zeta. unfold file_worker, run. fold sv. rewrite Epart, Eid, Esteps. cbv zeta. rewrite EL, Etime, EC.
    cbn [sv s_writer]. destruct writer; (split; intro Hw; try discriminate Hw); [|reflexivity].
    cbn [keep w_writer]. rewrite Ww.
    change (initial_centroid (moved2 O psi gs)) with (arr2 (map (mean2 O) gs)).
    destruct (write _ _ _ _) as [wr r]. split; reflexivity.
  Qed.
End Run.

(** Beside the flow of a velocity field [v] that was sampled at the times [t0], [t0 + h], ... *)
Lemma grid_run_flow lnF (scp : scipy PrimFloat.float) imems {W} eigvals mems
  (write : W -> string -> list (xval PrimFloat.float) -> mat PrimFloat.float -> W * res unit) :
  forall fs name fn nx ny x0 x1 y0 y1 m B M eps L rho n h hF v t0,
  accurate_log lnF -> case_variant name "grid" -> (2 <= nx)%nat -> (2 <= ny)%nat ->
  (Z.of_nat nx <= INT_MAX)%Z -> (Z.of_nat ny <= INT_MAX)%Z -> sane_extent x0 x1 -> sane_extent y0 y1 ->
  Rabs x0 <= B /\ Rabs x1 <= B -> Rabs y0 <= B /\ Rabs y1 <= B ->
  forall delta, delta = sampling_error nx ny x0 x1 y0 y1 L M eps -> tame_on_grid m B M delta L rho n h -> represents hF h ->
  lipschitz_field 2 L v ->
  (forall t X Y, between t0 (t0 + INR n * h) t -> x0 <= X <= x1 -> y0 <= Y <= y1 -> sized M (v t [X; Y])) ->
  forall first rest coordinates particle period src seeds gs Gs,
  mk_file_source (first :: rest) coordinates particle hF period = Ok src -> length (first :: rest) = n ->
  gridded fs nx ny x0 x1 y0 y1 M eps (fun k => v (t0 + INR k * h)) (first :: rest) coordinates ->
  (exists a b, In a coordinates /\ In b coordinates /\ a <> b) ->
  fs particle = Ok seeds -> holds_seeds gs seeds -> Forall2 seated2 gs Gs -> Forall spaced2 Gs ->
  Forall (fun G => Forall (fun x => clear_of rho x0 x1 (fst x) /\ clear_of rho y0 y1 (snd x)) (corners2 G)) Gs ->
  forall phi K J V E, 0 <= K -> 0 <= J -> 0 <= V -> E = rounding_bound n h delta B L + truncation m n h L K J V -> E <= 2 ^ 199 ->
  (forall G x, In G Gs -> In x (corners2 G) ->
     flow_along (regular m v t0 (t0 + INR n * h) K J V) v t0 (t0 + INR n * h) phi x) ->
  Forall (fun G => exists s, resolved2 E phi G s) Gs ->
  forall queue writer (w : world PrimFloat.float (istate scp) unit W),
  create_interpolator (Fops lnF) scp name (Some [nx; ny]) fn = Ok (fst (w_interp w)) -> w_integrator w = fresh m ->
  exists xs,
    Forall2 (fun G x => exists s, spectral_norm_2 (gradient2 G (image2 phi G)) s /\ ftle_within E (side2 G) s ((INR n - 1) * Rabs h) x) Gs xs /\
    let r := file_worker (Fops lnF) scp imems eigvals mems write fs src queue writer w in
    (writer = false -> snd r = Ok (Some (map XVal xs))) /\
    (writer = true -> let rw := write (w_writer w) (append "ftle_" (Text.stem first)) (map XVal xs) (arr2 (map (mean2 (Fops lnF)) gs)) in
       w_writer (fst r) = fst rw /\ snd r = (let* _ := snd rw in Ok None)).
Proof.
  intros fs name fn nx ny x0 x1 y0 y1 m B M eps L rho n h hF v t0 Hln Hname Hnx Hny Bx By Ex Ey HBx HBy delta Edelta Ht Rh HL Hsp
    first rest coordinates particle period src seeds gs Gs Esrc En Hgr Htwo Eseeds Hseeds HG HS HC phi K J V E HK HJ HV EE HE Hphi HR queue writer w Hi Hm.
  pose proof Ht as (_ & _ & _ & L0 & _ & _ & _ & _ & _ & T11).
  apply (grid_run_F lnF scp imems eigvals mems write fs name fn nx ny x0 x1 y0 y1 m B M eps L rho n h hF (fun k => v (t0 + INR k * h)))
    with (delta := delta) (coordinates := coordinates) (particle := particle) (period := period) (rest := rest) (seeds := seeds) (E0 := truncation m n h L K J V); try assumption.
  - intro k. destruct HL as [K1 K2]. split; [intro; apply K1|intro; apply K2].
  - intros k Hk X Y HX HY. apply Hsp; [|exact HX|exact HY]. unfold between.
    assert (INR k <= INR n) by (apply le_INR; lia). pose proof (pos_INR k). unfold Rmin, Rmax.
    destruct (Rle_dec t0 (t0 + INR n * h)) as [Q|Q].
    + destruct (Rle_dec 0 h); [split; nra|]. assert (INR n * h <= 0) by nra. assert (INR n * h = 0) by lra. destruct (Rmult_integral _ _ H2); [|lra]. split; nra.
    + assert (h < 0) by nra. split; nra.
  - pose proof (Rabs_pos h). pose proof (pos_INR n). destruct m; cbn [truncation].
    + apply Rmult_le_pos; [assumption|]. apply Rmult_le_pos; [|left; apply exp_pos]. apply Rmult_le_pos; [|exact HK]. apply Rmult_le_pos; assumption.
    + apply Rmult_le_pos; [apply Rle_0_sqr|]. apply Rmult_le_pos; [|left; apply exp_pos].
      assert (0 <= 3 / 2 * J * (INR n * Rabs h)) by (apply Rmult_le_pos; [lra|apply Rmult_le_pos; assumption]). lra.
    + apply Rmult_le_pos; [assumption|]. apply Rmult_le_pos; [|left; apply exp_pos]. apply Rmult_le_pos; [apply Rmult_le_pos; assumption|].
      assert (0 <= L * V) by (apply Rmult_le_pos; assumption). lra.
  - intros G x HG1 Hx. destruct (Hphi G x HG1 Hx) as (y & Y0 & Yt & Y1 & Yr). rewrite <- Y1.
    exact (truncation_bounds m v L K J V n h t0 y (row2 x) HL L0 HK HJ T11 Y0 Yt Yr).
Qed.

(** Beside the images of the method in exact arithmetic. *)
Lemma grid_run_exact lnF (scp : scipy PrimFloat.float) imems {W} eigvals mems
  (write : W -> string -> list (xval PrimFloat.float) -> mat PrimFloat.float -> W * res unit) :
  forall fs name fn nx ny x0 x1 y0 y1 m B M eps L rho n h hF v,
  accurate_log lnF -> case_variant name "grid" -> (2 <= nx)%nat -> (2 <= ny)%nat ->
  (Z.of_nat nx <= INT_MAX)%Z -> (Z.of_nat ny <= INT_MAX)%Z -> sane_extent x0 x1 -> sane_extent y0 y1 ->
  Rabs x0 <= B /\ Rabs x1 <= B -> Rabs y0 <= B /\ Rabs y1 <= B ->
  forall delta, delta = sampling_error nx ny x0 x1 y0 y1 L M eps -> tame_on_grid m B M delta L rho n h -> represents hF h ->
  (forall k, lipschitz_field 2 L (fun _ => v k)) ->
  (forall k X Y, (k < n)%nat -> x0 <= X <= x1 -> y0 <= Y <= y1 -> sized M (v k [X; Y])) ->
  forall first rest coordinates particle period src seeds gs Gs,
  mk_file_source (first :: rest) coordinates particle hF period = Ok src -> length (first :: rest) = n ->
  gridded fs nx ny x0 x1 y0 y1 M eps v (first :: rest) coordinates ->
  (exists a b, In a coordinates /\ In b coordinates /\ a <> b) ->
  fs particle = Ok seeds -> holds_seeds gs seeds -> Forall2 seated2 gs Gs -> Forall spaced2 Gs ->
  Forall (fun G => Forall (fun x => clear_of rho x0 x1 (fst x) /\ clear_of rho y0 y1 (snd x)) (corners2 G)) Gs ->
  forall phi, (forall G x, In G Gs -> In x (corners2 G) -> path Rops m (steps v h n) (row2 x) = row2 (phi x)) ->
  forall E, E = rounding_bound n h delta B L -> E <= 2 ^ 199 ->
  Forall (fun G => exists s, resolved2 E phi G s) Gs ->
  forall queue writer (w : world PrimFloat.float (istate scp) unit W),
  create_interpolator (Fops lnF) scp name (Some [nx; ny]) fn = Ok (fst (w_interp w)) -> w_integrator w = fresh m ->
  exists xs,
    Forall2 (fun G x => exists s, spectral_norm_2 (gradient2 G (image2 phi G)) s /\ ftle_within E (side2 G) s ((INR n - 1) * Rabs h) x) Gs xs /\
    let r := file_worker (Fops lnF) scp imems eigvals mems write fs src queue writer w in
    (writer = false -> snd r = Ok (Some (map XVal xs))) /\
    (writer = true -> let rw := write (w_writer w) (append "ftle_" (Text.stem first)) (map XVal xs) (arr2 (map (mean2 (Fops lnF)) gs)) in
       w_writer (fst r) = fst rw /\ snd r = (let* _ := snd rw in Ok None)).
Proof.
  intros fs name fn nx ny x0 x1 y0 y1 m B M eps L rho n h hF v Hln Hname Hnx Hny Bx By Ex Ey HBx HBy delta Edelta Ht Rh HL Hsp
    first rest coordinates particle period src seeds gs Gs Esrc En Hgr Htwo Eseeds Hseeds HG HS HC phi Hphi E EE HE HR queue writer w Hi Hm.
  apply (grid_run_F lnF scp imems eigvals mems write fs name fn nx ny x0 x1 y0 y1 m B M eps L rho n h hF v)
    with (delta := delta) (coordinates := coordinates) (particle := particle) (period := period) (rest := rest) (seeds := seeds) (E0 := 0); try assumption.
  - intros k Hk X Y HX HY. apply Hsp; assumption.
  - lra.
  - lra.
  - intros G x HG1 Hx. rewrite (Hphi G x HG1 Hx). apply near_refl.
Qed.
