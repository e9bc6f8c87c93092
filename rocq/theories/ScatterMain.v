(** Whole tasks of the file workflow on scattered 2D data, in binary64. *)
From Coq Require Import Reals Lia Lra Psatz Floats.
From Flocq Require Import Core BinarySingleNaN PrimFloat.
From Verif Require Import Base Num NdArray Particles Jacobian Ftle Integrate GridInterp Interpolate Readers DataSource Solver FileRun SpecSeeds SpecInterp SpecFtle SpecGrid
  SpecFiles SpecIntegrate SpecOrder SpecConverge SpecFloat64 SpecAccuracy SpecFloatGrid SpecFloatJac SpecRounding SpecFloatRun SpecGridRun SpecScatter ParticleFacts ReaderFacts GridPlace HighPerfFacts
  GridInterpFacts ScipyFacts Faithful OrderFacts OrderRK4 IntegrateReal SolverFacts SolverField IntegrateWithin FloatVec FloatRuns FloatFtleRun GridRunField GridRunFiles GridRunMain RegionRun.
Local Open Scope R_scope.

(* ---- the interpolators as fields ---- *)
Lemma couple_of {A} (x : list A) : length x = 2%nat -> exists p, x = row2 p.
Proof. destruct x as [|a [|b [|c x]]]; intro H; try discriminate H. exists (a, b). reflexivity. Qed.

Section Field.
  Context (lnF : PrimFloat.float -> PrimFloat.float) (scp : scipy PrimFloat.float) (imems : nat -> memory (T := PrimFloat.float)).
  Local Notation O := (Fops lnF).
  Variable D : R * R -> Prop.

  (** The interpolator is of kind [k], has the points [P] and answers with [answer]. *)
  Definition stage (k : scatter) (i : interp scp) (P : option (mat PrimFloat.float)) (answer : option (mat PrimFloat.float -> res (list couple))) : Prop :=
    match k with
    | ByCubic => exists o, i = ICubic o /\ u_points o = P /\ answer = option_map (fun tc => ct_eval scp (fst tc) (snd tc)) (u_interp o)
    | ByLinear => exists o, i = ILinear o /\ u_points o = P /\ answer = option_map (fun tc => lin_c scp (fst tc) (snd tc)) (u_interp o)
    | ByNearest => exists o, i = INearest o /\ u_points o = P /\ answer = option_map (fun tc => near_c scp (fst tc) (snd tc)) (u_interp o)
    end.

  Definition row_field (g : couple -> couple) (x : list PrimFloat.float) : list PrimFloat.float := match x with [a; b] => row2 (g (a, b)) | _ => x end.

  Definition pointwise (answer : mat PrimFloat.float -> res (list couple)) (g : couple -> couple) : Prop :=
    forall ps, Forall (fun p => exists q, stand2 p q /\ D q) ps -> answer (arr2 ps) = Ok (map g ps).

  Definition has_field (k : scatter) (Q : option (mat PrimFloat.float) -> Prop) (f : list PrimFloat.float -> list PrimFloat.float) (s : istate scp) : Prop :=
    exists P answer g, stage k (fst s) P (Some answer) /\ Q P /\ pointwise answer g /\ f = row_field g.

  Lemma region_rows rows : Forall (in_region D) rows -> exists ps, rows = map row2 ps /\ Forall (fun p => exists q, stand2 p q /\ D q) ps.
  Proof.
    induction 1 as [|x rows (q & S & I) _ (ps & -> & IH)]; [exists []; split; [reflexivity|constructor]|].
    destruct (couple_of x) as (p & ->). { apply stands_len in S. rewrite S. destruct q. reflexivity. }
    exists (p :: ps). split; [reflexivity|]. constructor; [|exact IH]. exists q. split; [apply stand2_row; exact S|exact I].
  Qed.

  Lemma field_samples k Q cnt : cnt <> 3%nat -> samples_within cnt 2 (in_region D) (i_interpolate O scp imems) (has_field k Q).
  Proof.
    intros H3 f [i c] [d rows] (P & answer & g & St & HP & Hp & ->) Hl Hc HD. cbn [mcols mrows fst] in *. subst d.
    destruct (region_rows rows HD) as (ps & -> & Hps). rewrite map_length in Hl. change (Mat 2 (map row2 ps)) with (arr2 ps).
    assert (E : interpolate O scp (imems c) i (arr2 ps) = (i, Ok (arr2 (map g ps)))).
    { destruct k; destruct St as (o & -> & Ep & Ea); destruct (u_interp o) as [[t vs]|] eqn:Eu; try discriminate; cbn [option_map fst snd] in Ea; injection Ea as ->; cbn [interpolate].
      - unfold cubic_interpolate. rewrite Eu, (Hp ps Hps). cbn [bind]. rewrite fill_2d by apply map_length. reflexivity.
      - unfold linear_interpolate. rewrite Eu, (Hp ps Hps). cbn [bind]. rewrite fill_2d by apply map_length. cbn [bind]. rewrite arr2_nrows, Hl.
        destruct (Nat.eqb_spec cnt 3); [contradiction|reflexivity].
      - unfold nearest_interpolate. rewrite Eu, (Hp ps Hps). cbn [bind]. rewrite fill_2d by apply map_length. cbn [bind]. rewrite arr2_nrows, Hl.
        destruct (Nat.eqb_spec cnt 3); [contradiction|reflexivity]. }
    unfold i_interpolate. cbn [fst snd]. rewrite E. eexists. split.
    - do 2 f_equal. unfold arr2. f_equal. rewrite !map_map. apply map_ext. intros [a b]. reflexivity.
    - exists P, answer, g. auto.
  Qed.

  (** One update. *)
  Lemma stage_update k i points values answer P a0 : length values = length points -> built_by scp k points values answer -> stage k i P a0 ->
    forall p, p = Some (cols2 points) \/ p = None /\ P = Some (cols2 points) ->
    exists i', update O scp i (cols2 values) p = (i', Ok tt) /\ stage k i' (Some (cols2 points)) (Some answer).
  Proof.
    intros HL HB HS p Hp.
    destruct k; destruct HS as (o & -> & <- & _); cbn [built_by] in HB; cbn [update]; unfold base_update;
      (replace (match p with Some _ => p | None => u_points o end) with (Some (cols2 points)) by (destruct Hp as [-> | [-> ->]]; reflexivity)).
    - destruct HB as (t & Ht & ->). unfold cubic_init. cbn [u_velocities u_points nrows cols2 mrows length Nat.eqb]. fold (cols2 points). fold (cols2 values).
      rewrite (data_2d points values (delaunay scp) HL), Ht. cbn [bind]. eexists. split; [reflexivity|]. eexists. split; [reflexivity|]. split; reflexivity.
    - destruct HB as (t & Ht & ->). unfold linear_init. cbn [u_velocities u_points nrows cols2 mrows length Nat.eqb]. fold (cols2 points). fold (cols2 values).
      rewrite (data_2d points values (delaunay scp) HL), Ht. cbn [bind]. eexists. split; [reflexivity|]. eexists. split; [reflexivity|]. split; reflexivity.
    - destruct HB as (Ht & ->). unfold nearest_init. cbn [u_velocities u_points nrows cols2 mrows length Nat.eqb]. fold (cols2 points). fold (cols2 values).
      rewrite complex_cols2, transpose_cols2. cbn [bind]. unfold check_values. cbn [cols2 mcols]. rewrite HL, Nat.eqb_refl. cbn [bind].
      rewrite Ht. cbn [bind]. eexists. split; [reflexivity|]. eexists. split; [reflexivity|]. split; reflexivity.
  Qed.

  Lemma stage_new k name fn i : case_variant name (option_of k) -> create_interpolator O scp name None fn = Ok i -> stage k i None None.
  Proof.
    intros Hn Hi. destruct (create_spec O scp name None fn) as (_ & _ & Hc & Hl & Hne & _). destruct k; cbn [option_of] in Hn.
    - rewrite (Hc Hn) in Hi. injection Hi as <-. eexists. split; [reflexivity|]. split; reflexivity.
    - rewrite (Hl Hn) in Hi. injection Hi as <-. eexists. split; [reflexivity|]. split; reflexivity.
    - rewrite (Hne Hn) in Hi. injection Hi as <-. eexists. split; [reflexivity|]. split; reflexivity.
  Qed.
End Field.

Lemma reads_points points m : holds_points points m -> read_coordinate m = Ok (cols2 points).
Proof.
  intros (a & b & Ea & Eb & Ez & Da & Db). unfold read_coordinate. rewrite Ea, Eb, Ez. unfold ravel_c. rewrite Da, Db.
  rewrite (stack2 _ _ (length points)) by apply map_length. reflexivity.
Qed.
Lemma reads_values values m : holds_values values m -> read_velocity m = Ok (cols2 values).
Proof.
  intros (a & b & Ea & Eb & Ez & Da & Db). unfold read_velocity. rewrite Ea, Eb, Ez. unfold ravel_c. rewrite Da, Db.
  rewrite (stack2 _ _ (length values)) by apply map_length. reflexivity.
Qed.

Lemma same_names {T} snapshots coordinates particle (h : T) period f a b : mk_file_source snapshots coordinates particle h period = Ok f ->
  reuse_coordinates f = true -> In a coordinates -> In b coordinates -> a = b.
Proof.
  intros E R Ha Hb. destruct (string_dec a b) as [|N]; [assumption|exfalso].
  rewrite (not_reused _ _ _ _ _ _ E) in R; [discriminate|]. exists a, b. auto.
Qed.

Section Run.
  Context (lnF : PrimFloat.float -> PrimFloat.float) (scp : scipy PrimFloat.float) (imems : nat -> memory (T := PrimFloat.float)) {W : Type}.
  Variable eigvals : m33 PrimFloat.float -> res (PrimFloat.float * PrimFloat.float * PrimFloat.float).
  Variable mems : nat -> memory (T := PrimFloat.float).
  Variable write : W -> string -> list (xval PrimFloat.float) -> mat PrimFloat.float -> W * res unit.
  Local Notation O := (Fops lnF).

  Lemma scatter_run_F : forall fs name fn k (D : R * R -> Prop) m B M delta L rho n h hF v,
    accurate_log lnF -> case_variant name (option_of k) -> bounded_by B D ->
    tame_on_grid m B M delta L rho n h -> represents hF h ->
    (forall j, lipschitz_field 2 L (fun _ => v j)) ->
    (forall j, (j < n)%nat -> forall q, D q -> sized M (v j (row2 q))) ->
    forall first rest coordinates particle period src seeds gs Gs,
    mk_file_source (first :: rest) coordinates particle hF period = Ok src -> length (first :: rest) = n ->
    scattered fs scp k D delta v (first :: rest) coordinates ->
    fs particle = Ok seeds -> holds_seeds gs seeds -> Forall2 seated2 gs Gs -> Forall spaced2 Gs ->
    Forall (fun G => Forall (clearance rho D) (corners2 G)) Gs ->
    forall phi E0 E, 0 <= E0 -> E = rounding_bound n h delta B L + E0 -> E <= 2 ^ 199 ->
    (forall G x, In G Gs -> In x (corners2 G) -> near E0 (path Rops m (steps v h n) (row2 x)) (row2 (phi x))) ->
    Forall (fun G => exists s, resolved2 E phi G s) Gs ->
    forall queue writer (w : world PrimFloat.float (istate scp) unit W),
    create_interpolator O scp name None fn = Ok (fst (w_interp w)) -> w_integrator w = fresh m ->
    exists xs,
      Forall2 (fun G x => exists s, spectral_norm_2 (gradient2 G (image2 phi G)) s /\ ftle_within E (side2 G) s ((INR n - 1) * Rabs h) x) Gs xs /\
      let r := file_worker O scp imems eigvals mems write fs src queue writer w in
      (writer = false -> snd r = Ok (Some (map XVal xs))) /\
      (writer = true -> let rw := write (w_writer w) (append "ftle_" (Text.stem first)) (map XVal xs) (arr2 (map (mean2 O) gs)) in
       w_writer (fst r) = fst rw /\ snd r = (let* _ := snd rw in Ok None)).
  Proof.
    intros fs name fn k D m B M delta L rho n h hF v Hln Hname HB Ht Rh HL Hsp
      first rest coordinates particle period src seeds gs Gs Esrc En Hsc Eseeds Hseeds HG HS HC phi E0 E HE0 EE HE Hphi HR queue writer w Hi Hm.
    pose proof (fun a b => same_names _ _ _ _ _ _ a b Esrc) as Hsame.
    unfold mk_file_source in Esrc. injection Esrc as Esrc.
    assert (F1 : snapshot_files src = first :: rest) by (rewrite <- Esrc; reflexivity).
    assert (F2 : coordinate_files src = coordinates) by (rewrite <- Esrc; reflexivity).
    assert (F3 : particle_file src = particle) by (rewrite <- Esrc; reflexivity).
    assert (F4 : snapshot_timestep src = hF) by (rewrite <- Esrc; reflexivity).
    assert (F5 : file_id src = Text.stem first) by (rewrite <- Esrc; reflexivity). clear Esrc.
    (* the points kept from the first step *)
    set (kept := fun P : option (mat PrimFloat.float) => reuse_coordinates src = true -> forall cf dc points, In cf coordinates -> fs cf = Ok dc -> holds_points points dc -> P = Some (cols2 points)).
    set (ready := fun (j : nat) (s : istate scp) => exists P a, stage scp k (fst s) P a /\ (j <> 0%nat -> kept P)).
    destruct (finite_choice 2 2 (le_n 2) (le_n 2) (fun x : couple => x) (fun j g => exists vf cf dv dc points values answer,
       nth_error (first :: rest) j = Some vf /\ nth_error coordinates j = Some cf /\ fs vf = Ok dv /\ fs cf = Ok dc /\
       holds_points points dc /\ holds_values values dv /\ length values = length points /\ built_by scp k points values answer /\ pointwise D answer g /\
       forall p q, stand2 p q -> D q -> exists V, stand2 (g p) V /\ near delta (row2 V) (v j (row2 q))) n) as (g & Hg).
    { intros j Hj. rewrite <- En in Hj. destruct (Hsc j Hj) as (vf & cf & dv & dc & points & values & A1 & A2 & A3 & A4 & A5 & A6 & A7 & answer & A8 & g & A9 & A10).
      exists g, vf, cf, dv, dc, points, values, answer. do 9 (split; [assumption|]). exact A10. }
    apply (region_run lnF scp imems eigvals mems write fs D (has_field scp D k kept) ready m B M delta L rho n h hF v (fun j => row_field (g j)))
      with (rest := rest) (seeds := seeds) (E0 := E0); try assumption.
    - intros j _. apply HL.
    - intros cnt H3. apply field_samples. exact H3.
    - intros j f s (P & answer & g' & St & HP & _). exists P, (Some answer). auto.
    - intros j Hj. destruct (Hg j Hj) as (vf & cf & dv & dc & points & values & answer & A1 & A2 & A3 & A4 & A5 & A6 & A7 & A8 & A9 & A10). split; [|split].
      + intros [|a [|b [|c x]]] Hx; try discriminate Hx. cbn [row_field]. destruct (g j (a, b)). reflexivity.
      + intros [i c] (P & a & St & HP). cbn [fst] in St. cbn [file_task file_batch src_update]. unfold get_data_for_step, get. rewrite F1, F2, A1, A2. cbn [bind].
        rewrite A3. cbn [bind]. rewrite (reads_values _ _ A6). cbn [bind].
        assert (U : forall p, p = Some (cols2 points) \/ p = None /\ P = Some (cols2 points) ->
          exists s', i_update O scp (i, c) (cols2 values) p = (s', Ok tt) /\ has_field scp D k kept (row_field (g j)) s').
        { intros p Hp. destruct (stage_update lnF scp k i points values answer P a A7 A8 St p Hp) as (i' & E1 & E2).
          unfold i_update. cbn [fst snd]. rewrite E1. exists (i', c). split; [reflexivity|]. exists (Some (cols2 points)), answer, (g j).
          split; [exact E2|]. split; [|split; [exact A9|reflexivity]]. intros Re cf' dc' points' I' F' H'.
          assert (cf' = cf) by (apply Hsame; [exact Re|exact I'|exact (nth_error_In _ _ A2)]). subst cf'. rewrite A4 in F'. injection F' as <-.
          apply reads_points in H', A5. rewrite H' in A5. congruence. }
        destruct ((j =? 0)%nat || negb (reuse_coordinates src)) eqn:Eb.
        * rewrite A4. cbn [bind]. rewrite (reads_points _ _ A5). cbn [bind]. apply U. left. reflexivity.
        * apply U. right. split; [reflexivity|]. apply orb_false_iff in Eb. destruct Eb as [E1 E2]. apply Nat.eqb_neq in E1. apply negb_false_iff in E2.
          exact (HP E1 E2 cf dc points (nth_error_In _ _ A2) A4 A5).
      + intros x q Sx I. destruct (couple_of x) as (p & ->). { apply stands_len in Sx. rewrite Sx. destruct q. reflexivity. }
        apply stand2_row in Sx. destruct (A10 p q Sx I) as (V & SV & NV). exists (row2 V). split; [|exact NV].
        destruct p as [a b]. cbn [row_field row2]. apply stand2_row. exact SV.
    - rewrite F3. exact Eseeds.
    - exists None, None. split; [exact (stage_new lnF scp k name fn _ Hname Hi)|]. intro X. contradiction (X eq_refl).
  Qed.
End Run.

Lemma truncation_pos m n h L K J V : 0 <= L -> 0 <= K -> 0 <= J -> 0 <= V -> 0 <= truncation m n h L K J V.
Proof.
  intros L0 HK HJ HV. pose proof (Rabs_pos h). pose proof (pos_INR n). destruct m; cbn [truncation].
  - apply Rmult_le_pos; [assumption|]. apply Rmult_le_pos; [|left; apply exp_pos]. apply Rmult_le_pos; [|exact HK]. apply Rmult_le_pos; assumption.
  - apply Rmult_le_pos; [apply Rle_0_sqr|]. apply Rmult_le_pos; [|left; apply exp_pos].
    assert (0 <= 3 / 2 * J * (INR n * Rabs h)) by (apply Rmult_le_pos; [lra|apply Rmult_le_pos; assumption]). lra.
  - apply Rmult_le_pos; [assumption|]. apply Rmult_le_pos; [|left; apply exp_pos]. apply Rmult_le_pos; [apply Rmult_le_pos; assumption|].
    assert (0 <= L * V) by (apply Rmult_le_pos; assumption). lra.
Qed.

Lemma step_between t0 n h k : (k < n)%nat -> between t0 (t0 + INR n * h) (t0 + INR k * h).
Proof.
  intro Hk. unfold between. assert (INR k <= INR n) by (apply le_INR; lia). pose proof (pos_INR k). unfold Rmin, Rmax.
  destruct (Rle_dec t0 (t0 + INR n * h)) as [Q|Q].
  - destruct (Rle_dec 0 h); [split; nra|]. assert (INR n * h <= 0) by nra. assert (E : INR n * h = 0) by lra. destruct (Rmult_integral _ _ E); [|lra]. split; nra.
  - assert (h < 0) by nra. split; nra.
Qed.

(** Beside the flow of a velocity field [v] that was sampled at the times [t0], [t0 + h], ... *)
Lemma scatter_run_flow lnF (scp : scipy PrimFloat.float) imems {W} eigvals mems
  (write : W -> string -> list (xval PrimFloat.float) -> mat PrimFloat.float -> W * res unit) :
  forall fs name fn k (D : R * R -> Prop) m B M delta L rho n h hF v t0,
  accurate_log lnF -> case_variant name (option_of k) -> bounded_by B D ->
  tame_on_grid m B M delta L rho n h -> represents hF h ->
  lipschitz_field 2 L v ->
  (forall t q, between t0 (t0 + INR n * h) t -> D q -> sized M (v t (row2 q))) ->
  forall first rest coordinates particle period src seeds gs Gs,
  mk_file_source (first :: rest) coordinates particle hF period = Ok src -> length (first :: rest) = n ->
  scattered fs scp k D delta (fun j => v (t0 + INR j * h)) (first :: rest) coordinates ->
  fs particle = Ok seeds -> holds_seeds gs seeds -> Forall2 seated2 gs Gs -> Forall spaced2 Gs ->
  Forall (fun G => Forall (clearance rho D) (corners2 G)) Gs ->
  forall phi K J V E, 0 <= K -> 0 <= J -> 0 <= V -> E = rounding_bound n h delta B L + truncation m n h L K J V -> E <= 2 ^ 199 ->
  (forall G x, In G Gs -> In x (corners2 G) ->
     flow_along (regular m v t0 (t0 + INR n * h) K J V) v t0 (t0 + INR n * h) phi x) ->
  Forall (fun G => exists s, resolved2 E phi G s) Gs ->
  forall queue writer (w : world PrimFloat.float (istate scp) unit W),
  create_interpolator (Fops lnF) scp name None fn = Ok (fst (w_interp w)) -> w_integrator w = fresh m ->
  exists xs,
    Forall2 (fun G x => exists s, spectral_norm_2 (gradient2 G (image2 phi G)) s /\ ftle_within E (side2 G) s ((INR n - 1) * Rabs h) x) Gs xs /\
    let r := file_worker (Fops lnF) scp imems eigvals mems write fs src queue writer w in
    (writer = false -> snd r = Ok (Some (map XVal xs))) /\
    (writer = true -> let rw := write (w_writer w) (append "ftle_" (Text.stem first)) (map XVal xs) (arr2 (map (mean2 (Fops lnF)) gs)) in
       w_writer (fst r) = fst rw /\ snd r = (let* _ := snd rw in Ok None)).
Proof.
  intros fs name fn k D m B M delta L rho n h hF v t0 Hln Hname HB Ht Rh HL Hsp
    first rest coordinates particle period src seeds gs Gs Esrc En Hsc Eseeds Hseeds HG HS HC phi K J V E HK HJ HV EE HE Hphi HR queue writer w Hi Hm.
  pose proof Ht as (_ & _ & _ & L0 & _ & _ & _ & _ & _ & T11).
  apply (scatter_run_F lnF scp imems eigvals mems write fs name fn k D m B M delta L rho n h hF (fun j => v (t0 + INR j * h)))
    with (coordinates := coordinates) (particle := particle) (period := period) (rest := rest) (seeds := seeds) (E0 := truncation m n h L K J V); try assumption.
  - intro j. destruct HL as [K1 K2]. split; [intro; apply K1|intro; apply K2].
  - intros j Hj q I. apply Hsp; [apply step_between; exact Hj|exact I].
  - apply truncation_pos; assumption.
  - intros G x HG1 Hx. destruct (Hphi G x HG1 Hx) as (y & Y0 & Yt & Y1 & Yr). rewrite <- Y1.
    exact (truncation_bounds m v L K J V n h t0 y (row2 x) HL L0 HK HJ T11 Y0 Yt Yr).
Qed.

(** Beside the images of the method in exact arithmetic. *)
Lemma scatter_run_exact lnF (scp : scipy PrimFloat.float) imems {W} eigvals mems
  (write : W -> string -> list (xval PrimFloat.float) -> mat PrimFloat.float -> W * res unit) :
  forall fs name fn k (D : R * R -> Prop) m B M delta L rho n h hF v,
  accurate_log lnF -> case_variant name (option_of k) -> bounded_by B D ->
  tame_on_grid m B M delta L rho n h -> represents hF h ->
  (forall j, lipschitz_field 2 L (fun _ => v j)) ->
  (forall j q, (j < n)%nat -> D q -> sized M (v j (row2 q))) ->
  forall first rest coordinates particle period src seeds gs Gs,
  mk_file_source (first :: rest) coordinates particle hF period = Ok src -> length (first :: rest) = n ->
  scattered fs scp k D delta v (first :: rest) coordinates ->
  fs particle = Ok seeds -> holds_seeds gs seeds -> Forall2 seated2 gs Gs -> Forall spaced2 Gs ->
  Forall (fun G => Forall (clearance rho D) (corners2 G)) Gs ->
  forall phi, (forall G x, In G Gs -> In x (corners2 G) -> path Rops m (steps v h n) (row2 x) = row2 (phi x)) ->
  forall E, E = rounding_bound n h delta B L -> E <= 2 ^ 199 ->
  Forall (fun G => exists s, resolved2 E phi G s) Gs ->
  forall queue writer (w : world PrimFloat.float (istate scp) unit W),
  create_interpolator (Fops lnF) scp name None fn = Ok (fst (w_interp w)) -> w_integrator w = fresh m ->
  exists xs,
    Forall2 (fun G x => exists s, spectral_norm_2 (gradient2 G (image2 phi G)) s /\ ftle_within E (side2 G) s ((INR n - 1) * Rabs h) x) Gs xs /\
    let r := file_worker (Fops lnF) scp imems eigvals mems write fs src queue writer w in
    (writer = false -> snd r = Ok (Some (map XVal xs))) /\
    (writer = true -> let rw := write (w_writer w) (append "ftle_" (Text.stem first)) (map XVal xs) (arr2 (map (mean2 (Fops lnF)) gs)) in
       w_writer (fst r) = fst rw /\ snd r = (let* _ := snd rw in Ok None)).
Proof.
  intros fs name fn k D m B M delta L rho n h hF v Hln Hname HB Ht Rh HL Hsp
    first rest coordinates particle period src seeds gs Gs Esrc En Hsc Eseeds Hseeds HG HS HC phi Hphi E EE HE HR queue writer w Hi Hm.
  apply (scatter_run_F lnF scp imems eigvals mems write fs name fn k D m B M delta L rho n h hF v)
    with (coordinates := coordinates) (particle := particle) (period := period) (rest := rest) (seeds := seeds) (E0 := 0); try assumption.
  - intros j Hj q I. apply Hsp; assumption.
  - lra.
  - lra.
  - intros G x HG1 Hx. rewrite (Hphi G x HG1 Hx). apply near_refl.
Qed.
