(** A gridded task that meets the hypotheses of C114: the flow of (x, y, z) -> (y, x, z), sampled at 1025 x 1025 x 513 nodes
    of the cube [-2, 2]^3 in each of eight velocity files. *)
From Coq Require Import String Reals Lia Lra Psatz Floats.
From Flocq Require Import Core BinarySingleNaN PrimFloat.
From Verif Require Import Base Num NdArray Particles Jacobian Ftle Integrate GridInterp Interpolate Readers DataSource Solver FileRun SpecSeeds SpecInterp SpecFtle SpecGrid
  SpecFiles SpecIntegrate SpecOrder SpecConverge SpecFloat64 SpecAccuracy SpecEigen SpecFloatGrid SpecFloatJac SpecRounding SpecFloatRun SpecFloatRun3 SpecGridRun SpecGridRun3 FtleFacts3 OrderFacts
  ConvergeCases FloatArith BatchFloat FloatGrid FloatKernel FloatAxis FtleAccuracyMain FloatJac FloatRuns FloatFtleRun FloatFtleCases FloatFtleRun3 FloatEigenCases GridRunField GridRunMain
  GridRunCases GridRunField3 GridRunMain3.
Local Open Scope R_scope.

(** 513 layers at distance 1/128. *)
Definition layers : nat := Pos.to_nat 513.
Lemma layers_Z : Z.of_nat layers = 513%Z.
Proof. unfold layers. apply positive_nat_Z. Qed.
Lemma layers_R : INR layers = 513.
Proof. rewrite INR_IZR_INZ, layers_Z. reflexivity. Qed.
Definition layer (k : nat) : Z := (2 * Z.of_nat k - 512)%Z.

Definition array3 (g : nat -> nat -> nat -> PrimFloat.float) : nd PrimFloat.float :=
  Nd [lines; lines; layers] (map (fun s => g (s / layers mod lines) (s / layers / lines) (s mod layers)) (seq 0 (lines * lines * layers)))%nat.

Lemma array3_mesh g Q : (forall i j k, (i < lines)%nat -> (j < lines)%nat -> (k < layers)%nat -> exists X, represents (g i j k) X /\ Q i j k X) ->
  mesh3 lines layers Q (array3 g).
Proof.
  intro H. split; [reflexivity|]. split.
  - unfold wf_nd, array3. cbn [data shape]. rewrite map_length, seq_length. unfold size. cbn [fold_right]. lia.
  - intros i j k Hi Hj Hk. destruct (H i j k Hi Hj Hk) as (X & RX & QX). exists (g i j k), X. split; [|split; assumption].
    unfold nd_get, array3. cbn [shape data in_bounds].
    destruct (Nat.ltb_spec j lines); [|lia]. destruct (Nat.ltb_spec i lines); [|lia]. destruct (Nat.ltb_spec k layers); [|lia]. cbn [andb].
    replace (c_ravel [lines; lines; layers] [j; i; k]) with (k + (i + j * lines) * layers)%nat by (cbn [c_ravel]; unfold size; cbn [fold_right]; lia).
    unfold get. rewrite nth_error_map.
    assert (B : (k + (i + j * lines) * layers < lines * lines * layers)%nat).
    { assert (i + j * lines < lines * lines)%nat by nia. nia. }
    rewrite (nth_error_nth' _ 0%nat) by (rewrite seq_length; exact B). rewrite seq_nth by exact B. cbn [option_map].
    rewrite Nat.add_0_l. rewrite !Nat.div_add, !Nat.mod_add by lia. rewrite (Nat.div_small k), (Nat.mod_small k), Nat.add_0_l by lia.
    rewrite Nat.mod_add, Nat.div_add, Nat.mod_small, Nat.div_small by lia. reflexivity.
Qed.

Definition along_x3 : nd PrimFloat.float := array3 (fun i _ _ => part256 (node i)).
Definition along_y3 : nd PrimFloat.float := array3 (fun _ j _ => part256 (node j)).
Definition along_z3 : nd PrimFloat.float := array3 (fun _ _ k => part256 (layer k)).
(** The coordinates of the nodes; the velocity at the nodes; the neighbours of the seed at the origin. *)
Definition grid_file3 : matfile PrimFloat.float := fun k =>
  if String.eqb k "coordinate_x" then Some along_x3 else if String.eqb k "coordinate_y" then Some along_y3 else
  if String.eqb k "coordinate_z" then Some along_z3 else None.
Definition velocity_file3 : matfile PrimFloat.float := fun k =>
  if String.eqb k "velocity_x" then Some along_y3 else if String.eqb k "velocity_y" then Some along_x3 else
  if String.eqb k "velocity_z" then Some along_z3 else None.
Definition particle_file3 : matfile PrimFloat.float := fun k =>
  if String.eqb k "left" then Some (nd_of_mat (arr3 [h_left seed3_F])) else if String.eqb k "right" then Some (nd_of_mat (arr3 [h_right seed3_F])) else
  if String.eqb k "top" then Some (nd_of_mat (arr3 [h_top seed3_F])) else if String.eqb k "bottom" then Some (nd_of_mat (arr3 [h_bottom seed3_F])) else
  if String.eqb k "front" then Some (nd_of_mat (arr3 [h_front seed3_F])) else if String.eqb k "back" then Some (nd_of_mat (arr3 [h_back seed3_F])) else None.
Definition files3 : filesystem PrimFloat.float := fun name =>
  if in_dec string_dec name snapshots then Ok velocity_file3 else if in_dec string_dec name coordinates then Ok grid_file3 else
  if string_dec name "seeds.mat" then Ok particle_file3 else Err FileNotFoundError.

Lemma layer_rep k : (k < layers)%nat -> represents (part256 (layer k)) (IZR (layer k) / 256) /\ line layers (-2) 2 k = IZR (layer k) / 256 /\ -2 <= IZR (layer k) / 256 <= 2.
Proof.
  intro Hk. pose proof layers_Z. assert (B : (-512 <= layer k <= 512)%Z) by (unfold layer; lia).
  split; [apply part256_rep; lia|]. split.
  - unfold line, spacing, layer. rewrite layers_R, minus_IZR, mult_IZR, <- INR_IZR_INZ. field.
  - destruct B as [B1 B2]. apply IZR_le in B1, B2. lra.
Qed.

Lemma grid_held3 : holds_grid3 lines layers (-2) 2 (-2) 2 (-2) 2 grid_file3.
Proof.
  assert (K : forall i, (i < lines)%nat -> let X := IZR (node i) / 256 in -2 <= X <= 2 /\ (i = 0%nat -> X = -2) /\ ((i + 1)%nat = lines -> X = 2)).
  { intros i Hi X. split; [apply node_rep, Hi|]. split; intro E; unfold X, node.
    - subst i. cbn. lra.
    - replace (Z.of_nat i) with 1024%Z by (pose proof lines_Z; lia). cbn. lra. }
  assert (K' : forall k, (k < layers)%nat -> let X := IZR (layer k) / 256 in -2 <= X <= 2 /\ (k = 0%nat -> X = -2) /\ ((k + 1)%nat = layers -> X = 2)).
  { intros i Hi X. split; [apply layer_rep, Hi|]. split; intro E; unfold X, layer.
    - subst i. cbn. lra.
    - replace (Z.of_nat i) with 512%Z by (pose proof layers_Z; lia). cbn. lra. }
  exists along_x3, along_y3, along_z3. do 3 (split; [reflexivity|]). split; [|split]; apply array3_mesh; intros i j k Hi Hj Hk; eexists.
  - split; [apply node_rep; assumption|apply K, Hi].
  - split; [apply node_rep; assumption|apply K, Hj].
  - split; [apply layer_rep; assumption|apply K', Hk].
Qed.

Lemma velocity_held3 : holds_velocity3 lines layers (-2) 2 (-2) 2 (-2) 2 2 0 swirl velocity_file3.
Proof.
  exists along_y3, along_x3, along_z3. do 3 (split; [reflexivity|]). split; [|split]; apply array3_mesh; intros i j k Hi Hj Hk;
    destruct (node_rep i Hi) as (R1 & E1 & B1); destruct (node_rep j Hj) as (R2 & E2 & B2); destruct (layer_rep k Hk) as (R3 & E3 & B3).
  - exists (IZR (node j) / 256). split; [exact R2|]. split; [apply Rabs_le; lra|]. unfold coord. cbn [swirl nth].
    rewrite E2. unfold Rminus. rewrite Rplus_opp_r, Rabs_R0. lra.
  - exists (IZR (node i) / 256). split; [exact R1|]. split; [apply Rabs_le; lra|]. unfold coord. cbn [swirl nth].
    rewrite E1. unfold Rminus. rewrite Rplus_opp_r, Rabs_R0. lra.
  - exists (IZR (layer k) / 256). split; [exact R3|]. split; [apply Rabs_le; lra|]. unfold coord. cbn [swirl nth].
    rewrite E3. unfold Rminus. rewrite Rplus_opp_r, Rabs_R0. lra.
Qed.

Lemma files_gridded3 (v : nat -> list R -> list R) : v = (fun _ => swirl) -> gridded3 files3 lines layers (-2) 2 (-2) 2 (-2) 2 2 0 v snapshots coordinates.
Proof.
  intros -> k Hk. cbn [length snapshots] in Hk.
  assert (G : forall vf cf, nth_error snapshots k = Some vf -> nth_error coordinates k = Some cf -> ~ In cf snapshots ->
    exists vf cf dv dc, nth_error snapshots k = Some vf /\ nth_error coordinates k = Some cf /\ files3 vf = Ok dv /\ files3 cf = Ok dc /\
      holds_velocity3 lines layers (-2) 2 (-2) 2 (-2) 2 2 0 swirl dv /\ holds_grid3 lines layers (-2) 2 (-2) 2 (-2) 2 dc).
  { intros vf cf E1 E2 N. exists vf, cf, velocity_file3, grid_file3. split; [exact E1|]. split; [exact E2|].
    split. { unfold files3. destruct (in_dec string_dec vf snapshots) as [|X]; [reflexivity|]. destruct X. exact (nth_error_In _ _ E1). }
    split. { unfold files3. destruct (in_dec string_dec cf snapshots) as [|X]; [contradiction|].
      destruct (in_dec string_dec cf coordinates) as [|Y]; [reflexivity|]. destruct Y. exact (nth_error_In _ _ E2). }
    split; [exact velocity_held3|exact grid_held3]. }
  do 8 (destruct k as [|k]; [eapply G; [reflexivity|reflexivity|]; cbn; intuition discriminate|]). lia.
Qed.

Lemma short_gridded3 (v : nat -> list R -> list R) : v = (fun _ => swirl) ->
  gridded3 files3 lines layers (-2) 2 (-2) 2 (-2) 2 2 0 v (firstn 2 snapshots) (firstn 2 coordinates).
Proof.
  intros E k Hk. destruct (files_gridded3 v E k) as (vf & cf & dv & dc & A1 & A2 & A3); [cbn in *; lia|].
  exists vf, cf, dv, dc. split; [|split; [|exact A3]]; destruct k as [|[|k]]; try assumption; cbn in Hk; lia.
Qed.

(** How far the interpolated velocity is from the velocity, and how far the particles end from where the flow takes them. *)
Definition case_delta3 : R := sampling_error3 lines layers (-2) 2 (-2) 2 (-2) 2 1 2 0.
Definition case_error3 : R := rounding_bound 8 (1 / 64) case_delta3 2 1 + truncation MAB2 8 (1 / 64) 1 4 4 4.

Lemma case_delta3_small : 0 <= case_delta3 <= 1 / 127.
Proof.
  unfold case_delta3, sampling_error3, spacing. rewrite !plus_INR, lines_R, layers_R.
  replace ((2 - -2) / (1025 - 1)) with (1 / 256) by lra. replace ((2 - -2) / (513 - 1)) with (1 / 128) by lra.
  rewrite (Rmax_left (1 / 256) (1 / 256)) by lra. rewrite Rmax_right by lra.
  assert (P : 0 < / 2 ^ 1071 <= / 2 ^ 20) by (split; [apply Rinv_0_lt_compat, pow_lt; lra|apply inv_two_le; lia]).
  replace (2 ^ 20) with 1048576 in P by (cbn [pow]; lra). replace (2 ^ 48) with 281474976710656 by (cbn [pow]; lra). lra.
Qed.

Lemma case_error3_small : 0 <= case_error3 <= / 230.
Proof.
  pose proof case_delta3_small as D. unfold case_error3, rounding_bound, truncation. rewrite (Rabs_pos_eq (1 / 64)) by lra. replace (INR 8) with 8 by (cbn; lra).
  replace (2 * (8 * (1 / 64) * 1)) with (1 / 8 + 1 / 8) by lra. rewrite exp_plus.
  destruct exp_eighth as [L U]. set (e := exp (1 / 8)) in *. assert (X : 0 <= e * e <= 64 / 49) by nra.
  replace (2 ^ 50) with 1125899906842624 by (cbn [pow]; lra). set (z := e * e) in *. clearbody z.
  set (a := 8 * (2 * (1 / 64) * case_delta3 + 2 / 1125899906842624)). assert (A : 0 <= a <= 1 / 500) by (unfold a; lra). clearbody a.
  assert (Y : 0 <= a * z <= 1 / 500 * (64 / 49)). { split; [apply Rmult_le_pos; lra|apply Rmult_le_compat; lra]. } lra.
Qed.

Lemma case_resolved3 : resolved3 case_error3 (hyper3 (0 + INR 8 * (1 / 64))) seed3_R (exp (1 / 8)).
Proof.
  destruct hyper3_resolved as (A1 & A2 & _ & A4). split; [exact A1|]. split; [exact A2|]. split; [|exact A4].
  rewrite seed3_side. destruct exp_eighth as [L U]. pose proof case_error3_small as X. replace (2 ^ 6) with 64 by (cbn; lra). lra.
Qed.

Lemma case_tame3 : tame_on_grid MAB2 2 2 case_delta3 1 (5 / 8) 8 (1 / 64).
Proof.
  pose proof case_delta3_small as D. unfold tame_on_grid. rewrite (Rabs_pos_eq (1 / 64)) by lra. replace (INR 8) with 8 by (cbn; lra).
  split. { split; [apply le_inv_pow; [cbn; lra|lia]|apply ge_pow; [cbn; lra|lia]]. }
  split. { split; [apply le_inv_pow; [cbn; lra|lia]|apply ge_pow; [cbn; lra|lia]]. }
  split. { split; [lra|apply ge_pow; [cbn; lra|lia]]. }
  split; [lra|]. split; [lia|]. split; [apply ge_pow; [cbn; lra|lia]|].
  split. { split; [|apply ge_pow; [cbn; lra|lia]]. apply Rle_trans with (/ 2 ^ 6); [apply inv_two_le; lia|]. replace (2 ^ 6) with 64 by (cbn; lra). lra. }
  split; [lra|]. split; [|discriminate]. replace (2 ^ 51) with 2251799813685248 by (cbn [pow]; lra). lra.
Qed.

Lemma case_clear3 : Forall (clear_in (5 / 8) (-2) 2 (-2) 2 (-2) 2) [seed3_R].
Proof.
  constructor; [|constructor]. unfold clear_in, corners3, seed3_R, clear_of, v0, v1, v2. cbn [h_left h_right h_top h_bottom h_front h_back].
  replace (2 ^ 49) with 562949953421312 by (cbn [pow]; lra).
  repeat (apply Forall_cons; [cbn [fst snd]; split; [|split]; split; lra|]). constructor.
Qed.

Lemma sized_triple B p q r : 0 <= B -> Rabs p <= B -> Rabs q <= B -> Rabs r <= B -> sized B [p; q; r].
Proof. intros HB Hp Hq Hr [|[|[|i]]]; unfold coord; cbn [nth]; try assumption. destruct i; rewrite Rabs_R0; exact HB. Qed.

Definition case_world3 (scp : scipy PrimFloat.float) : world PrimFloat.float (istate scp) unit unit :=
  World (fresh MAB2) (IHigh (highperf_new [lines; lines; layers]), 0%nat) tt [] tt 0.

Lemma grid_case3 : forall scp imems mems write, mk_file_source snapshots coordinates "seeds.mat" 0.015625%float 8 = Ok case_source /\
  exists x r, snd (file_worker (Fops lnR_rounded) scp imems eigvals_rounded mems write files3 case_source false false (case_world3 scp)) = Ok (Some [XVal x]) /\
    represents x r /\ Rabs (r - (1 / 8) / (7 / 64)) <= 1 / 4.
Proof.
  intros scp imems mems write. split; [reflexivity|].
  assert (I8 : INR 8 = 8) by (cbn; lra). assert (A : Rabs (1 / 64) = 1 / 64) by (apply Rabs_pos_eq; lra).
  assert (A2 : Rabs (-2) <= 2 /\ Rabs 2 <= 2) by (split; apply Rabs_le; lra).
  assert (SE : sane_extent (-2) 2) by (split; [apply le_inv_pow; [cbn; lra|lia]|apply ge_pow; [cbn; lra|lia]]).
  pose proof case_error3_small as HE.
  destruct (grid_run_flow3 lnR_rounded scp imems eigvals_rounded mems write files3 "grid" None lines layers (-2) 2 (-2) 2 (-2) 2 MAB2 2 2 0 1 (5 / 8) 8 (1 / 64) 0.015625%float (fun _ => swirl) 0
    lnR_rounded_accurate eigvals_rounded_accurate) with (delta := case_delta3) (first := "v0.mat"%string) (rest := tl snapshots) (coordinates := coordinates) (particle := "seeds.mat"%string)
    (period := 8%Z) (src := case_source) (seeds := particle_file3) (gs := [seed3_F]) (Gs := [seed3_R]) (phi := hyper3 (0 + INR 8 * (1 / 64))) (K := 4) (J := 4) (V := 4) (E := case_error3)
    (queue := false) (writer := false) (w := case_world3 scp) as (xs & Hxs & Exs & _).
  - cbn; unfold same_letter; tauto.
  - pose proof lines_Z. lia.
  - pose proof layers_Z. lia.
  - rewrite lines_Z. reflexivity || (unfold INT_MAX; lia).
  - rewrite layers_Z. reflexivity || (unfold INT_MAX; lia).
  - rewrite lines_Z, layers_Z. reflexivity || (unfold INT_MAX; lia).
  - exact SE.
  - exact SE.
  - exact SE.
  - exact A2.
  - exact A2.
  - exact A2.
  - reflexivity.
  - exact case_tame3.
  - exact rep_64th.
  - exact swirl_lipschitz.
  - intros t X Y Z _ HX HY HZ. cbn [swirl]. apply sized_triple; [lra| | |]; apply Rabs_le; lra.
  - reflexivity.
  - reflexivity.
  - apply (files_gridded3 (fun _ => swirl)). reflexivity.
  - exists "c0.mat"%string, "c1.mat"%string. split; [cbn; tauto|]. split; [cbn; tauto|discriminate].
  - reflexivity.
  - repeat (split; [reflexivity|]). reflexivity.
  - exact seed3_seated.
  - exact seed3_spaced.
  - exact case_clear3.
  - lra.
  - lra.
  - lra.
  - reflexivity.
  - apply below_199. lra.
  - intros G x [<-|[]] Hx. apply hyper3_flows; [rewrite I8; lra| | |];
      (cbn in Hx; destruct Hx as [<-|[<-|[<-|[<-|[<-|[<-|[]]]]]]]; unfold v0, v1, v2; cbn [fst snd]; apply Rabs_le; lra).
  - constructor; [|constructor]. eexists. exact case_resolved3.
  - reflexivity.
  - reflexivity.
  - cbv zeta in Exs. specialize (Exs eq_refl).
    inversion Hxs as [|? x ? l (s & Rs & r & Rr & Hr) Hl]; subst. inversion Hl; subst. exists x, r.
    split; [exact Exs|]. split; [exact Rr|].
    rewrite (spectral_norm_3_unique _ _ _ Rs (proj1 case_resolved3)), I8, A, seed3_side, ln_exp in Hr.
    replace ((8 - 1) * (1 / 64)) with (7 / 64) in Hr by lra. apply Rle_trans with (1 := Hr).
    destruct exp_eighth as [L U]. set (e := exp (1 / 8)) in *.
    assert (X : 12 * case_error3 / (e * 2) <= 6 * case_error3).
    { replace (12 * case_error3 / (e * 2)) with (6 * case_error3 * / e) by (field; lra). rewrite <- (Rmult_1_r (6 * case_error3)) at 2.
      apply Rmult_le_compat_l; [lra|]. rewrite <- Rinv_1. apply Rinv_le_contravar; lra. }
    replace (2 ^ 34) with 17179869184 by (cbn [pow]; lra). lra.
Qed.

(* ---- two Euler steps of 1/16, beside their exact images ---- *)
Definition short_world3 (scp : scipy PrimFloat.float) : world PrimFloat.float (istate scp) unit unit :=
  World (fresh MEuler) (IHigh (highperf_new [lines; lines; layers]), 0%nat) tt [] tt 0.
Definition short_error3 : R := rounding_bound 2 (1 / 16) case_delta3 2 1.

Lemma short_error3_small : 0 <= short_error3 <= / 350.
Proof.
  pose proof case_delta3_small as D. unfold short_error3, rounding_bound. rewrite (Rabs_pos_eq (1 / 16)) by lra. replace (INR 2) with 2 by (cbn; lra).
  pose proof exp_quarter as X. pose proof (exp_pos (2 * (2 * (1 / 16) * 1))) as P. set (z := exp _) in *. clearbody z.
  replace (2 ^ 50) with 1125899906842624 by (cbn [pow]; lra).
  set (a := 2 * (2 * (1 / 16) * case_delta3 + 2 / 1125899906842624)). assert (A : 0 <= a <= 1 / 500) by (unfold a; lra). clearbody a.
  assert (Y : 0 <= a * z <= 1 / 500 * (4 / 3)). { split; [apply Rmult_le_pos; lra|apply Rmult_le_compat; lra]. } lra.
Qed.

Lemma short_resolved3 : resolved3 short_error3 two_steps3 seed3_R (289 / 256).
Proof.
  destruct two_steps3_resolved as (A1 & A2 & _ & A4). split; [exact A1|]. split; [exact A2|]. split; [|exact A4].
  rewrite seed3_side. pose proof short_error3_small as X. replace (2 ^ 6) with 64 by (cbn; lra). lra.
Qed.

Lemma short_tame3 : tame_on_grid MEuler 2 2 case_delta3 1 (5 / 8) 2 (1 / 16).
Proof.
  pose proof case_delta3_small as D. unfold tame_on_grid. rewrite (Rabs_pos_eq (1 / 16)) by lra. replace (INR 2) with 2 by (cbn; lra).
  split. { split; [apply le_inv_pow; [cbn; lra|lia]|apply ge_pow; [cbn; lra|lia]]. }
  split. { split; [apply le_inv_pow; [cbn; lra|lia]|apply ge_pow; [cbn; lra|lia]]. }
  split. { split; [lra|apply ge_pow; [cbn; lra|lia]]. }
  split; [lra|]. split; [lia|]. split; [apply ge_pow; [cbn; lra|lia]|].
  split. { split; [|apply ge_pow; [cbn; lra|lia]]. apply Rle_trans with (/ 2 ^ 6); [apply inv_two_le; lia|]. replace (2 ^ 6) with 64 by (cbn; lra). lra. }
  split; [lra|]. split; [|discriminate]. replace (2 ^ 51) with 2251799813685248 by (cbn [pow]; lra). lra.
Qed.

Lemma short_case3 : forall scp imems mems write, mk_file_source (firstn 2 snapshots) (firstn 2 coordinates) "seeds.mat" 0.0625%float 2 = Ok short_source /\
  exists x r, w_writer (fst (file_worker (Fops lnR_rounded) scp imems eigvals_rounded mems write files3 short_source false true (short_world3 scp)))
      = fst (write tt "ftle_v0" [XVal x] (arr3 [mean3 (Fops lnR_rounded) seed3_F]))%string /\
    represents x r /\ Rabs (r - ln (289 / 256) / (1 / 16)) <= 1 / 4.
Proof.
  intros scp imems mems write. split; [reflexivity|].
  assert (I2 : INR 2 = 2) by (cbn; lra). assert (A : Rabs (1 / 16) = 1 / 16) by (apply Rabs_pos_eq; lra).
  assert (A2 : Rabs (-2) <= 2 /\ Rabs 2 <= 2) by (split; apply Rabs_le; lra).
  assert (SE : sane_extent (-2) 2) by (split; [apply le_inv_pow; [cbn; lra|lia]|apply ge_pow; [cbn; lra|lia]]).
  pose proof short_error3_small as HE.
  destruct (grid_run_exact3 lnR_rounded scp imems eigvals_rounded mems write files3 "grid" None lines layers (-2) 2 (-2) 2 (-2) 2 MEuler 2 2 0 1 (5 / 8) 2 (1 / 16) 0.0625%float (fun _ => swirl)
    lnR_rounded_accurate eigvals_rounded_accurate) with (delta := case_delta3) (first := "v0.mat"%string) (rest := ["v1.mat"]%string) (coordinates := firstn 2 coordinates) (particle := "seeds.mat"%string)
    (period := 2%Z) (src := short_source) (seeds := particle_file3) (gs := [seed3_F]) (Gs := [seed3_R]) (phi := two_steps3) (E := short_error3)
    (queue := false) (writer := true) (w := short_world3 scp) as (xs & Hxs & _ & Exs).
  - cbn; unfold same_letter; tauto.
  - pose proof lines_Z. lia.
  - pose proof layers_Z. lia.
  - rewrite lines_Z. reflexivity || (unfold INT_MAX; lia).
  - rewrite layers_Z. reflexivity || (unfold INT_MAX; lia).
  - rewrite lines_Z, layers_Z. reflexivity || (unfold INT_MAX; lia).
  - exact SE.
  - exact SE.
  - exact SE.
  - exact A2.
  - exact A2.
  - exact A2.
  - reflexivity.
  - exact short_tame3.
  - exact rep_16th.
  - intro k. exact swirl_lipschitz.
  - intros k X Y Z _ HX HY HZ. cbn [swirl]. apply sized_triple; [lra| | |]; apply Rabs_le; lra.
  - reflexivity.
  - reflexivity.
  - apply (short_gridded3 (fun _ => swirl)). reflexivity.
  - exists "c0.mat"%string, "c1.mat"%string. split; [cbn; tauto|]. split; [cbn; tauto|discriminate].
  - reflexivity.
  - repeat (split; [reflexivity|]). reflexivity.
  - exact seed3_seated.
  - exact seed3_spaced.
  - exact case_clear3.
  - intros G x _ _. apply two_steps3_path.
  - reflexivity.
  - apply below_199. lra.
  - constructor; [|constructor]. eexists. exact short_resolved3.
  - reflexivity.
  - reflexivity.
  - specialize (Exs eq_refl).
    inversion Hxs as [|? x ? l (s & Rs & r & Rr & Hr) Hl]; subst. inversion Hl; subst. exists x, r.
    split; [exact (proj1 Exs)|]. split; [exact Rr|].
    rewrite (spectral_norm_3_unique _ _ _ Rs (proj1 short_resolved3)), I2, A, seed3_side in Hr.
    replace ((2 - 1) * (1 / 16)) with (1 / 16) in Hr by lra. apply Rle_trans with (1 := Hr).
    replace (12 * short_error3 / (289 / 256 * 2)) with (12 * 128 / 289 * short_error3) by field.
    replace (2 ^ 34) with 17179869184 by (cbn [pow]; lra). lra.
Qed.
