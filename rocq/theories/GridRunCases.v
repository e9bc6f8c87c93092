(** A gridded task that meets the hypotheses of C111: the saddle flow (x, y) -> (y, x), sampled at 1025 x 1025 nodes of
    [-2, 2] x [-2, 2] in each of eight velocity files. *)
From Coq Require Import String Reals Lia Lra Psatz Floats.
From Flocq Require Import Core BinarySingleNaN PrimFloat.
From Verif Require Import Base Num NdArray Particles Jacobian Ftle Integrate GridInterp Interpolate Readers DataSource Solver FileRun SpecSeeds SpecInterp SpecFtle SpecGrid
  SpecFiles SpecIntegrate SpecOrder SpecConverge SpecFloat64 SpecAccuracy SpecFloatGrid SpecFloatJac SpecRounding SpecFloatRun SpecGridRun FtleFacts2 OrderFacts ConvergeCases FloatArith
  BatchFloat FloatGrid FloatKernel FloatAxis FtleAccuracyMain FloatJac FloatRuns FloatFtleRun FloatFtleCases GridRunField GridRunMain.
Local Open Scope R_scope.
Local Instance prec53 : Prec_gt_0 53 := eq_refl.

(** The number z / 256. *)
Definition part256 (z : Z) : PrimFloat.float := PrimFloat.div (F_ofZ z) 256%float.

Lemma rep_256 : represents 256%float 256.
Proof. split; [reflexivity|]. vm_compute (Prim2SF _). unfold SF2R, F2R. cbn. lra. Qed.

Lemma part256_rep z : (Z.abs z < 2 ^ 53)%Z -> represents (part256 z) (IZR z / 256).
Proof.
  intro Hz. pose proof (int_rep z (Z.lt_le_incl _ _ Hz)) as Rz. pose proof rep_256 as R2. unfold part256. revert Rz R2.
  rewrite !represents_B. intros [Hxf HX] [Hyf HY].
  pose proof (Bdiv_correct prec emax Hprec Hmax mode_NE (Prim2B (F_ofZ z)) (Prim2B 256%float)) as H.
  rewrite HY in H. specialize (H ltac:(lra)).
  rewrite HX in H. change (round_mode mode_NE) with ZnearestE in H.
  change (SpecFloat.fexp prec emax) with fexp64 in H. change emax with 1024%Z in H.
  assert (Q : IZR z / 256 = F2R (Float radix2 z (-8))) by (unfold F2R; cbn; lra).
  assert (Fm : generic_format radix2 fexp64 (IZR z / 256)).
  { rewrite Q. apply generic_format_FLT.
    exists (Float radix2 z (-8)); cbn [Fnum Fexp]; [reflexivity| |lia]. change (radix2 ^ 53)%Z with (2 ^ 53)%Z. exact Hz. }
  assert (A : Rabs (IZR z / 256) <= bpow radix2 1000).
  { apply Rle_trans with (bpow radix2 53); [|apply bpow_le; lia]. replace (bpow radix2 53) with (IZR (2 ^ 53)) by (cbn; lra).
    unfold Rdiv. rewrite Rabs_mult, <- abs_IZR. rewrite (Rabs_pos_eq (/ 256)) by lra. apply IZR_lt in Hz. pose proof (IZR_le 0 (Z.abs z) ltac:(lia)). lra. }
  rewrite (Rlt_bool_true _ _ (rnd_lt _ A)) in H. destruct H as (Hv & Hf & _).
  rewrite (round_generic radix2 fexp64 ZnearestE _ Fm) in Hv.
  rewrite div_equiv. change 1024%Z with emax in *. split; [rewrite Hf; exact Hxf|exact Hv].
Qed.

(** 1025 lines at distance 1/256. *)
Definition lines : nat := Pos.to_nat 1025.
Lemma lines_Z : Z.of_nat lines = 1025%Z.
Proof. unfold lines. apply positive_nat_Z. Qed.
Lemma lines_R : INR lines = 1025.
Proof. rewrite INR_IZR_INZ, lines_Z. reflexivity. Qed.
Definition node (i : nat) : Z := (Z.of_nat i - 512)%Z.

Definition array (g : nat -> nat -> PrimFloat.float) : nd PrimFloat.float :=
  Nd [lines; lines] (map (fun k => g (k mod lines) (k / lines)) (seq 0 (lines * lines)))%nat.

Lemma array_mesh g Q : (forall i j, (i < lines)%nat -> (j < lines)%nat -> exists X, represents (g i j) X /\ Q i j X) -> mesh lines lines Q (array g).
Proof.
  intro H. split; [reflexivity|]. split.
  - unfold wf_nd, array. cbn [data shape]. rewrite map_length, seq_length. unfold size. cbn [fold_right]. lia.
  - intros i j Hi Hj. destruct (H i j Hi Hj) as (X & RX & QX). exists (g i j), X. split; [|split; assumption].
    unfold nd_get, array. cbn [shape data in_bounds].
    destruct (Nat.ltb_spec j lines); [|lia]. destruct (Nat.ltb_spec i lines); [|lia]. cbn [andb].
    replace (c_ravel [lines; lines] [j; i]) with (i + j * lines)%nat by (cbn [c_ravel]; unfold size; cbn [fold_right]; lia).
    unfold get. rewrite nth_error_map.
    assert (B : (i + j * lines < lines * lines)%nat) by nia.
    rewrite (nth_error_nth' _ 0%nat) by (rewrite seq_length; exact B). rewrite seq_nth by exact B. cbn [option_map].
    rewrite Nat.add_0_l, Nat.mod_add, Nat.mod_small, Nat.div_add, Nat.div_small by lia. reflexivity.
Qed.

Definition along_x : nd PrimFloat.float := array (fun i _ => part256 (node i)).
Definition along_y : nd PrimFloat.float := array (fun _ j => part256 (node j)).
(** The coordinates of the nodes; the saddle at the nodes; the neighbours of the seed at the origin. *)
Definition grid_file : matfile PrimFloat.float := fun k =>
  if String.eqb k "coordinate_x" then Some along_x else if String.eqb k "coordinate_y" then Some along_y else None.
Definition velocity_file : matfile PrimFloat.float := fun k =>
  if String.eqb k "velocity_x" then Some along_y else if String.eqb k "velocity_y" then Some along_x else None.
Definition particle_file : matfile PrimFloat.float := fun k =>
  if String.eqb k "left" then Some (nd_of_mat (arr2 [g_left seed_F])) else if String.eqb k "right" then Some (nd_of_mat (arr2 [g_right seed_F])) else
  if String.eqb k "top" then Some (nd_of_mat (arr2 [g_top seed_F])) else if String.eqb k "bottom" then Some (nd_of_mat (arr2 [g_bottom seed_F])) else None.
Definition snapshots : list string := ["v0.mat"; "v1.mat"; "v2.mat"; "v3.mat"; "v4.mat"; "v5.mat"; "v6.mat"; "v7.mat"]%string.
Definition coordinates : list string := ["c0.mat"; "c1.mat"; "c2.mat"; "c3.mat"; "c4.mat"; "c5.mat"; "c6.mat"; "c7.mat"]%string.
Definition files : filesystem PrimFloat.float := fun name =>
  if in_dec string_dec name snapshots then Ok velocity_file else if in_dec string_dec name coordinates then Ok grid_file else
  if string_dec name "seeds.mat" then Ok particle_file else Err FileNotFoundError.

Lemma node_rep i : (i < lines)%nat -> represents (part256 (node i)) (IZR (node i) / 256) /\ line lines (-2) 2 i = IZR (node i) / 256 /\ -2 <= IZR (node i) / 256 <= 2.
Proof.
  intro Hi. pose proof lines_Z. assert (B : (-512 <= node i <= 512)%Z) by (unfold node; lia).
  split; [apply part256_rep; lia|]. split.
  - unfold line, spacing, node. rewrite lines_R, minus_IZR, <- INR_IZR_INZ. field.
  - destruct B as [B1 B2]. apply IZR_le in B1, B2. lra.
Qed.

Lemma grid_held : holds_grid lines lines (-2) 2 (-2) 2 grid_file.
Proof.
  assert (K : forall i, (i < lines)%nat -> let X := IZR (node i) / 256 in -2 <= X <= 2 /\ (i = 0%nat -> X = -2) /\ ((i + 1)%nat = lines -> X = 2)).
  { intros i Hi X. split; [apply node_rep, Hi|]. split; intro E; unfold X, node.
    - subst i. cbn. lra.
    - replace (Z.of_nat i) with 1024%Z by (pose proof lines_Z; lia). cbn. lra. }
  exists along_x, along_y. do 3 (split; [reflexivity|]). split; apply array_mesh; intros i j Hi Hj; eexists; (split; [apply node_rep; assumption|]).
  - apply K, Hi.
  - apply K, Hj.
Qed.

Lemma velocity_held : holds_velocity lines lines (-2) 2 (-2) 2 2 0 saddle velocity_file.
Proof.
  exists along_y, along_x. do 3 (split; [reflexivity|]). split; apply array_mesh; intros i j Hi Hj;
    destruct (node_rep i Hi) as (R1 & E1 & B1); destruct (node_rep j Hj) as (R2 & E2 & B2).
  - exists (IZR (node j) / 256). split; [exact R2|]. split; [apply Rabs_le; lra|]. unfold coord. cbn [saddle nth].
    rewrite E2. unfold Rminus. rewrite Rplus_opp_r, Rabs_R0. lra.
  - exists (IZR (node i) / 256). split; [exact R1|]. split; [apply Rabs_le; lra|]. unfold coord. cbn [saddle nth].
    rewrite E1. unfold Rminus. rewrite Rplus_opp_r, Rabs_R0. lra.
Qed.

Lemma files_gridded (v : nat -> list R -> list R) : v = (fun _ => saddle) -> gridded files lines lines (-2) 2 (-2) 2 2 0 v snapshots coordinates.
Proof.
  intros -> k Hk. cbn [length snapshots] in Hk.
  assert (G : forall vf cf, nth_error snapshots k = Some vf -> nth_error coordinates k = Some cf -> ~ In cf snapshots ->
    exists vf cf dv dc, nth_error snapshots k = Some vf /\ nth_error coordinates k = Some cf /\ files vf = Ok dv /\ files cf = Ok dc /\
      holds_velocity lines lines (-2) 2 (-2) 2 2 0 saddle dv /\ holds_grid lines lines (-2) 2 (-2) 2 dc).
  { intros vf cf E1 E2 N. exists vf, cf, velocity_file, grid_file. split; [exact E1|]. split; [exact E2|].
    split. { unfold files. destruct (in_dec string_dec vf snapshots) as [|X]; [reflexivity|]. destruct X. exact (nth_error_In _ _ E1). }
    split. { unfold files. destruct (in_dec string_dec cf snapshots) as [|X]; [contradiction|].
      destruct (in_dec string_dec cf coordinates) as [|Y]; [reflexivity|]. destruct Y. exact (nth_error_In _ _ E2). }
    split; [exact velocity_held|exact grid_held]. }
  do 8 (destruct k as [|k]; [eapply G; [reflexivity|reflexivity|]; cbn; intuition discriminate|]). lia.
Qed.

(** How far the interpolated saddle is from the saddle, and how far the particles end from where the flow takes them. *)
Definition case_delta : R := sampling_error lines lines (-2) 2 (-2) 2 1 2 0.
Definition case_error : R := rounding_bound 8 (1 / 64) case_delta 2 1 + truncation MAB2 8 (1 / 64) 1 2 2 2.

Lemma case_delta_small : 0 <= case_delta <= 1 / 250.
Proof.
  unfold case_delta, sampling_error, spacing. rewrite plus_INR, lines_R.
  replace ((2 - -2) / (1025 - 1)) with (1 / 256) by lra. rewrite Rmax_left by lra.
  assert (P : 0 < / 2 ^ 1071 <= / 2 ^ 20) by (split; [apply Rinv_0_lt_compat, pow_lt; lra|apply inv_two_le; lia]).
  replace (2 ^ 20) with 1048576 in P by (cbn [pow]; lra). replace (2 ^ 48) with 281474976710656 by (cbn [pow]; lra). lra.
Qed.

Lemma case_error_small : 0 <= case_error <= / 400.
Proof.
  pose proof case_delta_small as D. unfold case_error, rounding_bound, truncation. rewrite (Rabs_pos_eq (1 / 64)) by lra. replace (INR 8) with 8 by (cbn; lra).
  replace (2 * (8 * (1 / 64) * 1)) with (1 / 8 + 1 / 8) by lra. rewrite exp_plus.
  destruct exp_eighth as [L U]. set (e := exp (1 / 8)) in *. assert (X : 0 <= e * e <= 64 / 49) by nra.
  replace (2 ^ 50) with 1125899906842624 by (cbn [pow]; lra). set (z := e * e) in *. clearbody z.
  set (a := 8 * (2 * (1 / 64) * case_delta + 2 / 1125899906842624)). assert (A : 0 <= a <= 1 / 990) by (unfold a; lra). clearbody a.
  assert (Y : 0 <= a * z <= 1 / 990 * (64 / 49)). { split; [apply Rmult_le_pos; lra|apply Rmult_le_compat; lra]. } lra.
Qed.

Lemma case_resolved : resolved2 case_error (hyper (0 + INR 8 * (1 / 64))) seed_R (exp (1 / 8)).
Proof.
  destruct hyper_resolved as (A1 & A2 & _ & A4). split; [exact A1|]. split; [exact A2|]. split; [|exact A4].
  replace (0 + INR 8 * (1 / 64)) with (1 / 8) by (cbn; lra). rewrite hyper_gradient, seed_side.
  destruct exp_eighth as [L U]. assert (I1 : exp (1 / 8) * exp (- (1 / 8)) = 1) by (rewrite <- exp_plus, Rplus_opp_r; apply exp_0).
  set (e := exp (1 / 8)) in *. set (e' := exp (- (1 / 8))) in *.
  exists (1 / 3). split; [split; [apply le_inv_pow; [cbn; lra|lia]|lra]|]. split.
  - unfold det22. cbn [a00 a01 a10 a11].
    replace ((e + e') / 2 * ((e + e') / 2) - (e - e') / 2 * ((e - e') / 2)) with (e * e') by field. rewrite I1.
    assert (81 / 64 <= e * e) by nra. assert (6561 / 4096 <= e * e * (e * e)) by nra. lra.
  - pose proof case_error_small as X. replace (2 ^ 8) with 256 by (cbn; lra). lra.
Qed.

Lemma case_tame : tame_on_grid MAB2 2 2 case_delta 1 (5 / 8) 8 (1 / 64).
Proof.
  pose proof case_delta_small as D. unfold tame_on_grid. rewrite (Rabs_pos_eq (1 / 64)) by lra. replace (INR 8) with 8 by (cbn; lra).
  split. { split; [apply le_inv_pow; [cbn; lra|lia]|apply ge_pow; [cbn; lra|lia]]. }
  split. { split; [apply le_inv_pow; [cbn; lra|lia]|apply ge_pow; [cbn; lra|lia]]. }
  split. { split; [lra|apply ge_pow; [cbn; lra|lia]]. }
  split; [lra|]. split; [lia|]. split; [apply ge_pow; [cbn; lra|lia]|].
  split. { split; [|apply ge_pow; [cbn; lra|lia]]. apply Rle_trans with (/ 2 ^ 6); [apply inv_two_le; lia|]. replace (2 ^ 6) with 64 by (cbn; lra). lra. }
  split; [lra|]. split; [|discriminate]. replace (2 ^ 51) with 2251799813685248 by (cbn [pow]; lra). lra.
Qed.

Lemma case_clear : Forall (fun G => Forall (fun x => clear_of (5 / 8) (-2) 2 (fst x) /\ clear_of (5 / 8) (-2) 2 (snd x)) (corners2 G)) [seed_R].
Proof.
  constructor; [|constructor]. unfold corners2, seed_R, clear_of. cbn [g_left g_right g_top g_bottom].
  replace (2 ^ 49) with 562949953421312 by (cbn [pow]; lra).
  repeat (apply Forall_cons; [cbn [fst snd]; split; split; lra|]). constructor.
Qed.

Definition case_source : file_source PrimFloat.float := FileSource snapshots coordinates "seeds.mat" 0.015625%float 8 false "v0".
Definition case_world (scp : scipy PrimFloat.float) : world PrimFloat.float (istate scp) unit unit :=
  World (fresh MAB2) (IHigh (highperf_new [lines; lines]), 0%nat) tt [] tt 0.

Lemma grid_case : forall scp imems eigvals mems write, mk_file_source snapshots coordinates "seeds.mat" 0.015625%float 8 = Ok case_source /\
  exists x r, snd (file_worker (Fops lnR_rounded) scp imems eigvals mems write files case_source false false (case_world scp)) = Ok (Some [XVal x]) /\
    represents x r /\ Rabs (r - (1 / 8) / (7 / 64)) <= 1 / 7.
Proof.
  intros scp imems eigvals mems write. split; [reflexivity|].
  assert (I8 : INR 8 = 8) by (cbn; lra). assert (A : Rabs (1 / 64) = 1 / 64) by (apply Rabs_pos_eq; lra).
  assert (A2 : Rabs (-2) <= 2 /\ Rabs 2 <= 2) by (split; apply Rabs_le; lra).
  pose proof case_error_small as HE.
  destruct (grid_run_flow lnR_rounded scp imems eigvals mems write files "grid" None lines lines (-2) 2 (-2) 2 MAB2 2 2 0 1 (5 / 8) 8 (1 / 64) 0.015625%float (fun _ => saddle) 0
    lnR_rounded_accurate) with (delta := case_delta) (first := "v0.mat"%string) (rest := tl snapshots) (coordinates := coordinates) (particle := "seeds.mat"%string)
    (period := 8%Z) (src := case_source) (seeds := particle_file) (gs := [seed_F]) (Gs := [seed_R]) (phi := hyper (0 + INR 8 * (1 / 64))) (K := 2) (J := 2) (V := 2) (E := case_error)
    (queue := false) (writer := false) (w := case_world scp) as (xs & Hxs & Exs & _).
  - cbn; unfold same_letter; tauto.
  - pose proof lines_Z. lia.
  - pose proof lines_Z. lia.
  - rewrite lines_Z. reflexivity || (unfold INT_MAX; lia).
  - rewrite lines_Z. reflexivity || (unfold INT_MAX; lia).
  - unfold sane_extent. split; [apply le_inv_pow; [cbn; lra|lia]|apply ge_pow; [cbn; lra|lia]].
  - unfold sane_extent. split; [apply le_inv_pow; [cbn; lra|lia]|apply ge_pow; [cbn; lra|lia]].
  - exact A2.
  - exact A2.
  - reflexivity.
  - exact case_tame.
  - exact rep_64th.
  - exact saddle_lipschitz.
  - intros t X Y _ HX HY. apply sized_pair; [lra|apply Rabs_le; lra|apply Rabs_le; lra].
  - reflexivity.
  - reflexivity.
  - apply (files_gridded (fun _ => saddle)). reflexivity.
  - exists "c0.mat"%string, "c1.mat"%string. split; [cbn; tauto|]. split; [cbn; tauto|discriminate].
  - reflexivity.
  - repeat (split; [reflexivity|]). left. reflexivity.
  - exact seed_seated.
  - exact seed_spaced.
  - exact case_clear.
  - lra.
  - lra.
  - lra.
  - reflexivity.
  - apply below_199. lra.
  - intros G x [<-|[]] Hx. apply hyper_flows; [rewrite I8; lra| |];
      (cbn in Hx; destruct Hx as [<-|[<-|[<-|[<-|[]]]]]; cbn [fst snd]; apply Rabs_le; lra).
  - constructor; [|constructor]. eexists. exact case_resolved.
  - reflexivity.
  - reflexivity.
  - cbv zeta in Exs. specialize (Exs eq_refl).
    inversion Hxs as [|? x ? l (s & Rs & r & Rr & Hr) Hl]; subst. inversion Hl; subst. exists x, r.
    split; [exact Exs|]. split; [exact Rr|].
    rewrite (spectral_norm_2_unique _ _ _ Rs (proj1 case_resolved)), I8, A, seed_side, ln_exp in Hr.
    replace ((8 - 1) * (1 / 64)) with (7 / 64) in Hr by lra. apply Rle_trans with (1 := Hr).
    destruct exp_eighth as [L U]. set (e := exp (1 / 8)) in *.
    assert (X : 12 * case_error / (e * 2) <= 6 * case_error).
    { replace (12 * case_error / (e * 2)) with (6 * case_error * / e) by (field; lra). rewrite <- (Rmult_1_r (6 * case_error)) at 2.
      apply Rmult_le_compat_l; [lra|]. rewrite <- Rinv_1. apply Rinv_le_contravar; lra. }
    replace (2 ^ 21) with 2097152 by (cbn [pow]; lra). lra.
Qed.

(* ---- two Euler steps of 1/16, beside their exact images ---- *)
Definition short_source : file_source PrimFloat.float := FileSource (firstn 2 snapshots) (firstn 2 coordinates) "seeds.mat" 0.0625%float 2 false "v0".
Definition short_world (scp : scipy PrimFloat.float) : world PrimFloat.float (istate scp) unit unit :=
  World (fresh MEuler) (IHigh (highperf_new [lines; lines]), 0%nat) tt [] tt 0.
Definition short_error : R := rounding_bound 2 (1 / 16) case_delta 2 1.

Lemma short_gridded (v : nat -> list R -> list R) : v = (fun _ => saddle) -> gridded files lines lines (-2) 2 (-2) 2 2 0 v (firstn 2 snapshots) (firstn 2 coordinates).
Proof.
  intros E k Hk. destruct (files_gridded v E k) as (vf & cf & dv & dc & A1 & A2 & A3); [cbn in *; lia|].
  exists vf, cf, dv, dc. split; [|split; [|exact A3]]; destruct k as [|[|k]]; try assumption; cbn in Hk; lia.
Qed.

Lemma short_error_small : 0 <= short_error <= / 700.
Proof.
  pose proof case_delta_small as D. unfold short_error, rounding_bound. rewrite (Rabs_pos_eq (1 / 16)) by lra. replace (INR 2) with 2 by (cbn; lra).
  pose proof exp_quarter as X. pose proof (exp_pos (2 * (2 * (1 / 16) * 1))) as P. set (z := exp _) in *. clearbody z.
  replace (2 ^ 50) with 1125899906842624 by (cbn [pow]; lra).
  set (a := 2 * (2 * (1 / 16) * case_delta + 2 / 1125899906842624)). assert (A : 0 <= a <= 1 / 990) by (unfold a; lra). clearbody a.
  assert (Y : 0 <= a * z <= 1 / 990 * (4 / 3)). { split; [apply Rmult_le_pos; lra|apply Rmult_le_compat; lra]. } lra.
Qed.

Lemma short_resolved : resolved2 short_error two_steps seed_R (289 / 256).
Proof.
  destruct two_steps_resolved as (A1 & A2 & _ & A4). split; [exact A1|]. split; [exact A2|]. split; [|exact A4].
  rewrite two_steps_gradient, seed_side. exists (1 / 3). split; [split; [apply le_inv_pow; [cbn; lra|lia]|lra]|].
  split; [unfold det22; cbn [a00 a01 a10 a11]; lra|]. pose proof short_error_small as X. replace (2 ^ 8) with 256 by (cbn; lra). lra.
Qed.

Lemma short_tame : tame_on_grid MEuler 2 2 case_delta 1 (5 / 8) 2 (1 / 16).
Proof.
  pose proof case_delta_small as D. unfold tame_on_grid. rewrite (Rabs_pos_eq (1 / 16)) by lra. replace (INR 2) with 2 by (cbn; lra).
  split. { split; [apply le_inv_pow; [cbn; lra|lia]|apply ge_pow; [cbn; lra|lia]]. }
  split. { split; [apply le_inv_pow; [cbn; lra|lia]|apply ge_pow; [cbn; lra|lia]]. }
  split. { split; [lra|apply ge_pow; [cbn; lra|lia]]. }
  split; [lra|]. split; [lia|]. split; [apply ge_pow; [cbn; lra|lia]|].
  split. { split; [|apply ge_pow; [cbn; lra|lia]]. apply Rle_trans with (/ 2 ^ 6); [apply inv_two_le; lia|]. replace (2 ^ 6) with 64 by (cbn; lra). lra. }
  split; [lra|]. split; [|discriminate]. replace (2 ^ 51) with 2251799813685248 by (cbn [pow]; lra). lra.
Qed.

Lemma short_case : forall scp imems eigvals mems write, mk_file_source (firstn 2 snapshots) (firstn 2 coordinates) "seeds.mat" 0.0625%float 2 = Ok short_source /\
  exists x r, w_writer (fst (file_worker (Fops lnR_rounded) scp imems eigvals mems write files short_source false true (short_world scp)))
      = fst (write tt "ftle_v0" [XVal x] (arr2 [mean2 (Fops lnR_rounded) seed_F]))%string /\
    represents x r /\ Rabs (r - ln (289 / 256) / (1 / 16)) <= 1 / 8.
Proof.
  intros scp imems eigvals mems write. split; [reflexivity|].
  assert (I2 : INR 2 = 2) by (cbn; lra). assert (A : Rabs (1 / 16) = 1 / 16) by (apply Rabs_pos_eq; lra).
  assert (A2 : Rabs (-2) <= 2 /\ Rabs 2 <= 2) by (split; apply Rabs_le; lra).
  pose proof short_error_small as HE.
  destruct (grid_run_exact lnR_rounded scp imems eigvals mems write files "grid" None lines lines (-2) 2 (-2) 2 MEuler 2 2 0 1 (5 / 8) 2 (1 / 16) 0.0625%float (fun _ => saddle)
    lnR_rounded_accurate) with (delta := case_delta) (first := "v0.mat"%string) (rest := ["v1.mat"]%string) (coordinates := firstn 2 coordinates) (particle := "seeds.mat"%string)
    (period := 2%Z) (src := short_source) (seeds := particle_file) (gs := [seed_F]) (Gs := [seed_R]) (phi := two_steps) (E := short_error)
    (queue := false) (writer := true) (w := short_world scp) as (xs & Hxs & _ & Exs).
  - cbn; unfold same_letter; tauto.
  - pose proof lines_Z. lia.
  - pose proof lines_Z. lia.
  - rewrite lines_Z. reflexivity || (unfold INT_MAX; lia).
  - rewrite lines_Z. reflexivity || (unfold INT_MAX; lia).
  - unfold sane_extent. split; [apply le_inv_pow; [cbn; lra|lia]|apply ge_pow; [cbn; lra|lia]].
  - unfold sane_extent. split; [apply le_inv_pow; [cbn; lra|lia]|apply ge_pow; [cbn; lra|lia]].
  - exact A2.
  - exact A2.
  - reflexivity.
  - exact short_tame.
  - exact rep_16th.
  - intro k. exact saddle_lipschitz.
  - intros k X Y _ HX HY. apply sized_pair; [lra|apply Rabs_le; lra|apply Rabs_le; lra].
  - reflexivity.
  - reflexivity.
  - apply (short_gridded (fun _ => saddle)). reflexivity.
  - exists "c0.mat"%string, "c1.mat"%string. split; [cbn; tauto|]. split; [cbn; tauto|discriminate].
  - reflexivity.
  - repeat (split; [reflexivity|]). left. reflexivity.
  - exact seed_seated.
  - exact seed_spaced.
  - exact case_clear.
  - intros G x _ _. apply two_steps_path.
  - reflexivity.
  - apply below_199. lra.
  - constructor; [|constructor]. eexists. exact short_resolved.
  - reflexivity.
  - reflexivity.
  - specialize (Exs eq_refl).
    inversion Hxs as [|? x ? l (s & Rs & r & Rr & Hr) Hl]; subst. inversion Hl; subst. exists x, r.
    split; [exact (proj1 Exs)|]. split; [exact Rr|].
    rewrite (spectral_norm_2_unique _ _ _ Rs (proj1 short_resolved)), I2, A, seed_side in Hr.
    replace ((2 - 1) * (1 / 16)) with (1 / 16) in Hr by lra. apply Rle_trans with (1 := Hr).
    replace (12 * short_error / (289 / 256 * 2)) with (12 * 128 / 289 * short_error) by field.
    replace (2 ^ 21) with 2097152 by (cbn [pow]; lra). lra.
Qed.
