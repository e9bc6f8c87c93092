(** A task on scattered data that meets the hypotheses of C116: the saddle flow (x, y) -> (y, x) at 1025 x 1025 points of
    [-2, 2] x [-2, 2], in eight velocity files that share one coordinate file. *)
From Coq Require Import String Reals Lia Lra Psatz Floats.
From Flocq Require Import Core BinarySingleNaN PrimFloat.
From Verif Require Import Base Num NdArray Particles Jacobian Ftle Integrate GridInterp Interpolate Readers DataSource Solver FileRun SpecSeeds SpecInterp SpecFtle SpecGrid
  SpecFiles SpecIntegrate SpecOrder SpecConverge SpecFloat64 SpecAccuracy SpecFloatGrid SpecFloatJac SpecRounding SpecFloatRun SpecGridRun SpecScatter FtleFacts2 OrderFacts ConvergeCases FloatArith
  BatchFloat FloatGrid FloatKernel FloatAxis FtleAccuracyMain FloatJac FloatRuns FloatFtleRun FloatFtleCases GridRunField GridRunFiles GridRunMain GridRunCases ScatterData ScatterMain.
Local Open Scope R_scope.

(* ---- a SciPy that finds nearest neighbours in exact arithmetic ---- *)
Definition reading (p : couple) : R * R := (value (fst p), value (snd p)).
Definition rows_of (m : mat PrimFloat.float) : list couple := map (fun r => match r with [a; b] => (a, b) | _ => (0, 0)%float end) (mrows m).
Definition closest (q : R * R) (a : couple * couple) (l : list (couple * couple)) : couple * couple :=
  fold_left (fun b c => if Rle_dec (apart q (reading (fst b))) (apart q (reading (fst c))) then b else c) l a.
Definition exact_near (points : mat PrimFloat.float) (values : list couple) (queries : mat PrimFloat.float) : res (list couple) :=
  match combine (rows_of points) values with
  | [] => Err ValueError
  | a :: l => Ok (map (fun p => snd (closest (reading p) a l)) (rows_of queries))
  end.
Definition exact_scipy : scipy PrimFloat.float :=
  Scipy _ unit (fun _ => Err ValueError) (fun _ _ _ => Err ValueError) (fun _ _ _ => Err ValueError) (fun _ _ _ => Err ValueError)
    (fun _ => Ok tt) exact_near (fun _ _ _ => Err ValueError) (fun _ _ _ => Err ValueError) (fun _ _ _ _ _ => Err ValueError).

Lemma rows_arr2 ps : rows_of (arr2 ps) = ps.
Proof. unfold rows_of, arr2. cbn [mrows]. rewrite map_map. rewrite <- (map_id ps) at 2. apply map_ext. intros [a b]. reflexivity. Qed.

Lemma closest_spec q : forall l a, In (closest q a l) (a :: l) /\ forall c, In c (a :: l) -> apart q (reading (fst (closest q a l))) <= apart q (reading (fst c)).
Proof.
  unfold closest. induction l as [|b l IH]; intro a; cbn [fold_left].
  - split; [left; reflexivity|]. intros c [<- |[]]. apply Rle_refl.
  - destruct (Rle_dec (apart q (reading (fst a))) (apart q (reading (fst b)))) as [Q|Q].
    + destruct (IH a) as [I1 I2]. split; [destruct I1 as [<- |I1]; [left; reflexivity|right; right; exact I1]|].
      intros c [<- |[<- |Hc]]; [apply I2; left; reflexivity| |apply I2; right; exact Hc].
      eapply Rle_trans; [apply (I2 a); left; reflexivity|exact Q].
    + destruct (IH b) as [I1 I2]. split; [right; exact I1|].
      intros c [<- |Hc]; [|apply I2; exact Hc]. eapply Rle_trans; [apply (I2 b); left; reflexivity|]. lra.
Qed.

Lemma nth_combine {A B} (l : list A) : forall (m : list B) i a b, nth_error (combine l m) i = Some (a, b) -> nth_error l i = Some a /\ nth_error m i = Some b.
Proof.
  induction l as [|x l IH]; intros [|y m] [|i] a b E; try discriminate E; cbn in *.
  - injection E as -> ->. auto.
  - apply IH. exact E.
Qed.

Lemma stand2_reading p q : stand2 p q -> reading p = q.
Proof. destruct p, q. intros [[_ A] [_ B]]. unfold reading, value. cbn [fst snd] in *. congruence. Qed.

Lemma Forall2_at {A B} (Q : A -> B -> Prop) l m : Forall2 Q l m -> forall i a, nth_error l i = Some a -> exists b, nth_error m i = Some b /\ Q a b.
Proof.
  induction 1 as [|x y l m HQ _ IH]; intros [|i] a E; try discriminate E; cbn in *.
  - injection E as <-. exists y. auto.
  - apply IH. exact E.
Qed.

Lemma exact_near_accurate : accurate_nearest exact_scipy.
Proof.
  intros points Ps values Vs NE S1 _ S3 HL. split; [reflexivity|]. cbn [near_c exact_scipy].
  destruct (combine points values) as [|a l] eqn:EC.
  { destruct points as [|x points]; [contradiction (NE eq_refl)|]. destruct values; [discriminate HL|discriminate EC]. }
  exists (fun p => snd (closest (reading p) a l)). split.
  - intros ps _. unfold exact_near. rewrite !rows_arr2, EC. reflexivity.
  - intros p q Sp _. rewrite (stand2_reading p q Sp). destruct (closest_spec q l a) as [I1 I2].
    destruct (closest q a l) as [P V]. cbn [fst snd] in *. rewrite <- EC in I1, I2.
    apply In_nth_error in I1. destruct I1 as (i & Ei). destruct (nth_combine _ _ _ _ _ Ei) as [E1 E2].
    destruct (Forall2_at _ _ _ S1 i P E1) as (P' & EP & SP). destruct (Forall2_at _ _ _ S3 i V E2) as (V' & EV & SV).
    exists V'. split; [exact SV|]. exists i, P'. split; [exact EP|]. split; [exact EV|].
    intros X HX. apply In_nth_error in HX. destruct HX as (j & Ej).
    assert (Hj : (j < length points)%nat). { assert (length points = length Ps) by (clear - S1; induction S1; cbn; congruence). rewrite H. apply nth_error_Some. congruence. }
    assert (J : exists x, nth_error points j = Some x) by (destruct (nth_error points j) eqn:Q; [eauto|apply nth_error_None in Q; lia]).
    assert (K : exists y, nth_error values j = Some y) by (destruct (nth_error values j) eqn:Q; [eauto|apply nth_error_None in Q; lia]).
    destruct J as (x & Ex). destruct K as (y & Ey). destruct (Forall2_at _ _ _ S1 j x Ex) as (X' & EX & SX). rewrite Ej in EX. injection EX as <-.
    assert (IC : In (x, y) (combine points values)).
    { clear - Ex Ey. revert values j Ex Ey. induction points as [|u points IH]; intros [|w values] [|j] Ex Ey; try discriminate; cbn in *.
      - injection Ex as ->. injection Ey as ->. left. reflexivity.
      - right. exact (IH values j Ex Ey). }
    pose proof (I2 _ IC) as HH. cbn [fst] in HH. rewrite (stand2_reading _ _ SP), (stand2_reading _ _ SX) in HH.
    assert (P40 : 0 < / 2 ^ 40) by (apply Rinv_0_lt_compat, pow_lt; lra). assert (P500 : 0 < / 2 ^ 500) by (apply Rinv_0_lt_compat, pow_lt; lra).
    pose proof (apart_pos q X) as AP. assert (0 <= / 2 ^ 40 * apart q X) by (apply Rmult_le_pos; lra). lra.
Qed.

(* ---- the samples ---- *)
Definition square (q : R * R) : Prop := -2 <= fst q <= 2 /\ -2 <= snd q <= 2.
Definition count : nat := (lines * lines)%nat.
Definition node_points : list couple := map (fun k => (part256 (node (k mod lines)), part256 (node (k / lines))))%nat (seq 0 count).
Definition node_values : list couple := map (fun k => (part256 (node (k / lines)), part256 (node (k mod lines))))%nat (seq 0 count).
Definition node_at (k : nat) : R * R := (IZR (node (k mod lines)) / 256, IZR (node (k / lines)) / 256).

Lemma node_in k : In k (seq 0 count) -> (k mod lines < lines)%nat /\ (k / lines < lines)%nat.
Proof.
  intro H. apply in_seq in H. unfold count in H. pose proof lines_Z. assert (lines <> 0)%nat by lia.
  split; [apply Nat.mod_upper_bound; assumption|apply Nat.div_lt_upper_bound; [assumption|lia]].
Qed.

Lemma Forall2_same {A B C} (Q : B -> C -> Prop) (f : A -> B) (g : A -> C) l : (forall a, In a l -> Q (f a) (g a)) -> Forall2 Q (map f l) (map g l).
Proof. induction l as [|a l IH]; intro H; cbn; constructor; [apply H; left; reflexivity|]. apply IH. intros b Hb. apply H. right. exact Hb. Qed.

Lemma nearest_node x : -2 <= x <= 2 -> exists i, (i < lines)%nat /\ Rabs (x - IZR (node i) / 256) <= / 512.
Proof.
  intro Hx. pose proof (Znearest_half (fun z => negb (Z.even z)) (x * 256)) as H. set (z := Znearest _ _) in H. apply Rabs_le_inv in H.
  assert (Z1 : (z < 513)%Z) by (apply lt_IZR; lra). assert (Z2 : (-513 < z)%Z) by (apply lt_IZR; lra). pose proof lines_Z as LZ.
  exists (Z.to_nat (z + 512)). split; [lia|]. unfold node. rewrite Z2Nat.id by lia. replace (z + 512 - 512)%Z with z by lia. apply Rabs_le. lra.
Qed.

Lemma nodes_dense : dense (/ 360) square (map node_at (seq 0 count)).
Proof.
  intros q [Hx Hy]. destruct (nearest_node _ Hx) as (i & Bi & Ni). destruct (nearest_node _ Hy) as (j & Bj & Nj).
  exists (IZR (node i) / 256, IZR (node j) / 256). split.
  - apply in_map_iff. exists (i + j * lines)%nat. split; [|apply in_seq; unfold count; nia].
    unfold node_at. rewrite Nat.mod_add, Nat.mod_small, Nat.div_add, Nat.div_small by lia. reflexivity.
  - unfold apart. cbn [fst snd]. rewrite <- (sqrt_Rsqr (/ 360)) by lra. apply sqrt_le_1_alt. unfold Rsqr.
    apply Rabs_le_inv in Ni, Nj. set (a := fst q - IZR (node i) / 256) in *. set (b := snd q - IZR (node j) / 256) in *. clearbody a b. cbn [pow]. nra.
Qed.

Definition one_file : list string := repeat "c0.mat"%string 8.

Lemma files_sampled (v : nat -> list R -> list R) : v = (fun _ => saddle) -> sampled_at files (/ 360) 0 square v snapshots one_file.
Proof.
  intros -> k Hk.
  assert (G : forall vf, nth_error snapshots k = Some vf -> nth_error one_file k = Some "c0.mat"%string ->
    exists vf cf dv dc points values, nth_error snapshots k = Some vf /\ nth_error one_file k = Some cf /\ files vf = Ok dv /\ files cf = Ok dc /\
      holds_points points dc /\ holds_values values dv /\ length values = length points /\
      exists Ps Vs, Forall2 stand2 points Ps /\ Forall moderate Ps /\ Forall2 stand2 values Vs /\ samples_of saddle 0 Ps Vs /\ dense (/ 360) square Ps).
  { intros vf E1 E2. exists vf, "c0.mat"%string, velocity_file, grid_file, node_points, node_values. split; [exact E1|]. split; [exact E2|].
    split. { unfold files. destruct (in_dec string_dec vf snapshots) as [|X]; [reflexivity|]. destruct X. exact (nth_error_In _ _ E1). }
    split; [reflexivity|].
    split. { exists along_x, along_y. do 3 (split; [reflexivity|]). unfold node_points. rewrite !map_map. split; reflexivity. }
    split. { exists along_y, along_x. do 3 (split; [reflexivity|]). unfold node_values. rewrite !map_map. split; reflexivity. }
    split. { unfold node_points, node_values. rewrite !map_length. reflexivity. }
    exists (map node_at (seq 0 count)), (map (fun k => (snd (node_at k), fst (node_at k))) (seq 0 count)). split; [|split; [|split; [|split]]].
    - apply Forall2_same. intros a Ha. destruct (node_in a Ha) as [B1 B2]. split; [apply node_rep, B1|apply node_rep, B2].
    - apply Forall_map, Forall_forall. intros a Ha. destruct (node_in a Ha) as [B1 B2]. destruct (node_rep _ B1) as (_ & _ & C1). destruct (node_rep _ B2) as (_ & _ & C2).
      assert (2 <= 2 ^ 400) by (apply ge_pow; [cbn; lra|lia]). unfold moderate, node_at. cbn [fst snd]. split; apply Rabs_le; lra.
    - apply Forall2_same. intros a Ha. destruct (node_in a Ha) as [B1 B2]. split; [apply node_rep, B2|apply node_rep, B1].
    - apply Forall2_same. intros a _. unfold node_at. cbn [fst snd row2 saddle]. apply near_refl.
    - exact nodes_dense. }
  cbn [length snapshots] in Hk. do 8 (destruct k as [|k]; [eapply G; reflexivity|]). lia.
Qed.

Lemma near_enough : 0 + 1 * ((1 + / 2 ^ 40) * / 360 + / 2 ^ 500) <= case_delta.
Proof.
  unfold case_delta, sampling_error, spacing. rewrite plus_INR, lines_R.
  replace ((2 - -2) / (1025 - 1)) with (1 / 256) by lra. rewrite Rmax_left by lra.
  assert (P : 0 < / 2 ^ 1071) by (apply Rinv_0_lt_compat, pow_lt; lra).
  assert (P5 : / 2 ^ 500 <= / 2 ^ 20) by (apply inv_two_le; lia). replace (2 ^ 20) with 1048576 in P5 by (cbn [pow]; lra).
  replace (2 ^ 48) with 281474976710656 by (cbn [pow]; lra). replace (2 ^ 40) with 1099511627776 by (cbn [pow]; lra). lra.
Qed.

Lemma square_scattered (v : nat -> list R -> list R) : v = (fun _ => saddle) -> scattered files exact_scipy ByNearest square case_delta v snapshots one_file.
Proof.
  intro Ev. apply (nearest_scattered files exact_scipy square case_delta 1 (/ 360) 0 v); [exact exact_near_accurate|lra|lra| | | | |exact (files_sampled v Ev)].
  - intros j _. rewrite Ev. exact saddle_lipschitz.
  - intros q [H1 H2]. assert (2 <= 2 ^ 400) by (apply ge_pow; [cbn; lra|lia]). split; apply Rabs_le; lra.
  - exists (0, 0). split; cbn [fst snd]; lra.
  - exact near_enough.
Qed.

Lemma nearest_case : accurate_nearest exact_scipy /\ sampled_at files (/ 360) 0 square (fun _ => saddle) snapshots one_file /\
  0 + 1 * ((1 + / 2 ^ 40) * / 360 + / 2 ^ 500) <= case_delta.
Proof. split; [exact exact_near_accurate|]. split; [exact (files_sampled _ eq_refl)|exact near_enough]. Qed.

Lemma means_case : files_hold files (fun j points values => exists Ps Vs answer, samples_of saddle 0 Ps Vs /\
     built_by exact_scipy ByNearest points values answer /\ evaluates square answer (mean_around ((1 + / 2 ^ 40) * / 360 + / 2 ^ 500) 0 Ps Vs)) snapshots one_file.
Proof.
  apply (nearest_means files exact_scipy square (/ 360) 0 (fun _ => saddle)); [exact exact_near_accurate| | |exact (files_sampled _ eq_refl)].
  - intros q [H1 H2]. assert (2 <= 2 ^ 400) by (apply ge_pow; [cbn; lra|lia]). split; apply Rabs_le; lra.
  - exists (0, 0). split; cbn [fst snd]; lra.
Qed.

Lemma square_room : Forall (fun G => Forall (clearance (5 / 8) square) (corners2 G)) [seed_R].
Proof.
  constructor; [|constructor]. unfold corners2, seed_R, clearance, square. cbn [g_left g_right g_top g_bottom].
  repeat (apply Forall_cons; [cbn [fst snd]; intros p H1 H2; apply Rabs_le_inv in H1, H2; lra|]). constructor.
Qed.

Definition scatter_source : file_source PrimFloat.float := FileSource snapshots one_file "seeds.mat" 0.015625%float 8 true "v0".
Definition scatter_world : world PrimFloat.float (istate exact_scipy) unit unit := World (fresh MAB2) (INearest unstructured_new, 0%nat) tt [] tt 0.

Lemma scatter_case : forall imems eigvals mems write, mk_file_source snapshots one_file "seeds.mat" 0.015625%float 8 = Ok scatter_source /\
  exists x r, snd (file_worker (Fops lnR_rounded) exact_scipy imems eigvals mems write files scatter_source false false scatter_world) = Ok (Some [XVal x]) /\
    represents x r /\ Rabs (r - (1 / 8) / (7 / 64)) <= 1 / 7.
Proof.
  intros imems eigvals mems write. split; [reflexivity|].
  assert (I8 : INR 8 = 8) by (cbn; lra). assert (A : Rabs (1 / 64) = 1 / 64) by (apply Rabs_pos_eq; lra).
  pose proof case_error_small as HE.
  destruct (scatter_run_flow lnR_rounded exact_scipy imems eigvals mems write files "nearest" None ByNearest square MAB2 2 2 case_delta 1 (5 / 8) 8 (1 / 64) 0.015625%float (fun _ => saddle) 0
    lnR_rounded_accurate) with (first := "v0.mat"%string) (rest := tl snapshots) (coordinates := one_file) (particle := "seeds.mat"%string)
    (period := 8%Z) (src := scatter_source) (seeds := particle_file) (gs := [seed_F]) (Gs := [seed_R]) (phi := hyper (0 + INR 8 * (1 / 64))) (K := 2) (J := 2) (V := 2) (E := case_error)
    (queue := false) (writer := false) (w := scatter_world) as (xs & Hxs & Exs & _).
  - cbn; unfold same_letter; tauto.
  - intros q [H1 H2]. split; apply Rabs_le; lra.
  - exact case_tame.
  - exact rep_64th.
  - exact saddle_lipschitz.
  - intros t [X Y] _ [HX HY]. cbn [fst snd] in HX, HY. apply sized_pair; [lra|apply Rabs_le; lra|apply Rabs_le; lra].
  - reflexivity.
  - reflexivity.
  - apply (square_scattered (fun _ => saddle)). reflexivity.
  - reflexivity.
  - repeat (split; [reflexivity|]). left. reflexivity.
  - exact seed_seated.
  - exact seed_spaced.
  - exact square_room.
  - lra.
  - lra.
  - lra.
  - reflexivity.
  - apply below_199. lra.
  - intros G x [<-|[]] Hx. apply hyper_flows; [rewrite I8; lra| |];
      (cbn in Hx; destruct Hx as [<-|[<-|[<-|[<-|[]]]]]; cbn [fst snd]; apply Rabs_le; lra).
  - constructor; [|constructor]. eexists. exact case_resolved.
  - reflexivity.
  - reflexivity.
  - cbv zeta in Exs. specialize (Exs eq_refl).
    inversion Hxs as [|? x ? l (s & Rs & r & Rr & Hr) Hl]; subst. inversion Hl; subst. exists x, r.
    split; [exact Exs|]. split; [exact Rr|].
    rewrite (spectral_norm_2_unique _ _ _ Rs (proj1 case_resolved)), I8, A, seed_side, ln_exp in Hr.
    replace ((8 - 1) * (1 / 64)) with (7 / 64) in Hr by lra. apply Rle_trans with (1 := Hr).
    destruct exp_eighth as [L U]. set (e := exp (1 / 8)) in *.
    assert (X : 12 * case_error / (e * 2) <= 6 * case_error).
    { replace (12 * case_error / (e * 2)) with (6 * case_error * / e) by (field; lra). rewrite <- (Rmult_1_r (6 * case_error)) at 2.
      apply Rmult_le_compat_l; [lra|]. rewrite <- Rinv_1. apply Rinv_le_contravar; lra. }
    replace (2 ^ 21) with 2097152 by (cbn [pow]; lra). lra.
Qed.

(* ---- two Euler steps of 1/16, beside their exact images ---- *)
Definition two_source : file_source PrimFloat.float := FileSource (firstn 2 snapshots) (firstn 2 one_file) "seeds.mat" 0.0625%float 2 true "v0".
Definition two_world : world PrimFloat.float (istate exact_scipy) unit unit := World (fresh MEuler) (INearest unstructured_new, 0%nat) tt [] tt 0.

Lemma two_scattered : scattered files exact_scipy ByNearest square case_delta (fun _ => saddle) (firstn 2 snapshots) (firstn 2 one_file).
Proof.
  intros k Hk. destruct (square_scattered _ eq_refl k) as (vf & cf & dv & dc & points & values & A1 & A2 & A3); [cbn in *; lia|].
  exists vf, cf, dv, dc, points, values. split; [|split; [|exact A3]]; destruct k as [|[|k]]; try assumption; cbn in Hk; lia.
Qed.

Lemma two_case : forall imems eigvals mems write, mk_file_source (firstn 2 snapshots) (firstn 2 one_file) "seeds.mat" 0.0625%float 2 = Ok two_source /\
  exists x r, w_writer (fst (file_worker (Fops lnR_rounded) exact_scipy imems eigvals mems write files two_source false true two_world))
      = fst (write tt "ftle_v0" [XVal x] (arr2 [mean2 (Fops lnR_rounded) seed_F]))%string /\
    represents x r /\ Rabs (r - ln (289 / 256) / (1 / 16)) <= 1 / 8.
Proof.
  intros imems eigvals mems write. split; [reflexivity|].
  assert (I2 : INR 2 = 2) by (cbn; lra). assert (A : Rabs (1 / 16) = 1 / 16) by (apply Rabs_pos_eq; lra).
  pose proof short_error_small as HE.
  destruct (scatter_run_exact lnR_rounded exact_scipy imems eigvals mems write files "Nearest" None ByNearest square MEuler 2 2 case_delta 1 (5 / 8) 2 (1 / 16) 0.0625%float (fun _ => saddle)
    lnR_rounded_accurate) with (first := "v0.mat"%string) (rest := ["v1.mat"]%string) (coordinates := firstn 2 one_file) (particle := "seeds.mat"%string)
    (period := 2%Z) (src := two_source) (seeds := particle_file) (gs := [seed_F]) (Gs := [seed_R]) (phi := two_steps) (E := short_error)
    (queue := false) (writer := true) (w := two_world) as (xs & Hxs & _ & Exs).
  - cbn. unfold same_letter. cbn. repeat split; auto; right; split; lia.
  - intros q [H1 H2]. split; apply Rabs_le; lra.
  - exact short_tame.
  - exact rep_16th.
  - intro k. exact saddle_lipschitz.
  - intros j [X Y] _ [HX HY]. cbn [fst snd] in HX, HY. apply sized_pair; [lra|apply Rabs_le; lra|apply Rabs_le; lra].
  - reflexivity.
  - reflexivity.
  - exact two_scattered.
  - reflexivity.
  - repeat (split; [reflexivity|]). left. reflexivity.
  - exact seed_seated.
  - exact seed_spaced.
  - exact square_room.
  - intros G x _ _. apply two_steps_path.
  - reflexivity.
  - apply below_199. lra.
  - constructor; [|constructor]. eexists. exact short_resolved.
  - reflexivity.
  - reflexivity.
  - specialize (Exs eq_refl).
    inversion Hxs as [|? x ? l (s & Rs & r & Rr & Hr) Hl]; subst. inversion Hl; subst. exists x, r.
    split; [exact (proj1 Exs)|]. split; [exact Rr|].
    rewrite (spectral_norm_2_unique _ _ _ Rs (proj1 short_resolved)), I2, A, seed_side in Hr.
    replace ((2 - 1) * (1 / 16)) with (1 / 16) in Hr by lra. apply Rle_trans with (1 := Hr).
    replace (12 * short_error / (289 / 256 * 2)) with (12 * 128 / 289 * short_error) by field.
    replace (2 ^ 21) with 2097152 by (cbn [pow]; lra). lra.
Qed.
