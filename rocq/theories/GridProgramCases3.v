(** A run of the command line program that meets the hypotheses of C115: the files of GridRunCases3.v with one more snapshot,
    so that there are two windows of eight, and a particle file with two seeds (both at the origin). *)
From Coq Require Import String Reals Lia Lra Floats.
From Flocq Require Import Core BinarySingleNaN PrimFloat.
From Verif Require Import Base Num NdArray Text Particles Jacobian Ftle Integrate GridInterp Interpolate Readers DataSource Solver FileRun Writers Batches FileUtils
  Hyper Manager Monitor Executor ManagerRun Jobs Decorators Program SpecExecutor SpecWriters SpecProgram SpecSeeds SpecInterp SpecFtle SpecGrid
  SpecFiles SpecIntegrate SpecOrder SpecConverge SpecFloat64 SpecAccuracy SpecEigen SpecFloatGrid SpecFloatJac SpecRounding SpecFloatRun SpecFloatRun3 SpecGridRun SpecGridRun3
  SpecGridProgram SpecGridProgram3
  FtleFacts3 OrderFacts ConvergeCases FloatArith FloatGrid FloatJac FloatRuns GridRunField FtleAccuracyMain FloatFtleRun FloatFtleCases FloatEigenCases
  GridRunMain GridRunCases GridRunMain3 GridRunCases3 GridProgramMain GridProgramCases GridProgramMain3.
Local Open Scope R_scope.

Lemma flow_shift3 m v c T K J V phi x :
  flow_along3 (regular m (fun _ => v) 0 (0 + T) K J V) (fun _ => v) 0 (0 + T) phi x ->
  flow_along3 (regular m (fun _ => v) c (c + T) K J V) (fun _ => v) c (c + T) phi x.
Proof.
  rewrite Rplus_0_l. intros (y & Y0 & [Yl Yd] & Y1 & Yr & Ym). rewrite <- (Rplus_0_r c) at 1 3. exists (fun t => y (t - c)).
  split; [rewrite Rplus_0_r; replace (c - c) with 0 by ring; exact Y0|].
  split. { split; [intro t; apply Yl|]. exact (derivative_shift c 0 T y (fun t => v (y t)) Yd). }
  split; [replace (c + T - c) with T by ring; exact Y1|].
  split; [exact (rate_shift c 0 T K (fun t => v (y t)) Yr)|].
  destruct m; [exact I| |].
  - destruct Ym as (acc & A1 & A2). exists (fun t => acc (t - c)). split; [exact (derivative_shift c 0 T (fun t => v (y t)) acc A1)|exact (rate_shift c 0 T J acc A2)].
  - intros t i Ht. apply (Ym (t - c)). apply between_shift, Ht.
Qed.

(** ** The files and the command *)

Definition pair_file : matfile PrimFloat.float := fun k =>
  let twice p := Some (nd_of_mat (arr3 [p seed3_F; p seed3_F])) in
  if String.eqb k "left" then twice h_left else if String.eqb k "right" then twice h_right else
  if String.eqb k "top" then twice h_top else if String.eqb k "bottom" then twice h_bottom else
  if String.eqb k "front" then twice h_front else if String.eqb k "back" then twice h_back else None.
Definition input_files3 : filesystem PrimFloat.float := fun name =>
  if string_dec name "v8.mat" then Ok velocity_file3 else if string_dec name "seeds.mat" then Ok pair_file else files3 name.
Definition grid_command3 (fmt : string) (seeds : option string) : command_line :=
  CommandLine (Some "run") (Some "v.txt") (Some "c.txt") (Some "p.txt") (Some "0.015625") (Some "0.109375") (Some "ab2") (Some "grid")
    (Some "2") (Some fmt) (Some "1025,1025,513") seeds.
Definition grid_args3 (fmt : string) (seeds : option (list Z)) : program_args PrimFloat.float :=
  ProgramArgs "run" "v.txt" "c.txt" "p.txt" 0.015625%float 0.109375%float (Some "ab2"%string) (Some "grid"%string) 2 (Some fmt) (Some [1025; 1025; 513]%Z) seeds.

Lemma grid_parsed3 fmt : (fmt = "mat" \/ fmt = "vtk")%string ->
  parse_args read_number (grid_command3 fmt None) = Ok (grid_args3 fmt None) /\
  parse_args read_number (grid_command3 fmt (Some "1,1,2"%string)) = Ok (grid_args3 fmt (Some [1; 1; 2]%Z)).
Proof. intros [-> | ->]; split; vm_compute; reflexivity. Qed.

Lemma case_series3 : series3 input_files3 lines layers (-2) 2 (-2) 2 (-2) 2 2 0 (fun _ => swirl) 0 (1 / 64) nine coordinates.
Proof.
  split.
  - intros k f Hf. exists velocity_file3. split; [|exact velocity_held3]. apply nth_error_In in Hf. unfold input_files3.
    destruct (string_dec f "v8.mat") as [|N]; [reflexivity|]. unfold nine in Hf. apply in_app_or in Hf as [Hf|[Hf|[]]]; [|congruence].
    destruct (string_dec f "seeds.mat") as [->|N']; [exfalso; cbn in Hf; intuition discriminate|].
    unfold files3. destruct (in_dec string_dec f snapshots); [reflexivity|contradiction].
  - intros f Hf. exists grid_file3. split; [|exact grid_held3]. unfold input_files3, files3.
    destruct (string_dec f "v8.mat") as [->|N]; [exfalso; cbn in Hf; intuition discriminate|].
    destruct (string_dec f "seeds.mat") as [->|N']; [exfalso; cbn in Hf; intuition discriminate|].
    destruct (in_dec string_dec f snapshots) as [X|X]; [exfalso; cbn in Hf, X; intuition (subst; discriminate)|].
    destruct (in_dec string_dec f coordinates); [reflexivity|contradiction].
Qed.

(** All values in an output file. *)
Definition each_value (c : content PrimFloat.float) (P : xval PrimFloat.float -> Prop) : Prop :=
  match c with
  | MatFile F _ _ _ => forall ix, in_bounds (shape F) ix = true -> exists v, nd_get F ix = Ok v /\ P v
  | VtsFile _ _ _ f | VtpFile _ f => Forall P f
  end.
Definition number_near (value err : R) (v : xval PrimFloat.float) : Prop := exists x r, v = XVal x /\ represents x r /\ Rabs (r - value) <= err.
(** The file has two values and both are near [value]. *)
Definition shows_pair (fs : Jobs.files PrimFloat.float) (path : string) (value err : R) : Prop :=
  exists c, fs path = Some (Whole c) /\ each_value c (number_near value err) /\
    match c with MatFile F _ _ _ => size (shape F) | VtsFile _ _ _ f | VtpFile _ f => length f end = 2%nat.

Lemma field_pair fmt option (cs : mat PrimFloat.float) vs lnF c P : option = None \/ option = Some [1; 1; 2]%Z -> length vs = 2%nat ->
  field_file3 (Fops lnF) fmt option 2 vs cs c -> Forall P vs ->
  each_value c P /\ match c with MatFile F _ _ _ => size (shape F) | VtsFile _ _ _ f | VtpFile _ f => length f end = 2%nat.
Proof.
  intros Ho Hl HF HP. assert (G : forall r v, nth_error vs r = Some v -> P v) by (intros r v E; exact (proj1 (Forall_forall _ _) HP v (nth_error_In _ _ E))).
  destruct HF as [(_ & s & seed & F & X & Y & Z & -> & HL & HA)|[(_ & _ & points & -> & _)|(_ & px & py & pz & points & stored & Eo & -> & E1 & _ & E2)]]; cbn [each_value].
  - destruct HA as (Hs & _ & _ & _ & HA & _). rewrite Hs. split.
    + intros ix Hix. destruct (HA ix Hix) as ((u & Hu & Vu) & _). exists u. split; [exact Hu|]. exact (G _ _ Vu).
    + destruct HL as [(_ & -> & _)|(px & py & pz & _ & HN & -> & _)]; [reflexivity|]. cbn. lia.
  - split; [exact HP|exact Hl].
  - split; [|exact E1]. destruct Ho as [-> | ->]; [discriminate|].
    injection Eo as A1 A2 A3. assert (px = 1 /\ py = 1 /\ pz = 2)%nat as (-> & -> & ->) by lia.
    pose proof (proj2 (E2 0 0 0 ltac:(lia) ltac:(lia) ltac:(lia))%nat) as S0. pose proof (proj2 (E2 0 0 1 ltac:(lia) ltac:(lia) ltac:(lia))%nat) as S1. cbn in S0, S1.
    destruct stored as [|a [|b [|? ?]]]; try discriminate. cbn in S0, S1.
    constructor; [exact (G 0%nat _ (eq_sym S0))|]. constructor; [exact (G 1%nat _ (eq_sym S1))|constructor].
Qed.

Lemma one_case3 fmt shape seeds : parse_args read_number (grid_command3 fmt shape) = Ok (grid_args3 fmt seeds) -> (fmt = "mat" \/ fmt = "vtk")%string ->
  seeds = None \/ seeds = Some [1; 1; 2]%Z ->
  forall scp imems mems,
  let ends := main_ends (Fops lnR_rounded) scp read_number imems mems eigvals_rounded input_lists input_files3 (grid_command3 fmt shape) no_files in
  (exists fs, ends (false, Ok tt) fs) /\
  forall fs, ends (false, Ok tt) fs ->
    shows_pair fs (result_file "run" fmt seeds "v0.mat") ((1 / 8) / (7 / 64)) (1 / 4) /\ shows_pair fs (result_file "run" fmt seeds "v1.mat") ((1 / 8) / (7 / 64)) (1 / 4).
Proof.
  intros Hparsed Hfmt Hseeds scp imems mems ends.
  assert (Hfits : fits3 seeds 2).
  { destruct Hseeds as [-> | ->]; [left; reflexivity|right; exists 1%nat, 1%nat, 2%nat; split; reflexivity]. }
  assert (I8 : INR 8 = 8) by (cbn; lra). assert (A : Rabs (1 / 64) = 1 / 64) by (apply Rabs_pos_eq; lra).
  assert (A2 : Rabs (-2) <= 2 /\ Rabs 2 <= 2) by (split; apply Rabs_le; lra). pose proof case_error3_small as HE.
  assert (SE : sane_extent (-2) 2) by (split; [apply le_inv_pow; [cbn; lra|lia]|apply ge_pow; [cbn; lra|lia]]).
  assert (Ho : forall A (l : list A), run_order (1 / 64) l = l) by (intros; unfold run_order; destruct (Rlt_dec (1 / 64) 0); [lra|reflexivity]).
  assert (two : forall (B : Type) (P : B -> Prop) b, Forall P [b] -> Forall P [b; b]) by (intros ? ? ? H; inversion H; auto).
  destruct (grid_program3 lnR_rounded scp read_number imems mems eigvals_rounded input_lists input_files3 (grid_command3 fmt shape) (grid_args3 fmt seeds)
      lnR_rounded_accurate eigvals_rounded_accurate Hparsed)
    with (m := MAB2) (hF := 0.015625%float) (h := 1 / 64) (n := 8%nat) (nx := lines) (nz := layers) (vs := nine) (cs := coordinates) (ps := ["seeds.mat"]%string) (fmt := fmt)
    (x0 := -2) (x1 := 2) (y0 := -2) (y1 := 2) (z0 := -2) (z1 := 2) (B := 2) (M := 2) (eps := 0) (L := 1) (rho := 5 / 8) (v := fun _ : R => @swirl R) (t0 := 0) (delta := case_delta3)
    (gs := fun _ : string => [seed3_F; seed3_F]) (Gs := fun _ : string => [seed3_R; seed3_R]) (phi := fun _ : nat => hyper3 (0 + INR 8 * (1 / 64)))
    (K := 4) (J := 4) (V := 4) (E := case_error3) (fs := no_files : Jobs.files PrimFloat.float) as (R0 & RR).
  - reflexivity.
  - reflexivity.
  - rewrite lines_Z, layers_Z. reflexivity.
  - reflexivity.
  - exact Hfmt.
  - cbn. lia.
  - reflexivity.
  - exact rep_64th.
  - rewrite I8, A. replace ((8 - 1) * (1 / 64)) with (7 / 64) by lra. exact rep_7_64.
  - apply lists_read.
  - apply lists_read.
  - apply lists_read.
  - cbn. lia.
  - apply no_dup. vm_compute. reflexivity.
  - apply no_dup. vm_compute. reflexivity.
  - cbn. lia.
  - discriminate.
  - pose proof lines_Z. lia.
  - pose proof layers_Z. lia.
  - rewrite lines_Z. reflexivity || (unfold INT_MAX; lia).
  - rewrite layers_Z. reflexivity || (unfold INT_MAX; lia).
  - rewrite lines_Z, layers_Z. reflexivity || (unfold INT_MAX; lia).
  - exact SE.
  - exact SE.
  - exact SE.
  - exact A2.
  - exact A2.
  - exact A2.
  - reflexivity.
  - exact case_tame3.
  - exact swirl_lipschitz.
  - intros t X Y Z _ HX HY HZ. cbn [swirl]. apply sized_triple; [lra| | |]; apply Rabs_le; lra.
  - rewrite Ho. exact case_series3.
  - intros p [<-|[]]. split; [|split; [|split; [|]]].
    + exists pair_file. split; [reflexivity|]. repeat (split; [reflexivity|]). reflexivity.
    + pose proof seed3_seated as H. inversion H as [|? ? ? ? H1 H2]; subst. constructor; [exact H1|]. constructor; [exact H1|constructor].
    + apply two. exact seed3_spaced.
    + apply two. exact case_clear3.
  - intros p _. exact Hfits.
  - lra.
  - lra.
  - lra.
  - reflexivity.
  - apply below_199. lra.
  - intros i p _ _ t. split.
    + intros G x HG Hx. assert (G = seed3_R) as -> by (destruct HG as [<-|[<-|[]]]; reflexivity).
      apply flow_shift3. apply hyper3_flows; [rewrite I8; lra| | |];
      (cbn in Hx; destruct Hx as [<-|[<-|[<-|[<-|[<-|[<-|[]]]]]]]; unfold v0, v1, v2; cbn [fst snd]; apply Rabs_le; lra).
    + apply two. constructor; [|constructor]. eexists. exact case_resolved3.
  - intros p l. discriminate.
  - split; [exact R0|]. intros fs Hends. destruct (RR _ _ _ Hends) as (_ & _ & R3). destruct (R3 eq_refl) as [W _].
    assert (S : forall i f, (i + 8 <= 9)%nat -> nth_error nine i = Some f -> shows_pair fs (result_file "run" fmt seeds f) ((1 / 8) / (7 / 64)) (1 / 4)).
    { intros i f Hi Hf. destruct (W i f "seeds.mat"%string) as (xs & c & Hxs & Hfile & HF).
      - exact Hi.
      - rewrite Ho. exact Hf.
      - rewrite Ho. rewrite Nat.mod_1_r. reflexivity.
      - exists c. split; [exact Hfile|].
        assert (near : forall x, (exists s, spectral_norm_3 (gradient3 seed3_R (image3 (hyper3 (0 + INR 8 * (1 / 64))) seed3_R)) s /\
            ftle_within3 case_error3 (side3 seed3_R) s ((INR 8 - 1) * Rabs (1 / 64)) x) -> number_near ((1 / 8) / (7 / 64)) (1 / 4) (XVal x)).
        { intros x (sg & Rs & r & Rr & Hr). exists x, r. split; [reflexivity|]. split; [exact Rr|].
          rewrite (spectral_norm_3_unique _ _ _ Rs (proj1 case_resolved3)), I8, A, seed3_side, ln_exp in Hr.
          replace ((8 - 1) * (1 / 64)) with (7 / 64) in Hr by lra. apply Rle_trans with (1 := Hr).
          destruct exp_eighth as [L U]. set (e := exp (1 / 8)) in *.
          assert (Q : 12 * case_error3 / (e * 2) <= 6 * case_error3).
          { replace (12 * case_error3 / (e * 2)) with (6 * case_error3 * / e) by (field; lra). rewrite <- (Rmult_1_r (6 * case_error3)) at 2.
            apply Rmult_le_compat_l; [lra|]. rewrite <- Rinv_1. apply Rinv_le_contravar; lra. }
          replace (2 ^ 34) with 17179869184 by (cbn [pow]; lra). lra. }
        inversion Hxs as [|? x ? l Hx Hl]; subst. inversion Hl as [|? x' ? l' Hx' Hl']; subst. inversion Hl'; subst.
        apply (field_pair fmt seeds _ _ _ c) with (3 := HF); [exact Hseeds|reflexivity|].
        constructor; [exact (near x Hx)|]. constructor; [exact (near x' Hx')|constructor]. }
    split; [exact (S 0%nat "v0.mat"%string ltac:(lia) eq_refl)|exact (S 1%nat "v1.mat"%string ltac:(lia) eq_refl)].
Qed.

Lemma program_case3 : forall scp imems mems,
  let ends command := main_ends (Fops lnR_rounded) scp read_number imems mems eigvals_rounded input_lists input_files3 command no_files in
  let good fmt seeds ext := (exists fs, ends (grid_command3 fmt seeds) (false, Ok tt) fs) /\ forall fs, ends (grid_command3 fmt seeds) (false, Ok tt) fs ->
    shows_pair fs (append "outputs/run/ftle_v0" ext) ((1 / 8) / (7 / 64)) (1 / 4) /\ shows_pair fs (append "outputs/run/ftle_v1" ext) ((1 / 8) / (7 / 64)) (1 / 4) in
  good "mat"%string None ".mat"%string /\ good "mat"%string (Some "1,1,2"%string) ".mat"%string /\
  good "vtk"%string None ".vtp"%string /\ good "vtk"%string (Some "1,1,2"%string) ".vts"%string.
Proof.
  intros scp imems mems ends good.
  destruct (grid_parsed3 "mat" (or_introl eq_refl)) as [P1 P2]. destruct (grid_parsed3 "vtk" (or_intror eq_refl)) as [P3 P4]. split; [|split; [|split]].
  - exact (one_case3 "mat" None None P1 (or_introl eq_refl) (or_introl eq_refl) scp imems mems).
  - exact (one_case3 "mat" _ _ P2 (or_introl eq_refl) (or_intror eq_refl) scp imems mems).
  - exact (one_case3 "vtk" None None P3 (or_intror eq_refl) (or_introl eq_refl) scp imems mems).
  - exact (one_case3 "vtk" _ _ P4 (or_intror eq_refl) (or_intror eq_refl) scp imems mems).
Qed.
