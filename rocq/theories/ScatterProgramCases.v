(** A run of the command line program that meets the hypotheses of C117: the files of GridProgramCases.v as scattered data. *)
From Coq Require Import String Reals Lia Lra Floats.
From Verif Require Import Base Num NdArray Text Particles Jacobian Ftle Integrate GridInterp Interpolate Readers DataSource Solver FileRun Writers Batches FileUtils
  Hyper Manager Monitor Executor ManagerRun Jobs Decorators Program SpecExecutor SpecWriters SpecProgram SpecSeeds SpecInterp SpecFtle SpecGrid
  SpecFiles SpecIntegrate SpecOrder SpecConverge SpecFloat64 SpecAccuracy SpecFloatGrid SpecFloatJac SpecRounding SpecFloatRun SpecGridRun SpecGridProgram SpecScatter SpecScatterProgram
  FtleFacts2 OrderFacts ConvergeCases FloatArith FloatGrid FloatJac FloatRuns GridRunField FtleAccuracyMain FloatFtleRun FloatFtleCases GridRunMain GridRunCases GridProgramMain
  GridProgramCases ScatterMain ScatterCases ScatterProgramMain.
Local Open Scope R_scope.

Definition scatter_lists (name : string) : option string :=
  if String.eqb name "v.txt" then Some (text_of nine)
  else if String.eqb name "c.txt" then Some (text_of ["c0.mat"]%string)
  else if String.eqb name "p.txt" then Some (text_of ["seeds.mat"]%string)
  else None.
Definition scatter_command (fmt : string) (seeds : option string) : command_line :=
  CommandLine (Some "run") (Some "v.txt") (Some "c.txt") (Some "p.txt") (Some "0.015625") (Some "0.109375") (Some "ab2") (Some "nearest")
    (Some "2") (Some fmt) None seeds.
Definition scatter_args (fmt : string) (seeds : option (list Z)) : program_args PrimFloat.float :=
  ProgramArgs "run" "v.txt" "c.txt" "p.txt" 0.015625%float 0.109375%float (Some "ab2"%string) (Some "nearest"%string) 2 (Some fmt) None seeds.

Lemma scatter_parsed : parse_args read_number (scatter_command "mat" None) = Ok (scatter_args "mat" None) /\
  parse_args read_number (scatter_command "vtk" (Some "1,1,1"%string)) = Ok (scatter_args "vtk" (Some [1; 1]%Z)).
Proof. split; vm_compute; reflexivity. Qed.
Lemma scatter_read : listed scatter_lists "v.txt" nine /\ listed scatter_lists "c.txt" ["c0.mat"]%string /\ listed scatter_lists "p.txt" ["seeds.mat"]%string.
Proof. repeat split; vm_compute; reflexivity. Qed.

Lemma nine_velocity f : In f nine -> input_files f = Ok velocity_file.
Proof.
  intro Hf. unfold input_files. destruct (string_dec f "v8.mat") as [|N]; [reflexivity|]. unfold nine in Hf. apply in_app_or in Hf as [Hf|[Hf|[]]]; [|congruence].
  unfold files. destruct (in_dec string_dec f snapshots); [reflexivity|contradiction].
Qed.

Lemma scatter_held : scatter_series input_files exact_scipy ByNearest square case_delta (fun _ => saddle) 0 (1 / 64) nine ["c0.mat"]%string.
Proof.
  intros j f g Hf Hg. cbn [length] in Hg. rewrite Nat.mod_1_r in Hg. injection Hg as <-.
  destruct (square_scattered _ eq_refl 0%nat ltac:(cbn; lia)) as (vf & cf & dv & dc & points & values & A1 & A2 & A3 & A4 & A5 & A6 & A7 & answer & A8 & A9).
  injection A1 as <-. injection A2 as <-. exists dv, dc, points, values, answer.
  split. { rewrite (nine_velocity f (nth_error_In _ _ Hf)), <- A3. reflexivity. }
  split; [exact A4|]. auto.
Qed.

Lemma scatter_one fmt shape seeds : parse_args read_number (scatter_command fmt shape) = Ok (scatter_args fmt seeds) -> (fmt = "mat" \/ fmt = "vtk")%string -> fits seeds 1 ->
  forall imems mems eigvals,
  let ends := main_ends (Fops lnR_rounded) exact_scipy read_number imems mems eigvals scatter_lists input_files (scatter_command fmt shape) no_files in
  (exists fs, ends (false, Ok tt) fs) /\
  forall fs, ends (false, Ok tt) fs ->
    shows fs (result_file "run" fmt seeds "v0.mat") ((1 / 8) / (7 / 64)) (1 / 7) /\ shows fs (result_file "run" fmt seeds "v1.mat") ((1 / 8) / (7 / 64)) (1 / 7).
Proof.
  intros Hparsed Hfmt Hfits imems mems eigvals ends.
  assert (I8 : INR 8 = 8) by (cbn; lra). assert (A : Rabs (1 / 64) = 1 / 64) by (apply Rabs_pos_eq; lra).
  pose proof case_error_small as HE.
  assert (Ho : forall A (l : list A), run_order (1 / 64) l = l) by (intros; unfold run_order; destruct (Rlt_dec (1 / 64) 0); [lra|reflexivity]).
  destruct (scatter_program lnR_rounded exact_scipy read_number imems mems eigvals scatter_lists input_files (scatter_command fmt shape) (scatter_args fmt seeds) lnR_rounded_accurate Hparsed)
    with (m := MAB2) (hF := 0.015625%float) (h := 1 / 64) (n := 8%nat) (vs := nine) (cs := ["c0.mat"]%string) (ps := ["seeds.mat"]%string) (fmt := fmt) (name := "nearest"%string) (k := ByNearest)
    (D := square) (B := 2) (M := 2) (L := 1) (rho := 5 / 8) (v := fun _ : R => @saddle R) (t0 := 0) (delta := case_delta)
    (gs := fun _ : string => [seed_F]) (Gs := fun _ : string => [seed_R]) (phi := fun _ : nat => hyper (0 + INR 8 * (1 / 64)))
    (K := 2) (J := 2) (V := 2) (E := case_error) (fs := no_files : Jobs.files PrimFloat.float) as (R0 & RR).
  - reflexivity.
  - reflexivity.
  - cbn; unfold same_letter; tauto.
  - reflexivity.
  - reflexivity.
  - exact Hfmt.
  - cbn. lia.
  - reflexivity.
  - exact rep_64th.
  - rewrite I8, A. replace ((8 - 1) * (1 / 64)) with (7 / 64) by lra. exact rep_7_64.
  - apply scatter_read.
  - apply scatter_read.
  - apply scatter_read.
  - cbn. lia.
  - apply no_dup. vm_compute. reflexivity.
  - discriminate.
  - discriminate.
  - intros q [H1 H2]. split; apply Rabs_le; lra.
  - exact case_tame.
  - exact saddle_lipschitz.
  - intros t [X Y] _ [HX HY]. cbn [fst snd] in HX, HY. apply sized_pair; [lra|apply Rabs_le; lra|apply Rabs_le; lra].
  - rewrite !Ho. exact scatter_held.
  - intros p [<-|[]]. split; [|split; [exact seed_seated|split; [exact seed_spaced|exact square_room]]].
    exists particle_file. split; [reflexivity|]. repeat (split; [reflexivity|]). left. reflexivity.
  - intros p _. exact Hfits.
  - lra.
  - lra.
  - lra.
  - reflexivity.
  - apply below_199. lra.
  - intros i p _ _ t. split.
    + intros G x [<-|[]] Hx. apply flow_shift. apply hyper_flows; [rewrite I8; lra| |];
      (cbn in Hx; destruct Hx as [<-|[<-|[<-|[<-|[]]]]]; cbn [fst snd]; apply Rabs_le; lra).
    + constructor; [|constructor]. eexists. exact case_resolved.
  - intros p l. discriminate.
  - split; [exact R0|]. intros fs Hends. destruct (RR _ _ _ Hends) as (_ & _ & R3). destruct (R3 eq_refl) as [W _].
    assert (S : forall i f, (i + 8 <= 9)%nat -> nth_error nine i = Some f -> shows fs (result_file "run" fmt seeds f) ((1 / 8) / (7 / 64)) (1 / 7)).
    { intros i f Hi Hf. destruct (W i f "seeds.mat"%string) as (xs & c & Hxs & Hfile & HF).
      - exact Hi.
      - rewrite Ho. exact Hf.
      - rewrite Ho. rewrite Nat.mod_1_r. reflexivity.
      - inversion Hxs as [|? x ? l (sg & Rs & r & Rr & Hr) Hl]; subst. inversion Hl; subst. exists c, x, r.
        split; [exact Hfile|]. split; [|split; [exact Rr|]].
        + exact (field_value _ _ _ _ _ _ HF).
        + rewrite (spectral_norm_2_unique _ _ _ Rs (proj1 case_resolved)), I8, A, seed_side, ln_exp in Hr.
          replace ((8 - 1) * (1 / 64)) with (7 / 64) in Hr by lra. apply Rle_trans with (1 := Hr).
          destruct exp_eighth as [L U]. set (e := exp (1 / 8)) in *.
          assert (Q : 12 * case_error / (e * 2) <= 6 * case_error).
          { replace (12 * case_error / (e * 2)) with (6 * case_error * / e) by (field; lra). rewrite <- (Rmult_1_r (6 * case_error)) at 2.
            apply Rmult_le_compat_l; [lra|]. rewrite <- Rinv_1. apply Rinv_le_contravar; lra. }
          replace (2 ^ 21) with 2097152 by (cbn [pow]; lra). lra. }
    split; [exact (S 0%nat "v0.mat"%string ltac:(lia) eq_refl)|exact (S 1%nat "v1.mat"%string ltac:(lia) eq_refl)].
Qed.

Lemma scatter_program_case : forall imems mems eigvals,
  let ends command := main_ends (Fops lnR_rounded) exact_scipy read_number imems mems eigvals scatter_lists input_files command no_files in
  ((exists fs, ends (scatter_command "mat" None) (false, Ok tt) fs) /\ forall fs, ends (scatter_command "mat" None) (false, Ok tt) fs ->
    shows fs "outputs/run/ftle_v0.mat" ((1 / 8) / (7 / 64)) (1 / 7) /\ shows fs "outputs/run/ftle_v1.mat" ((1 / 8) / (7 / 64)) (1 / 7)) /\
  ((exists fs, ends (scatter_command "vtk" (Some "1,1,1")) (false, Ok tt) fs) /\ forall fs, ends (scatter_command "vtk" (Some "1,1,1")) (false, Ok tt) fs ->
    shows fs "outputs/run/ftle_v0.vts" ((1 / 8) / (7 / 64)) (1 / 7) /\ shows fs "outputs/run/ftle_v1.vts" ((1 / 8) / (7 / 64)) (1 / 7)).
Proof.
  intros imems mems eigvals ends. split.
  - exact (scatter_one "mat" None None (proj1 scatter_parsed) (or_introl eq_refl) (or_introl eq_refl) imems mems eigvals).
  - exact (scatter_one "vtk" (Some "1,1,1"%string) (Some [1; 1]%Z) (proj2 scatter_parsed) (or_intror eq_refl) (or_intror (ex_intro _ 1%nat (ex_intro _ 1%nat (conj eq_refl eq_refl)))) imems mems eigvals).
Qed.
