(** A run of the command line program that meets the hypotheses of C112: the files of GridRunCases.v and one more snapshot, so
    that there are two windows of eight. *)
From Coq Require Import String Reals Lia Lra Floats.
From Flocq Require Import Core BinarySingleNaN PrimFloat.
From Verif Require Import Base Num NdArray Text Particles Jacobian Ftle Integrate GridInterp Interpolate Readers DataSource Solver FileRun Writers Batches FileUtils
  Hyper Manager Monitor Executor ManagerRun Jobs Decorators Program SpecExecutor SpecWriters SpecProgram SpecSeeds SpecInterp SpecFtle SpecGrid
  SpecFiles SpecIntegrate SpecOrder SpecConverge SpecFloat64 SpecAccuracy SpecFloatGrid SpecFloatJac SpecRounding SpecFloatRun SpecGridRun SpecGridProgram
  FtleFacts2 OrderFacts ConvergeCases FloatArith FloatGrid FloatJac FloatRuns GridRunField FtleAccuracyMain FloatFtleRun FloatFtleCases GridRunMain GridRunCases GridProgramMain.
Local Open Scope R_scope.

(** ** A steady flow can start at any time *)

Lemma between_shift c a b t : between (c + a) (c + b) t -> between a b (t - c).
Proof. unfold between, Rmin, Rmax. destruct (Rle_dec (c + a) (c + b)), (Rle_dec a b); lra. Qed.
Lemma derivative_shift c a b f g : derivative a b f g -> derivative (c + a) (c + b) (fun t => f (t - c)) (fun t => g (t - c)).
Proof.
  intros H t Ht i. apply between_shift in Ht. specialize (H (t - c) Ht i).
  replace (coord i (g (t - c))) with (coord i (g (t - c)) * 1) by ring.
  apply (derivable_pt_lim_comp (fun s => s - c) (fun s => coord i (f s))); [|exact H].
  replace 1 with (1 - 0) by ring. apply derivable_pt_lim_minus; [apply derivable_pt_lim_id|apply derivable_pt_lim_const].
Qed.
Lemma rate_shift c a b K f : rate a b K f -> rate (c + a) (c + b) K (fun t => f (t - c)).
Proof.
  intros H s t Hs Ht i. replace (s - t) with ((s - c) - (t - c)) by ring. apply H; apply between_shift; assumption.
Qed.
Lemma flow_shift m v T K J V phi x c : flow_along (regular m (fun _ => v) 0 (0 + T) K J V) (fun _ => v) 0 (0 + T) phi x ->
  flow_along (regular m (fun _ => v) c (c + T) K J V) (fun _ => v) c (c + T) phi x.
Proof.
  rewrite Rplus_0_l. intros (y & Y0 & [Yl Yd] & Y1 & Yr & Ym). rewrite <- (Rplus_0_r c) at 1 3. exists (fun t => y (t - c)).
  split; [rewrite Rplus_0_r; replace (c - c) with 0 by ring; exact Y0|].
  split. { split; [intro t; apply Yl|]. exact (derivative_shift c 0 T y (fun t => v (y t)) Yd). }
  split; [replace (c + T - c) with T by ring; exact Y1|].
  split; [exact (rate_shift c 0 T K (fun t => v (y t)) Yr)|].
  destruct m; [exact I| |].
  - destruct Ym as (acc & A1 & A2). exists (fun t => acc (t - c)). split; [exact (derivative_shift c 0 T (fun t => v (y t)) acc A1)|exact (rate_shift c 0 T J acc A2)].
  - intros t i Ht. apply (Ym (t - c)). apply between_shift, Ht.
Qed.

(** ** The files and the command *)

Definition nine : list string := snapshots ++ ["v8.mat"]%string.
Definition input_files : filesystem PrimFloat.float := fun name => if string_dec name "v8.mat" then Ok velocity_file else files name.
Definition text_of (l : list string) : string := String.concat "" (map (fun a => append a (String "010" EmptyString)) l).
Definition input_lists (name : string) : option string :=
  if String.eqb name "v.txt" then Some (text_of nine)
  else if String.eqb name "c.txt" then Some (text_of coordinates)
  else if String.eqb name "p.txt" then Some (text_of ["seeds.mat"]%string)
  else None.
Definition read_number (s : string) : res PrimFloat.float :=
  if String.eqb s "0.015625" then Ok 0.015625%float else if String.eqb s "0.109375" then Ok 0.109375%float else Err ValueError.
Definition grid_command (fmt : string) (seeds : option string) : command_line :=
  CommandLine (Some "run") (Some "v.txt") (Some "c.txt") (Some "p.txt") (Some "0.015625") (Some "0.109375") (Some "ab2") (Some "grid")
    (Some "2") (Some fmt) (Some "1025,1025") seeds.
Definition grid_args (fmt : string) (seeds : option (list Z)) : program_args PrimFloat.float :=
  ProgramArgs "run" "v.txt" "c.txt" "p.txt" 0.015625%float 0.109375%float (Some "ab2"%string) (Some "grid"%string) 2 (Some fmt) (Some [1025; 1025]%Z) seeds.

Lemma grid_parsed : parse_args read_number (grid_command "mat" None) = Ok (grid_args "mat" None) /\
  parse_args read_number (grid_command "vtk" (Some "1,1,1"%string)) = Ok (grid_args "vtk" (Some [1; 1]%Z)).
Proof. split; vm_compute; reflexivity. Qed.
Lemma lists_read : listed input_lists "v.txt" nine /\ listed input_lists "c.txt" coordinates /\ listed input_lists "p.txt" ["seeds.mat"]%string.
Proof. repeat split; vm_compute; reflexivity. Qed.
Lemma rep_7_64 : represents 0.109375%float (7 / 64).
Proof. split; [reflexivity|]. vm_compute (Prim2SF _). unfold SF2R, F2R. cbn. lra. Qed.

Lemma no_dup (l : list string) : nodup string_dec l = l -> NoDup l.
Proof. intros <-. apply NoDup_nodup. Qed.

Lemma case_series : series input_files lines lines (-2) 2 (-2) 2 2 0 (fun _ => saddle) 0 (1 / 64) nine coordinates.
Proof.
  split.
  - intros k f Hf. exists velocity_file. split; [|exact velocity_held]. apply nth_error_In in Hf. unfold input_files.
    destruct (string_dec f "v8.mat") as [|N]; [reflexivity|]. unfold nine in Hf. apply in_app_or in Hf as [Hf|[Hf|[]]]; [|congruence].
    unfold files. destruct (in_dec string_dec f snapshots); [reflexivity|contradiction].
  - intros f Hf. exists grid_file. split; [|exact grid_held]. unfold input_files, files.
    destruct (string_dec f "v8.mat") as [->|N]; [exfalso; cbn in Hf; intuition discriminate|].
    destruct (in_dec string_dec f snapshots) as [X|X]; [exfalso; cbn in Hf, X; intuition (subst; discriminate)|].
    destruct (in_dec string_dec f coordinates); [reflexivity|contradiction].
Qed.

(** The FTLE in an output file. *)
Definition only_value (c : content PrimFloat.float) (v : xval PrimFloat.float) : Prop :=
  match c with MatFile F _ _ _ => nd_get F (map (fun _ => 0%nat) (shape F)) = Ok v | VtsFile _ _ _ f => f = [v] | VtpFile _ f => f = [v] end.
Definition shows (fs : Jobs.files PrimFloat.float) (path : string) (value err : R) : Prop :=
  exists c x r, fs path = Some (Whole c) /\ only_value c (XVal x) /\ represents x r /\ Rabs (r - value) <= err.
Lemma field_value fmt option (cs : mat PrimFloat.float) (x : PrimFloat.float) lnF c : field_file (Fops lnF) fmt option 1 [XVal x] cs c -> only_value c (XVal x).
Proof.
  intros [(_ & s & seed & F & X & Y & Z & -> & HL & HA)|[(_ & _ & points & -> & _)|(_ & px & py & points & _ & -> & _)]]; try reflexivity. cbn [only_value].
  destruct HA as (Hs & _ & _ & _ & HA & _). rewrite Hs. destruct HL as [(_ & -> & ->)|(px & py & _ & HN & -> & ->)].
  - destruct (HA [0%nat] eq_refl) as ((u & Hu & Vu) & _). cbn in Vu. injection Vu as <-. exact Hu.
  - assert (px = 1 /\ py = 1)%nat as [-> ->] by (destruct px as [|[|?]], py as [|[|?]]; cbn in HN; lia).
    destruct (HA [0; 0; 0]%nat eq_refl) as ((u & Hu & Vu) & _). cbn in Vu. injection Vu as <-. exact Hu.
Qed.

Lemma one_case fmt shape seeds : parse_args read_number (grid_command fmt shape) = Ok (grid_args fmt seeds) -> (fmt = "mat" \/ fmt = "vtk")%string -> fits seeds 1 ->
  forall scp imems mems eigvals,
  let ends := main_ends (Fops lnR_rounded) scp read_number imems mems eigvals input_lists input_files (grid_command fmt shape) no_files in
  (exists fs, ends (false, Ok tt) fs) /\
  forall fs, ends (false, Ok tt) fs ->
    shows fs (result_file "run" fmt seeds "v0.mat") ((1 / 8) / (7 / 64)) (1 / 7) /\ shows fs (result_file "run" fmt seeds "v1.mat") ((1 / 8) / (7 / 64)) (1 / 7).
Proof.
  intros Hparsed Hfmt Hfits scp imems mems eigvals ends.
  assert (I8 : INR 8 = 8) by (cbn; lra). assert (A : Rabs (1 / 64) = 1 / 64) by (apply Rabs_pos_eq; lra).
  assert (A2 : Rabs (-2) <= 2 /\ Rabs 2 <= 2) by (split; apply Rabs_le; lra). pose proof case_error_small as HE.
  assert (Ho : forall A (l : list A), run_order (1 / 64) l = l) by (intros; unfold run_order; destruct (Rlt_dec (1 / 64) 0); [lra|reflexivity]).
  destruct (grid_program lnR_rounded scp read_number imems mems eigvals input_lists input_files (grid_command fmt shape) (grid_args fmt seeds) lnR_rounded_accurate Hparsed)
    with (m := MAB2) (hF := 0.015625%float) (h := 1 / 64) (n := 8%nat) (nx := lines) (ny := lines) (vs := nine) (cs := coordinates) (ps := ["seeds.mat"]%string) (fmt := fmt)
    (x0 := -2) (x1 := 2) (y0 := -2) (y1 := 2) (B := 2) (M := 2) (eps := 0) (L := 1) (rho := 5 / 8) (v := fun _ : R => @saddle R) (t0 := 0) (delta := case_delta)
    (gs := fun _ : string => [seed_F]) (Gs := fun _ : string => [seed_R]) (phi := fun _ : nat => hyper (0 + INR 8 * (1 / 64)))
    (K := 2) (J := 2) (V := 2) (E := case_error) (fs := no_files : Jobs.files PrimFloat.float) as (R0 & RR).
  - reflexivity.
  - reflexivity.
  - rewrite lines_Z. reflexivity.
  - reflexivity.
  - exact Hfmt.
  - cbn. lia.
  - reflexivity.
  - exact rep_64th.
  - rewrite I8, A. replace ((8 - 1) * (1 / 64)) with (7 / 64) by lra. exact rep_7_64.
  - apply lists_read.
  - apply lists_read.
  - apply lists_read.
  - cbn. lia.
  - apply no_dup. vm_compute. reflexivity.
  - apply no_dup. vm_compute. reflexivity.
  - cbn. lia.
  - discriminate.
  - pose proof lines_Z. lia.
  - pose proof lines_Z. lia.
  - rewrite lines_Z. reflexivity || (unfold INT_MAX; lia).
  - rewrite lines_Z. reflexivity || (unfold INT_MAX; lia).
  - unfold sane_extent. split; [apply le_inv_pow; [cbn; lra|lia]|apply ge_pow; [cbn; lra|lia]].
  - unfold sane_extent. split; [apply le_inv_pow; [cbn; lra|lia]|apply ge_pow; [cbn; lra|lia]].
  - exact A2.
  - exact A2.
  - reflexivity.
  - exact case_tame.
  - exact saddle_lipschitz.
  - intros t X Y _ HX HY. apply sized_pair; [lra|apply Rabs_le; lra|apply Rabs_le; lra].
  - rewrite Ho. exact case_series.
  - intros p [<-|[]]. split; [|split; [exact seed_seated|split; [exact seed_spaced|exact case_clear]]].
    exists particle_file. split; [reflexivity|]. repeat (split; [reflexivity|]). left. reflexivity.
  - intros p _. exact Hfits.
  - lra.
  - lra.
  - lra.
  - reflexivity.
  - apply below_199. lra.
  - intros i p _ _ t. split.
    + intros G x [<-|[]] Hx. apply flow_shift. apply hyper_flows; [rewrite I8; lra| |];
      (cbn in Hx; destruct Hx as [<-|[<-|[<-|[<-|[]]]]]; cbn [fst snd]; apply Rabs_le; lra).
    + constructor; [|constructor]. eexists. exact case_resolved.
  - intros p l. discriminate.
  - split; [exact R0|]. intros fs Hends. destruct (RR _ _ _ Hends) as (_ & _ & R3). destruct (R3 eq_refl) as [W _].
    assert (S : forall i f, (i + 8 <= 9)%nat -> nth_error nine i = Some f -> shows fs (result_file "run" fmt seeds f) ((1 / 8) / (7 / 64)) (1 / 7)).
    { intros i f Hi Hf. destruct (W i f "seeds.mat"%string) as (xs & c & Hxs & Hfile & HF).
      - exact Hi.
      - rewrite Ho. exact Hf.
      - rewrite Ho. rewrite Nat.mod_1_r. reflexivity.
      - inversion Hxs as [|? x ? l (sg & Rs & r & Rr & Hr) Hl]; subst. inversion Hl; subst. exists c, x, r.
        split; [exact Hfile|]. split; [|split; [exact Rr|]].
        + exact (field_value _ _ _ _ _ _ HF).
        + rewrite (spectral_norm_2_unique _ _ _ Rs (proj1 case_resolved)), I8, A, seed_side, ln_exp in Hr.
          replace ((8 - 1) * (1 / 64)) with (7 / 64) in Hr by lra. apply Rle_trans with (1 := Hr).
          destruct exp_eighth as [L U]. set (e := exp (1 / 8)) in *.
          assert (Q : 12 * case_error / (e * 2) <= 6 * case_error).
          { replace (12 * case_error / (e * 2)) with (6 * case_error * / e) by (field; lra). rewrite <- (Rmult_1_r (6 * case_error)) at 2.
            apply Rmult_le_compat_l; [lra|]. rewrite <- Rinv_1. apply Rinv_le_contravar; lra. }
          replace (2 ^ 21) with 2097152 by (cbn [pow]; lra). lra. }
    split; [exact (S 0%nat "v0.mat"%string ltac:(lia) eq_refl)|exact (S 1%nat "v1.mat"%string ltac:(lia) eq_refl)].
Qed.

Lemma program_case : forall scp imems mems eigvals,
  let ends command := main_ends (Fops lnR_rounded) scp read_number imems mems eigvals input_lists input_files command no_files in
  ((exists fs, ends (grid_command "mat" None) (false, Ok tt) fs) /\ forall fs, ends (grid_command "mat" None) (false, Ok tt) fs ->
    shows fs "outputs/run/ftle_v0.mat" ((1 / 8) / (7 / 64)) (1 / 7) /\ shows fs "outputs/run/ftle_v1.mat" ((1 / 8) / (7 / 64)) (1 / 7)) /\
  ((exists fs, ends (grid_command "vtk" (Some "1,1,1")) (false, Ok tt) fs) /\ forall fs, ends (grid_command "vtk" (Some "1,1,1")) (false, Ok tt) fs ->
    shows fs "outputs/run/ftle_v0.vts" ((1 / 8) / (7 / 64)) (1 / 7) /\ shows fs "outputs/run/ftle_v1.vts" ((1 / 8) / (7 / 64)) (1 / 7)).
Proof.
  intros scp imems mems eigvals ends. split.
  - exact (one_case "mat" None None (proj1 grid_parsed) (or_introl eq_refl) (or_introl eq_refl) scp imems mems eigvals).
  - exact (one_case "vtk" (Some "1,1,1"%string) (Some [1; 1]%Z) (proj2 grid_parsed) (or_intror eq_refl) (or_intror (ex_intro _ 1%nat (ex_intro _ 1%nat (conj eq_refl eq_refl)))) scp imems mems eigvals).
Qed.
