(** C118 is false in space: a run on scattered data whose output file depends on the contents of freshly allocated memory. *)
From Coq Require Import String Reals Lia Lra Floats.
From Flocq Require Import Core BinarySingleNaN PrimFloat.
From Verif Require Import Base Num NdArray Text Particles Jacobian Ftle Integrate GridInterp Interpolate Readers DataSource Solver FileRun Writers Batches FileUtils
  Hyper Manager Monitor Executor ManagerRun Jobs Decorators Program SpecExecutor SpecWriters SpecProgram SpecIntegrate SpecFloat64 SpecAccuracy SpecGridProgram SpecMem
  FloatArith FtleAccuracyMain GridProgramMain GridProgramCases WindowRun.

(** NearestNDInterpolator for the data below: the velocity is zero everywhere. *)
Definition still_scipy : scipy PrimFloat.float :=
  Scipy _ unit (fun _ => Err ValueError) (fun _ _ _ => Err ValueError) (fun _ _ _ => Err ValueError) (fun _ _ _ => Err ValueError)
    (fun _ => Ok tt) (fun _ _ q => Ok (map (fun _ => (0, 0)%float) (mrows q))) (fun _ _ q => Ok (map (fun _ => 0%float) (mrows q)))
    (fun _ _ _ => Err ValueError) (fun _ _ _ _ _ => Err ValueError).

Definition row3 (a b c : PrimFloat.float) : nd PrimFloat.float := Nd [1; 3] [a; b; c].
Definition still_files (name : string) : res (matfile PrimFloat.float) :=
  if String.eqb name "v0.mat" || String.eqb name "v1.mat" then
    Ok (fun key => if String.eqb key "velocity_x" || String.eqb key "velocity_y" || String.eqb key "velocity_z" then Some (row3 0 0 0) else None)
  else if String.eqb name "c.mat" then
    Ok (fun key => if String.eqb key "coordinate_x" then Some (row3 0 1 0) else if String.eqb key "coordinate_y" then Some (row3 0 0 1)
                   else if String.eqb key "coordinate_z" then Some (row3 0 1 1) else None)
  else if String.eqb name "seeds.mat" then
    Ok (fun key => if String.eqb key "left" then Some (row3 (-1) 0 0) else if String.eqb key "right" then Some (row3 1 0 0)
                   else if String.eqb key "top" then Some (row3 0 1 0) else if String.eqb key "bottom" then Some (row3 0 (-1) 0)
                   else if String.eqb key "front" then Some (row3 0 0 1) else if String.eqb key "back" then Some (row3 0 0 (-1)) else None)
  else Err FileNotFoundError.
Definition still_lists (name : string) : option string :=
  if String.eqb name "v.txt" then Some (text_of ["v0.mat"; "v1.mat"]%string)
  else if String.eqb name "c.txt" then Some (text_of ["c.mat"]%string)
  else if String.eqb name "p.txt" then Some (text_of ["seeds.mat"]%string)
  else None.
Definition read_one (s : string) : res PrimFloat.float := if String.eqb s "1" then Ok 1%float else Err ValueError.
Definition still_command : command_line :=
  CommandLine (Some "run") (Some "v.txt") (Some "c.txt") (Some "p.txt") (Some "1") (Some "1") (Some "euler") (Some "nearest")
    (Some "1") (Some "mat") None None.
Definition still_args : program_args PrimFloat.float :=
  ProgramArgs "run" "v.txt" "c.txt" "p.txt" 1%float 1%float (Some "euler"%string) (Some "nearest"%string) 1 (Some "mat"%string) None None.

(** Fresh memory that is zero, and fresh memory whose fifth row is not. *)
Definition zeros : nat -> nat -> memory (T := PrimFloat.float) := fun _ _ _ _ _ => 0%float.
Definition dirty : nat -> nat -> memory (T := PrimFloat.float) := fun _ _ _ row _ => if Nat.eqb row 4 then 1%float else 0%float.

Section Run.
  Variable lnF : PrimFloat.float -> PrimFloat.float.
  Variable eigvals : m33 PrimFloat.float -> res (PrimFloat.float * PrimFloat.float * PrimFloat.float).
  Notation O := (Fops lnF).

  Definition still_writer : writer := Writer Mat_format "outputs/run" None.
  Definition still_source : file_source PrimFloat.float :=
    FileSource ["v0.mat"; "v1.mat"]%string ["c.mat"; "c.mat"]%string "seeds.mat" 1%float 2 true "v0".
  Definition still_manager : manager still_scipy :=
    Manager ["v0.mat"; "v1.mat"]%string ["c.mat"]%string ["seeds.mat"]%string 1%float 1%float 1 (fresh MEuler) (INearest unstructured_new) still_writer.

  Lemma still_parsed : parse_args read_one still_command = Ok still_args.
  Proof. vm_compute. reflexivity. Qed.
  Lemma still_init : manager_init O still_scipy still_lists still_args = Ok still_manager.
  Proof. vm_compute. reflexivity. Qed.
  Lemma still_batches : manager_batches O still_scipy still_manager = Ok [still_source].
  Proof. vm_compute. reflexivity. Qed.

  Definition ran (mem : nat -> nat -> memory (T := PrimFloat.float)) :=
    file_worker O still_scipy (mem 0) eigvals (mem 0) (write O still_writer) still_files still_source true true (manager_world still_scipy still_manager).

  Hypothesis Hlog : accurate_log lnF.
  Hypothesis Hone : eigvals (M33 1 0 0 0 1 0 0 0 1)%float = Ok (1, 1, 1)%float.
  Hypothesis Hfour : eigvals (M33 1 0 0 0 1 0 0 0 4)%float = Ok (1, 1, 4)%float.

  Lemma ran_zeros : exists x, snd (ran zeros) = Ok None /\ w_files (w_writer (fst (ran zeros))) "outputs/run/ftle_v0.mat" = Some x /\
    only_value x (XVal (1 * lnF 1)%float).
  Proof.
    assert (E : exists x, snd (ran zeros) = Ok None /\ w_files (w_writer (fst (ran zeros))) "outputs/run/ftle_v0.mat" = Some x /\
      x = MatFile (Nd [1] [XVal (1 * lnF 1)%float]) (Nd [1] [0%float]) (Nd [1] [0%float]) (Some (Nd [1] [0%float]))).
    { eexists. repeat split; vm_compute; rewrite Hone; reflexivity. }
    destruct E as (x & E1 & E2 & ->). eexists. split; [exact E1|]. split; [exact E2|]. reflexivity.
  Qed.

  Lemma ran_dirty : exists x, snd (ran dirty) = Ok None /\ w_files (w_writer (fst (ran dirty))) "outputs/run/ftle_v0.mat" = Some x /\
    only_value x (XVal (1 * lnF 2)%float).
  Proof.
    assert (E : exists x, snd (ran dirty) = Ok None /\ w_files (w_writer (fst (ran dirty))) "outputs/run/ftle_v0.mat" = Some x /\
      x = MatFile (Nd [1] [XVal (1 * lnF 2)%float]) (Nd [1] [0%float]) (Nd [1] [0%float]) (Some (Nd [1] [0%float]))).
    { eexists. repeat split; vm_compute; rewrite Hfour; reflexivity. }
    destruct E as (x & E1 & E2 & ->). eexists. split; [exact E1|]. split; [exact E2|]. reflexivity.
  Qed.

  Lemma one_times x r : represents x r -> (Rabs r <= 2)%R -> exists e h, (Rabs e <= uround)%R /\ (Rabs h <= tiny)%R /\
    represents (1 * x)%float (1 * r * (1 + e) + h)%R.
  Proof.
    intros Hx Hr. 
    assert (R1 : represents 1%float 1%R) by (split; [reflexivity|]; vm_compute (Prim2SF _); unfold SF2R, F2R; cbn; lra).
    apply (mul_rep 1%float x 1%R r R1 Hx).
    rewrite Rmult_1_l. apply Rle_trans with (1 := Hr). change 2%R with (bpow radix2 1). apply bpow_le. lia.
  Qed.

  Lemma values_differ : (1 * lnF 1)%float <> (1 * lnF 2)%float.
  Proof.
    intro E.
    assert (R1 : represents 1%float 1%R) by (split; [reflexivity|]; vm_compute (Prim2SF _); unfold SF2R, F2R; cbn; lra).
    assert (R2 : represents 2%float 2%R) by (split; [reflexivity|]; vm_compute (Prim2SF _); unfold SF2R, F2R; cbn; lra).
    destruct (Hlog _ _ R1 ltac:(lra)) as (a & Ra & Ha). destruct (Hlog _ _ R2 ltac:(lra)) as (b & Rb & Hb).
    assert (T40 : (0 < / 2 ^ 40 <= / 1000)%R) by (split; [apply Rinv_0_lt_compat, pow_lt; lra|apply Rinv_le_contravar; cbn; lra]).
    rewrite ln_1 in Ha. pose proof ln_lt_2 as L2.
    pose proof ln2_le as U2.
    apply Rabs_le_inv in Ha. apply Rabs_le_inv in Hb.
    destruct (one_times _ _ Ra) as (e & h & He & Hh & Va); [apply Rabs_le; lra|].
    destruct (one_times _ _ Rb) as (e' & h' & He' & Hh' & Vb); [apply Rabs_le; lra|].
    rewrite E in Va. destruct Va as [_ Va]. destruct Vb as [_ Vb]. rewrite Va in Vb.
    assert (Ub : (0 < uround <= / 1000)%R) by (unfold uround; cbn; lra).
    pose proof tiny_small as [T1 T2]. apply Rabs_le_inv in He, Hh, He', Hh'.
    assert (a * e <= / 1000)%R by nra. assert (- / 1000 <= b * e')%R by nra. lra.
  Qed.
End Run.

(** Whether the program is right depends on what fresh memory contains. *)
Lemma memory_matters : forall lnF eigvals, accurate_log lnF ->
  eigvals (M33 1 0 0 0 1 0 0 0 1)%float = Ok (1, 1, 1)%float -> eigvals (M33 1 0 0 0 1 0 0 0 4)%float = Ok (1, 1, 4)%float ->
  let ends mems := main_ends (Fops lnF) still_scipy read_one mems mems eigvals still_lists still_files still_command no_files in
  (exists fs, ends zeros (false, Ok tt) fs) /\ (exists fs, ends dirty (false, Ok tt) fs) /\
  forall fs fs', ends zeros (false, Ok tt) fs -> ends dirty (false, Ok tt) fs' ->
  exists c c' x x', fs "outputs/run/ftle_v0.mat" = Some (Whole c) /\ fs' "outputs/run/ftle_v0.mat" = Some (Whole c') /\
    only_value c (XVal x) /\ only_value c' (XVal x') /\ x <> x'.
Proof.
  intros lnF eigvals Hl H1 H4 ends.
  assert (K : forall mem v, (exists x, snd (ran lnF eigvals mem) = Ok None /\ w_files (w_writer (fst (ran lnF eigvals mem))) "outputs/run/ftle_v0.mat" = Some x /\
      only_value x (XVal v)) ->
    (exists fs, ends mem (false, Ok tt) fs) /\ forall fs, ends mem (false, Ok tt) fs -> exists c, fs "outputs/run/ftle_v0.mat" = Some (Whole c) /\ only_value c (XVal v)).
  { intros mem v (x & X1 & X2 & X3).
    destruct (program_total (Fops lnF) still_scipy read_one mem mem eigvals still_lists still_files still_command still_args still_manager [still_source]
      (fun _ _ c => only_value c (XVal v)) still_parsed (still_init lnF) (still_batches lnF)) with (fs := no_files : Jobs.files PrimFloat.float) as (R0 & RR).
    - discriminate.
    - cbn. lia.
    - intros i j f g Hi Hj Hij. destruct i as [|i]; [|destruct i; discriminate]. destruct j as [|j]; [contradiction|destruct j; discriminate].
    - intros i f Hi. destruct i as [|i]; [|destruct i; discriminate]. injection Hi as <-. exists (w_writer (fst (ran lnF eigvals mem))), x.
      split; [reflexivity|]. split; [exact X1|]. split; [exact X2|exact X3].
    - intros p l. discriminate.
    - split; [exact R0|]. intros fs Hfs. destruct (RR _ _ _ Hfs) as (_ & _ & R3). destruct (R3 eq_refl) as [W _]. exact (W 0 still_source eq_refl). }
  destruct (K zeros _ (ran_zeros lnF eigvals H1)) as [Z0 Z]. destruct (K dirty _ (ran_dirty lnF eigvals H4)) as [D0 D].
  split; [exact Z0|]. split; [exact D0|]. intros fs fs' Hz Hd. destruct (Z fs Hz) as (c & C1 & C2). destruct (D fs' Hd) as (c' & C1' & C2').
  exists c, c', (1 * lnF 1)%float, (1 * lnF 2)%float. repeat (split; [assumption|]). exact (values_differ lnF Hl).
Qed.

(** A run in the plane, for which fresh memory does not matter. *)
Definition row2 (a b : PrimFloat.float) : nd PrimFloat.float := Nd [1; 2] [a; b].
Definition flat_files (name : string) : res (matfile PrimFloat.float) :=
  if String.eqb name "v0.mat" || String.eqb name "v1.mat" then
    Ok (fun key => if String.eqb key "velocity_x" || String.eqb key "velocity_y" then Some (row3 0 0 0) else None)
  else if String.eqb name "c.mat" then
    Ok (fun key => if String.eqb key "coordinate_x" then Some (row3 0 1 0) else if String.eqb key "coordinate_y" then Some (row3 0 0 1) else None)
  else if String.eqb name "seeds.mat" then
    Ok (fun key => if String.eqb key "left" then Some (row2 (-1) 0) else if String.eqb key "right" then Some (row2 1 0)
                   else if String.eqb key "top" then Some (row2 0 1) else if String.eqb key "bottom" then Some (row2 0 (-1)) else None)
  else Err FileNotFoundError.

Lemma memory_case : forall lnF imems mems eigvals,
  whole_arrays flat_files /\
  (forall a m, parse_args read_one still_command = Ok a -> manager_init (Fops lnF) still_scipy still_lists a = Ok m -> not_scattered_in_space flat_files a m) /\
  exists fs, main_ends (Fops lnF) still_scipy read_one imems mems eigvals still_lists flat_files still_command no_files (false, Ok tt) fs /\ exists c, fs "outputs/run/ftle_v0.mat" = Some (Whole c).
Proof.
  intros lnF imems mems eigvals. split; [|split].
  - intros name file key a. unfold flat_files.
    destruct (String.eqb name "v0.mat" || String.eqb name "v1.mat"); [|destruct (String.eqb name "c.mat"); [|destruct (String.eqb name "seeds.mat"); [|discriminate]]];
    intros [= <-];
    repeat (match goal with |- (if ?b then _ else _) = _ -> _ => destruct b end; [intros [= <-]; reflexivity|]); discriminate.
  - intros a m Ha Hm. rewrite still_parsed in Ha. injection Ha as <-. rewrite still_init in Hm. injection Hm as <-. right. left.
    intros name [<-|[]] file a. vm_compute. intros [= <-] [= <-]. exists 1. reflexivity.
  - set (r := file_worker (Fops lnF) still_scipy (imems 0) eigvals (mems 0) (write (Fops lnF) still_writer) flat_files still_source true true (manager_world still_scipy still_manager)).
    assert (X : exists x, snd r = Ok None /\ w_files (w_writer (fst r)) "outputs/run/ftle_v0.mat" = Some x).
    { eexists. split; vm_compute; reflexivity. }
    destruct X as (x & X1 & X2).
    destruct (program_total (Fops lnF) still_scipy read_one imems mems eigvals still_lists flat_files still_command still_args still_manager [still_source]
      (fun _ _ c => True) still_parsed (still_init lnF) (still_batches lnF)) with (fs := no_files : Jobs.files PrimFloat.float) as (R0 & RR).
    + discriminate.
    + cbn. lia.
    + intros i j f g Hi Hj Hij. destruct i as [|i]; [|destruct i; discriminate]. destruct j as [|j]; [contradiction|destruct j; discriminate].
    + intros i f Hi. destruct i as [|i]; [|destruct i; discriminate]. injection Hi as <-. exists (w_writer (fst r)), x.
      split; [reflexivity|]. split; [exact X1|]. split; [exact X2|exact I].
    + intros p l. discriminate.
    + destruct R0 as (fs & Hfs). exists fs. split; [exact Hfs|]. destruct (RR _ _ _ Hfs) as (_ & _ & R3). destruct (R3 eq_refl) as [W _].
      destruct (W 0 still_source eq_refl) as (c & Hc & _). exists c. exact Hc.
Qed.
