(** Numbers of files in exact and in binary64 arithmetic, and concrete runs. *)
From Coq Require Import Lia Reals Floats.
From Flocq Require Import Core.
From Verif Require Import Base Num NdArray Text Particles Jacobian Ftle Integrate Interpolate Readers DataSource Solver FileRun Writers Batches FileUtils
  Hyper Manager Monitor Executor ManagerRun Jobs Decorators Program SpecExecutor SpecProgram SpecGridProgram SpecFloat64 SpecCount
  PathFacts BatchFacts BatchFloat BatchCases ManagerFacts ProgramFacts GridProgramMain CountFacts ProgramCases.

Section Numbers.
  Context {T : Type} (O : ops T) (scp : scipy T).
  Variable parse_float : string -> res T.
  Variables imems mems : nat -> nat -> memory (T := T).
  Variable eigvals : m33 T -> res (T * T * T).
  Variable texts : string -> option string.
  Variable inputs : filesystem T.

  Lemma count_window c a vs cs ps k fs fs' : parse_args parse_float c = Ok a ->
    listed texts (list_velocity_files a) vs -> listed texts (list_coordinate_files a) cs -> listed texts (list_particle_files a) ps ->
    cs <> [] -> ps <> [] -> NoDup (map stem vs) -> settled_files fs ->
    window_length O (flow_map_period a) (Manager.snapshot_timestep a) = Ok (Z.of_nat k + 1)%Z -> k < length vs ->
    main_ends O scp parse_float imems mems eigvals texts inputs c fs (false, Ok tt) fs' -> new_files (length vs - k) fs fs'.
  Proof.
    intros Ha L1 L2 L3 Hc Hq Nv Hset Hw Hk H. replace (Z.of_nat k + 1)%Z with (Z.of_nat (S k)) in Hw by lia.
    destruct (count O scp parse_float imems mems eigvals texts inputs c a vs cs ps (S k) fs fs' Ha L1 L2 L3 Hw ltac:(lia) Hc Hq Nv Hset H) as (names & L & R).
    exists names. split; [lia|exact R].
  Qed.
End Numbers.

Lemma count_real (scp : scipy R) parse_float imems mems eigvals texts inputs c a vs cs ps k fs fs' : parse_args parse_float c = Ok a ->
  listed texts (list_velocity_files a) vs -> listed texts (list_coordinate_files a) cs -> listed texts (list_particle_files a) ps ->
  cs <> [] -> ps <> [] -> NoDup (map stem vs) -> settled_files fs ->
  (Manager.snapshot_timestep a <> 0)%R -> (flow_map_period a = INR k * Rabs (Manager.snapshot_timestep a))%R -> k < length vs ->
  main_ends Rops scp parse_float imems mems eigvals texts inputs c fs (false, Ok tt) fs' -> new_files (length vs - k) fs fs'.
Proof.
  intros Ha L1 L2 L3 Hc Hq Nv Hset Hh Hp Hk H. eapply count_window; eauto. rewrite Hp, INR_IZR_INZ. apply window_multiple, Hh.
Qed.

Lemma count_exact lnF (scp : scipy PrimFloat.float) parse_float imems mems eigvals texts inputs c a vs cs ps k h fs fs' : parse_args parse_float c = Ok a ->
  listed texts (list_velocity_files a) vs -> listed texts (list_coordinate_files a) cs -> listed texts (list_particle_files a) ps ->
  cs <> [] -> ps <> [] -> NoDup (map stem vs) -> settled_files fs ->
  represents (Manager.snapshot_timestep a) h -> (h <> 0)%R -> represents (flow_map_period a) (INR k * Rabs h)%R -> (Z.of_nat k <= 2 ^ 53)%Z -> k < length vs ->
  main_ends (Fops lnF) scp parse_float imems mems eigvals texts inputs c fs (false, Ok tt) fs' -> new_files (length vs - k) fs fs'.
Proof.
  intros Ha L1 L2 L3 Hc Hq Nv Hset Hh Hh0 Hp Hk53 Hk H. eapply count_window; eauto. rewrite INR_IZR_INZ in Hp.
  apply (window_exact lnF _ _ h); auto. rewrite Z.abs_eq; lia.
Qed.

Lemma count_decimal lnF (scp : scipy PrimFloat.float) parse_float imems mems eigvals texts inputs c a vs cs ps k h fs fs' : parse_args parse_float c = Ok a ->
  listed texts (list_velocity_files a) vs -> listed texts (list_coordinate_files a) cs -> listed texts (list_particle_files a) ps ->
  cs <> [] -> ps <> [] -> NoDup (map stem vs) -> settled_files fs ->
  nearest (Manager.snapshot_timestep a) h -> (bpow radix2 (-1000) <= Rabs h)%R -> nearest (flow_map_period a) (INR k * Rabs h)%R -> (1 <= Z.of_nat k <= 2 ^ 50)%Z -> k < length vs ->
  main_ends (Fops lnF) scp parse_float imems mems eigvals texts inputs c fs (false, Ok tt) fs' ->
  new_files (length vs - k) fs fs' \/ new_files (length vs - k + 1) fs fs'.
Proof.
  intros Ha L1 L2 L3 Hc Hq Nv Hset Hh Hh0 Hp Hk50 Hk H. rewrite INR_IZR_INZ in Hp.
  destruct (window_near lnF _ _ h _ Hh Hp Hh0 Hk50) as [W|W].
  - right. replace (length vs - k + 1) with (length vs - (k - 1)) by lia. eapply count_window; eauto; [|lia].
    rewrite W. f_equal. lia.
  - left. eapply count_window; eauto.
Qed.

(** ** Concrete runs *)
Notation float := PrimFloat.float.
Definition tenths (s : string) : res float := if String.eqb s "0.1" then Ok f01 else if String.eqb s "0.3" then Ok f03 else Err ValueError.
Definition four : list string := ["a/v1.mat"; "a/v2.mat"; "a/v3.mat"; "a/v4.mat"]%string.
Definition command3 : command_line :=
  CommandLine (Some "run") (Some "v.txt") (Some "c.txt") (Some "p.txt") (Some "0.1") (Some "0.3") (Some "euler") (Some "nearest")
    (Some "2") (Some "mat") None None.
Definition args3 : program_args float :=
  ProgramArgs "run" "v.txt" "c.txt" "p.txt" f01 f03 (Some "euler") (Some "nearest") 2 (Some "mat") None None.
Definition manager3 : manager fscipy :=
  Manager four ["c.mat"]%string ["p.mat"; "q.mat"]%string f01 f03 2 (Euler None) (INearest unstructured_new) (Writer Mat_format "outputs/run" None).

Lemma count_unique {T} j k (fs' : files T) : new_files j no_files fs' -> new_files k no_files fs' -> j = k.
Proof.
  assert (G : forall j k, new_files j no_files fs' -> new_files k no_files fs' -> j <= k).
  { clear. intros j k (l & <- & Nl & W & _) (l' & <- & _ & _ & U). apply (NoDup_incl_length Nl). intros q Hq.
    destruct (in_dec string_dec q l') as [|N]; [assumption|]. destruct (W q Hq) as (x & E). rewrite (U q N) in E. discriminate. }
  intros H H'. apply Nat.le_antisymm; apply G; assumption.
Qed.

Section Run3.
  Variables (lnF : float -> float) (imems mems : nat -> nat -> memory (T := float)) (eigvals : m33 float -> res (float * float * float)).
  Notation O := (Fops lnF).

  Lemma init3 : manager_init O fscipy (lists four) args3 = Ok manager3.
  Proof. vm_compute. reflexivity. Qed.
  Definition tasks3 : list (file_source float) := match manager_batches O fscipy manager3 with Ok l => l | Err _ => [] end.
  Lemma batches3 : manager_batches O fscipy manager3 = Ok tasks3 /\ length tasks3 = 2%nat.
  Proof. split; vm_compute; reflexivity. Qed.

  Lemma runs3 : exists fs', main_ends O fscipy tenths imems mems eigvals (lists four) toys command3 no_files (false, Ok tt) fs'.
  Proof.
    assert (P : parse_args tenths command3 = Ok args3) by (vm_compute; reflexivity).
    refine (proj1 (program_total O fscipy tenths imems mems eigvals (lists four) toys command3 args3 manager3 tasks3 (fun _ _ _ => True)
      P init3 (proj1 batches3) _ _ _ _ no_files _)).
    - intro E. pose proof (proj2 batches3) as L. rewrite E in L. discriminate.
    - reflexivity.
    - intros i j f g Hf Hg Hij.
      let t := eval vm_compute in tasks3 in change tasks3 with t in *.
      destruct i as [|[|i]]; destruct j as [|[|j]]; cbn in Hf, Hg; try (destruct i; discriminate); try (destruct j; discriminate); try congruence;
        injection Hf as <-; injection Hg as <-; discriminate.
    - intros i f Hf. let t := eval vm_compute in tasks3 in change tasks3 with t in *.
      destruct i as [|[|i]]; cbn in Hf; try (destruct i; discriminate); injection Hf as <-; do 2 eexists; (split; [reflexivity|]);
        (split; [vm_compute; reflexivity|]); (split; [vm_compute; reflexivity|exact I]).
    - intros p l. discriminate.
  Qed.

  Lemma count_refuted : exists c a vs k fs',
    parse_args tenths c = Ok a /\ listed (lists vs) (list_velocity_files a) vs /\ NoDup (map stem vs) /\
    nearest (Manager.snapshot_timestep a) (1/10)%R /\ nearest (flow_map_period a) (INR k * Rabs (1/10))%R /\ k < length vs /\
    main_ends O fscipy tenths imems mems eigvals (lists vs) toys c no_files (false, Ok tt) fs' /\
    new_files (length vs - k + 1) no_files fs' /\ ~ new_files (length vs - k) no_files fs'.
  Proof.
    destruct runs3 as (fs' & H). exists command3, args3, four, 3%nat, fs'.
    assert (Nv : NoDup (map stem four)) by (vm_compute; repeat constructor; cbn; intuition discriminate).
    assert (N : new_files (length four - 3 + 1) no_files fs').
    { change (length four - 3 + 1) with (length four - 2).
      apply (count_window O fscipy tenths imems mems eigvals (lists four) toys command3 args3 four ["c.mat"]%string ["p.mat"; "q.mat"]%string 2 no_files fs');
        [reflexivity|reflexivity|reflexivity|reflexivity|discriminate|discriminate|exact Nv|intros p l; discriminate| |cbn; lia|exact H].
      apply window_decimal. }
    split; [reflexivity|]. split; [reflexivity|]. split; [exact Nv|]. split; [exact near_01|].
    split; [rewrite INR_IZR_INZ; exact near_03|]. split; [cbn; lia|]. split; [exact H|]. split; [exact N|].
    intro N'. pose proof (count_unique _ _ _ N N') as E. cbn in E. lia.
  Qed.
End Run3.

(** The interpolator and the one coordinate file of the notebook. *)
Definition command_static : command_line :=
  CommandLine (Some "example_file-based_IO") (Some "v.txt") (Some "c.txt") (Some "p.txt") (Some "0.1") (Some "0.3") (Some "rk4") (Some "grid")
    (Some "4") (Some "vtk") (Some "100, 50") (Some "100, 50").
Definition args_static : program_args float :=
  ProgramArgs "example_file-based_IO" "v.txt" "c.txt" "p.txt" f01 f03 (Some "rk4") (Some "grid") 4 (Some "vtk") (Some [100; 50]%Z) (Some [100; 50]%Z).
Lemma static_case lnF : parse_args tenths command_static = Ok args_static /\
  interpolator_name args_static = Some "grid"%string /\ listed (lists four) (list_velocity_files args_static) four /\
  listed (lists four) (list_coordinate_files args_static) ["c.mat"]%string /\ listed (lists four) (list_particle_files args_static) ["p.mat"; "q.mat"]%string /\
  window_length (Fops lnF) (flow_map_period args_static) (Manager.snapshot_timestep args_static) = Ok (Z.of_nat 3) /\
  exists m, manager_init (Fops lnF) fscipy (lists four) args_static = Ok m.
Proof.
  split; [vm_compute; reflexivity|]. do 4 (split; [reflexivity|]). split; [apply window_decimal|]. eexists. vm_compute. reflexivity.
Qed.

Lemma decimal_case lnF imems mems eigvals :
  parse_args tenths command3 = Ok args3 /\ listed (lists four) (list_velocity_files args3) four /\
  listed (lists four) (list_coordinate_files args3) ["c.mat"]%string /\ listed (lists four) (list_particle_files args3) ["p.mat"; "q.mat"]%string /\
  settled_files (T := float) no_files /\ (bpow radix2 (-1000) <= Rabs (1/10))%R /\
  exists fs', main_ends (Fops lnF) fscipy tenths imems mems eigvals (lists four) toys command3 no_files (false, Ok tt) fs'.
Proof.
  split; [vm_compute; reflexivity|]. do 3 (split; [reflexivity|]). split; [intros p l; discriminate|]. split; [exact small_01|]. apply runs3.
Qed.

Lemma static_ends {T} (O : ops T) scp parse_float imems mems eigvals texts inputs c a vs c0 ps p fs :
  parse_args parse_float c = Ok a -> interpolator_name a = Some "grid"%string ->
  listed texts (list_velocity_files a) vs -> listed texts (list_coordinate_files a) [c0] -> listed texts (list_particle_files a) ps ->
  window_length O (flow_map_period a) (Manager.snapshot_timestep a) = Ok (Z.of_nat p) -> 2 <= p <= length vs -> ps <> [] -> settled_files fs ->
  (exists b r fs', main_ends O scp parse_float imems mems eigvals texts inputs c fs (b, r) fs') /\
  forall b r fs', main_ends O scp parse_float imems mems eigvals texts inputs c fs (b, r) fs' -> (b, r) <> (false, Ok tt) /\ forall q, fs' q = fs q.
Proof. intros. split; [apply some_end|]. intros. eapply static_program; eauto. Qed.
