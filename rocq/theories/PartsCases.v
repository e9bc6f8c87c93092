(** A series of four snapshots and a part of it with two snapshots, whose other files have been removed. *)
From Coq Require Import String Lia PrimFloat.
From Verif Require Import Base Num NdArray Text Particles Jacobian Integrate Interpolate Readers DataSource Solver FileRun Writers Batches FileUtils
  Hyper Manager Monitor Executor ManagerRun Jobs Decorators Program SpecProgram SpecMem SpecParts SpecGridProgram
  BatchFacts ProgramFacts GridProgramMain ProgramCases GrowFacts.
Local Open Scope list_scope.

Definition whole_series : list string := ["a/v1.mat"; "a/v2.mat"; "a/v3.mat"; "a/v4.mat"]%string.
Definition part_series : list string := ["a/v2.mat"; "a/v3.mat"]%string.
Definition series (name : string) : option string :=
  if String.eqb name "v.txt" then Some (lines whole_series) else if String.eqb name "w.txt" then Some (lines part_series)
  else if String.eqb name "c.txt" then Some (lines ["c.mat"]%string) else if String.eqb name "p.txt" then Some (lines ["p.mat"]%string) else None.
Definition series_command (velocities processes : string) : command_line :=
  CommandLine (Some "run") (Some velocities) (Some "c.txt") (Some "p.txt") (Some "1") (Some "1") (Some "euler") (Some "nearest")
    (Some processes) (Some "mat") None None.
Definition series_args (velocities : string) (n : Z) : program_args float :=
  ProgramArgs "run" velocities "c.txt" "p.txt" 1%float 1%float (Some "euler"%string) (Some "nearest"%string) n (Some "mat"%string) None None.
(** Without the velocity files that are not in the part. *)
Definition fewer_toys : filesystem float := fun path =>
  if String.eqb path "a/v1.mat" || String.eqb path "a/v4.mat" then Err FileNotFoundError else toys path.

Lemma toys_whole : whole_arrays toys.
Proof.
  intros name file key a [= <-]. unfold toy. destruct (existsb _ _); [intros [= <-]; reflexivity|].
  repeat (match goal with |- (if ?b then _ else _) = _ -> _ => destruct b end; [intros [= <-]; reflexivity|]). discriminate.
Qed.
Lemma fewer_whole : whole_arrays fewer_toys.
Proof. intros name file key a. unfold fewer_toys. destruct (_ || _); [discriminate|]. apply (toys_whole name). Qed.

Section Case.
  Variables (lnF : float -> float) (imems mems : nat -> nat -> memory (T := float)) (eigvals : m33 float -> res (float * float * float)).
  Notation O := (Fops lnF).

  Definition series_manager (v : list string) (n : Z) : manager fscipy :=
    Manager v ["c.mat"]%string ["p.mat"]%string 1%float 1%float n (Euler None) (INearest unstructured_new) (Writer Mat_format "outputs/run" None).

  Lemma series_runs : exists fs, main_ends O fscipy one_float imems mems eigvals series toys (series_command "v.txt" "2") no_files (false, Ok tt) fs.
  Proof.
    set (ts := map (task whole_series ["c.mat"]%string ["p.mat"]%string 1%float 2) (seq 0 3)).
    apply (program_total O fscipy one_float imems mems eigvals series toys (series_command "v.txt" "2") (series_args "v.txt" 2) (series_manager whole_series 2) ts (fun _ _ _ => True));
      [reflexivity|vm_compute; reflexivity|vm_compute; reflexivity|discriminate|reflexivity| | |].
    - apply (stems_differ fscipy (series_manager whole_series 2) whole_series _ _ 1%float 2); [|cbn; lia].
      repeat constructor; cbn; intuition congruence.
    - intros i f Hi. destruct i as [|[|[|i]]]; cbn in Hi; [..|destruct i; discriminate]; injection Hi as <-;
        (eexists _, _; split; [reflexivity|]; split; [vm_compute; reflexivity|]; split; [vm_compute; reflexivity|exact I]).
    - intros p l. discriminate.
  Qed.
  Lemma part_runs : exists fs, main_ends O fscipy one_float imems mems eigvals series fewer_toys (series_command "w.txt" "1") no_files (false, Ok tt) fs.
  Proof.
    set (ts := map (task part_series ["c.mat"]%string ["p.mat"]%string 1%float 2) (seq 0 1)).
    apply (program_total O fscipy one_float imems mems eigvals series fewer_toys (series_command "w.txt" "1") (series_args "w.txt" 1) (series_manager part_series 1) ts (fun _ _ _ => True));
      [reflexivity|vm_compute; reflexivity|vm_compute; reflexivity|discriminate|reflexivity| | |].
    - apply (stems_differ fscipy (series_manager part_series 1) part_series _ _ 1%float 2); [|cbn; lia].
      repeat constructor; cbn; intuition congruence.
    - intros i f Hi. destruct i as [|i]; cbn in Hi; [|destruct i; discriminate]; injection Hi as <-;
        (eexists _, _; split; [reflexivity|]; split; [vm_compute; reflexivity|]; split; [vm_compute; reflexivity|exact I]).
    - intros p l. discriminate.
  Qed.

  Lemma parts_case : (exists after, main_ends O fscipy one_float imems mems eigvals series toys (series_command "v.txt" "2") no_files (false, Ok tt) after) /\
    (exists after, main_ends O fscipy one_float imems mems eigvals series fewer_toys (series_command "w.txt" "1") no_files (false, Ok tt) after) /\
    parse_args one_float (series_command "v.txt" "2") = Ok (series_args "v.txt" 2) /\ parse_args one_float (series_command "w.txt" "1") = Ok (series_args "w.txt" 1) /\
    listed series "v.txt" whole_series /\ listed series "w.txt" part_series /\ listed series "c.txt" ["c.mat"]%string /\ listed series "p.txt" ["p.mat"]%string /\
    window_length O 1%float 1%float = Ok 2%Z /\
    window part_series ["c.mat"]%string ["p.mat"]%string 2 0 = window whole_series ["c.mat"]%string ["p.mat"]%string 2 1 /\
    (forall x, In x (window_files (window whole_series ["c.mat"]%string ["p.mat"]%string 2 1)) -> fewer_toys x = toys x) /\
    whole_series = ["a/v1.mat"]%string ++ part_series ++ ["a/v4.mat"]%string /\ part_of 1 2 1 ["c.mat"]%string ["c.mat"]%string /\
    whole_arrays toys /\ whole_arrays fewer_toys /\
    (forall m, manager_init O fscipy series (series_args "w.txt" 1) = Ok m -> not_scattered_in_space fewer_toys (series_args "w.txt" 1) m).
  Proof.
    split; [exact series_runs|]. split; [exact part_runs|]. do 2 (split; [reflexivity|]). do 4 (split; [vm_compute; reflexivity|]). do 2 (split; [vm_compute; reflexivity|]).
    split; [intros x Hx; vm_compute in Hx; repeat (destruct Hx as [<-|Hx]; [reflexivity|]); destruct Hx|].
    split; [reflexivity|]. split; [left; auto|]. split; [exact toys_whole|]. split; [exact fewer_whole|].
    intros m Hm. right. left. assert (E : m_particles m = ["p.mat"%string]).
    { assert (X : manager_init O fscipy series (series_args "w.txt" 1) = Ok (series_manager part_series 1)) by (vm_compute; reflexivity).
      rewrite X in Hm. injection Hm as <-. reflexivity. }
    rewrite E. intros name [<-|[]] file a. vm_compute. intros [= <-] [= <-]. exists 1. reflexivity.
  Qed.
End Case.
