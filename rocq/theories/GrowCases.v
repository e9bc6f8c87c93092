(** A concrete case for C122: a series of three snapshots that becomes one of four. *)
From Coq Require Import String Lia PrimFloat.
From Verif Require Import Base Num NdArray Text Particles Jacobian Integrate Interpolate Readers DataSource Solver FileRun Writers Batches FileUtils
  Hyper Manager Monitor Executor ManagerRun Jobs Decorators Program SpecProgram SpecGrow SpecGridProgram
  BatchFacts ProgramFacts GridProgramMain ProgramCases GrowFacts.
Local Open Scope list_scope.

Section Case.
  Variables (lnF : float -> float) (imems mems : nat -> nat -> memory (T := float)) (eigvals : m33 float -> res (float * float * float)).
  Notation O := (Fops lnF).
  Definition longer : list string := other ++ ["a/v4.mat"]%string.

  Lemma longer_runs : exists fs, main_ends O fscipy one_float imems mems eigvals (lists longer) toys (command "2") no_files (false, Ok tt) fs.
  Proof.
    assert (Hm : (let* a := parse_args one_float (command "2") in manager_init O fscipy (lists longer) a) = Ok (the_manager longer 2))
      by (vm_compute; reflexivity).
    destruct (parse_args one_float (command "2")) as [a|] eqn:Ea; [|discriminate]. cbn [bind] in Hm.
    set (ts := map (task longer ["c.mat"]%string ["p.mat"; "q.mat"]%string 1%float 2) (seq 0 3)).
    apply (program_total O fscipy one_float imems mems eigvals (lists longer) toys (command "2") a (the_manager longer 2) ts (fun _ _ _ => True)); auto.
    - discriminate.
    - reflexivity.
    - apply (stems_differ fscipy (the_manager longer 2) longer _ _ 1%float 2); [|cbn; lia].
      repeat constructor; cbn; intuition congruence.
    - intros i f Hi. destruct i as [|[|[|i]]]; cbn in Hi; [..|destruct i; discriminate]; injection Hi as <-;
        (eexists _, _; split; [reflexivity|]; split; [vm_compute; reflexivity|]; split; [vm_compute; reflexivity|exact I]).
    - intros p l. discriminate.
  Qed.
End Case.
