(** Concrete runs of the command line program in binary64 arithmetic. *)
From Coq Require Import Lia PrimFloat.
From Verif Require Import Base Num NdArray Particles Jacobian Integrate Interpolate Readers DataSource
  Solver SpecSolver Writers Batches FileRun FileUtils Hyper Manager Monitor Executor SpecExecutor ManagerRun ExecutorFacts Schedule ExecutorCases
  Jobs JobFacts Decorators ManagerFacts Program SpecProgram ProgramFacts.

(** ** Files *)

(** Files that hold the same velocities and coordinates; the seeds of "q.mat" are those of "p.mat" doubled. *)
Definition toy (s : float) : matfile float := fun name =>
  if existsb (String.eqb name) ["velocity_x"; "velocity_y"; "coordinate_x"; "coordinate_y"]%string then Some (Nd [1; 1] [1%float])
  else if String.eqb name "left" then Some (Nd [1; 2] [(- s)%float; 0%float])
  else if String.eqb name "right" then Some (Nd [1; 2] [s; 0%float])
  else if String.eqb name "top" then Some (Nd [1; 2] [s; s])
  else if String.eqb name "bottom" then Some (Nd [1; 2] [0%float; 0%float])
  else None.
Definition toys : filesystem float := fun path => Ok (toy (if String.eqb path "q.mat" then 2 else 1)%float).
Definition fscipy : scipy float :=
  Scipy float (mat float) (fun p => Ok p)
    (fun _ c q => Ok (map (fun _ => hd (0, 0)%float c) (mrows q))) (fun _ c q => Ok (map (fun _ => hd (0, 0)%float c) (mrows q)))
    (fun _ w q => Ok (map (fun _ => hd 0%float w) (mrows q)))
    (fun _ => Ok tt) (fun _ c q => Ok (map (fun _ => hd (0, 0)%float c) (mrows q))) (fun _ w q => Ok (map (fun _ => hd 0%float w) (mrows q)))
    (fun _ _ _ => Ok tt) (fun _ _ _ _ _ => Err ValueError).


(** The text file with the lines [l]. *)
Definition lines (l : list string) : string := String.concat "" (map (fun a => append a (String "010" EmptyString)) l).
(** The three lists of files; [v] are the velocity files. *)
Definition lists (v : list string) (name : string) : option string :=
  if String.eqb name "v.txt" then Some (lines v)
  else if String.eqb name "c.txt" then Some (lines ["c.mat"]%string)
  else if String.eqb name "p.txt" then Some (lines ["p.mat"; "q.mat"]%string)
  else None.
Definition one_float (s : string) : res float := Ok 1%float.
Definition command (processes : string) : command_line :=
  CommandLine (Some "run") (Some "v.txt") (Some "c.txt") (Some "p.txt") (Some "1") (Some "1") (Some "euler") (Some "nearest")
    (Some processes) (Some "mat") None None.

Section Cases.
  Variables (lnF : float -> float) (imems mems : nat -> nat -> memory (T := float)) (eigvals : m33 float -> res (float * float * float)).
  Notation O := (Fops lnF).
  Notation ends v := (main_ends O fscipy one_float imems mems eigvals (lists v) toys).

  Definition the_manager (v : list string) (n : Z) : manager fscipy :=
    Manager v ["c.mat"]%string ["p.mat"; "q.mat"]%string 1%float 1%float n (Euler None) (INearest unstructured_new)
      (Writer Mat_format "outputs/run" None).

  Definition same : list string := ["a/v.mat"; "b/v.mat"; "b/w.mat"]%string.
  Definition other : list string := ["a/v1.mat"; "a/v2.mat"; "a/v3.mat"]%string.

  Lemma init_same : (let* a := parse_args one_float (command "2") in manager_init O fscipy (lists same) a) = Ok (the_manager same 2).
  Proof. vm_compute. reflexivity. Qed.
  Lemma init_other : (let* a := parse_args one_float (command "2") in manager_init O fscipy (lists other) a) = Ok (the_manager other 2).
  Proof. vm_compute. reflexivity. Qed.

  Definition tasks_for (v : list string) : list (file_source float) :=
    match manager_batches O fscipy (the_manager v 2) with Ok l => l | Err _ => [] end.
  Lemma batches_same : manager_batches O fscipy (the_manager same 2) = Ok (tasks_for same) /\ length (tasks_for same) = 2.
  Proof. split; vm_compute; reflexivity. Qed.
  Lemma batches_other : manager_batches O fscipy (the_manager other 2) = Ok (tasks_for other) /\ length (tasks_for other) = 2.
  Proof. split; vm_compute; reflexivity. Qed.
  Notation tasks v := (map (manager_task O fscipy imems mems eigvals toys (the_manager v 2)) (indexed (tasks_for v))).

  Definition first_last : list action :=
    [Main; Main; Main; Main; Main; Hand; Hand; Take 1; Take 0; Talk 0; Talk 1; Talk 0; Talk 0; Talk 1; Talk 1; Open 0; Write 0; Open 1; Write 1; Return 0;
      Return 1; Receive; Receive; Collect 1; Collect 0; Main; Leave; Main; Main].
  Definition second_last : list action :=
    [Main; Main; Main; Main; Main; Hand; Hand; Take 1; Take 0; Talk 0; Talk 1; Talk 0; Talk 0; Talk 1; Talk 1; Open 1; Write 1; Open 0; Write 0; Return 0;
      Return 1; Receive; Receive; Collect 1; Collect 0; Main; Leave; Main; Main].

  Definition seed_x (c : option (entry float)) : list float :=
    match c with Some (Whole (MatFile _ x _ _)) => data x | _ => [] end.

  Lemma survives l a : (l, a) = (first_last, 0x1p-2%float) \/ (l, a) = (second_last, 0x1p-1%float) ->
    exists s, steps (tasks same) 2 (start [] false no_files) s /\ exists rs, st_main s = Exited (Ok rs) /\
    seed_x (st_world s "outputs/run/ftle_v.mat"%string) = [a].
  Proof.
    intros [E|E]; injection E as -> ->.
    - by_actions first_last. eexists. split; [reflexivity|]. vm_compute. reflexivity.
    - by_actions second_last. eexists. split; [reflexivity|]. vm_compute. reflexivity.
  Qed.

  Lemma collide : exists s s' rs rs',
    steps (tasks same) 2 (start [] false no_files) s /\ st_main s = Exited (Ok rs) /\
    steps (tasks same) 2 (start [] false no_files) s' /\ st_main s' = Exited (Ok rs') /\
    st_world s "outputs/run/ftle_v.mat"%string <> st_world s' "outputs/run/ftle_v.mat"%string.
  Proof.
    destruct (survives _ _ (or_introl eq_refl)) as (s & Hs & rs & Hm & Hx).
    destruct (survives _ _ (or_intror eq_refl)) as (s' & Hs' & rs' & Hm' & Hx').
    exists s, s', rs, rs'. do 4 (split; [assumption|]). intro E. rewrite E, Hx' in Hx.
    assert (D : PrimFloat.eqb 0x1p-2 0x1p-1 = PrimFloat.eqb 0x1p-1 0x1p-1) by (injection Hx as ->; reflexivity).
    vm_compute in D. discriminate.
  Qed.

  Lemma clean_case : exists fs', ends other (command "2") no_files (false, Ok tt) fs' /\
    seed_x (fs' "outputs/run/ftle_v1.mat"%string) = [0x1p-2%float] /\ seed_x (fs' "outputs/run/ftle_v2.mat"%string) = [0x1p-1%float].
  Proof.
    assert (H : exists s, steps (tasks other) 2 (start [] false no_files) s /\ exists rs, st_main s = Exited (Ok rs) /\
      seed_x (st_world s "outputs/run/ftle_v1.mat"%string) = [0x1p-2%float] /\ seed_x (st_world s "outputs/run/ftle_v2.mat"%string) = [0x1p-1%float]).
    { by_actions first_last. eexists. split; [reflexivity|]. split; vm_compute; reflexivity. }
    destruct H as (s & Hs & rs & Hm & H1 & H2). exists (st_world s). split; [|auto].
    refine (run_ends O fscipy one_float imems mems eigvals (lists other) toys (command "2") no_files (the_manager other 2) s (Ok rs) init_other _ Hm).
    exact Hs.
  Qed.

  Lemma other_differ : names_differ fscipy (the_manager other 2) (tasks_for other).
  Proof.
    intros i j f g Hf Hg Hij.
    let t := eval vm_compute in (tasks_for other) in change (tasks_for other) with t in *.
    destruct i as [|[|i]]; destruct j as [|[|j]]; cbn in Hf, Hg; try (destruct i; discriminate); try (destruct j; discriminate); try congruence;
      injection Hf as <-; injection Hg as <-; discriminate.
  Qed.

  (** A worker is killed during its first task. *)
  Lemma killed_case : exists fs', ends other (command "2") no_files (true, Ok tt) fs' /\
    fs' "outputs/run/ftle_v1.mat"%string = None /\ fs' "outputs/run/ftle_v2.mat"%string = None.
  Proof.
    assert (H : exists s, steps (tasks other) 2 (start [] false no_files) s /\ st_main s = Exited (Err BrokenProcessPool) /\
      st_world s "outputs/run/ftle_v1.mat"%string = None /\ st_world s "outputs/run/ftle_v2.mat"%string = None).
    { by_actions [Main; Main; Main; Main; Main; Hand; Hand; Take 1; Kill 1; Break; Collect 0; Main; Main; Main; Main].
      split; [reflexivity|]. split; vm_compute; reflexivity. }
    destruct H as (s & Hs & Hm & H1 & H2). exists (st_world s). split; [|auto].
    refine (run_ends O fscipy one_float imems mems eigvals (lists other) toys (command "2") no_files (the_manager other 2) s (Err BrokenProcessPool) init_other _ Hm).
    exact Hs.
  Qed.
  Lemma killed_program t1 t2 : exists fs' d,
    program_ends O fscipy one_float imems mems eigvals (lists other) toys t1 t2 (command "2") no_files true [d] (Ok tt) fs' /\
    fs' "outputs/run/ftle_v1.mat"%string = None /\ fs' "outputs/run/ftle_v2.mat"%string = None.
  Proof.
    destruct killed_case as (fs' & H & H1 & H2). exists fs'. eexists. split; [|auto]. exists (Ok tt). split; [exact H|reflexivity].
  Qed.

  (** A worker is killed while it writes its file. *)
  Lemma torn_run : exists s,
    steps (tasks other) 2 (start [] false no_files) s /\ final (tasks other) 2 s /\ st_main s = Exited (Err BrokenProcessPool) /\
    st_world s "outputs/run/ftle_v1.mat"%string = Some (Unfinished [0]).
  Proof.
    by_actions [Main; Main; Main; Main; Main; Hand; Hand; Take 1; Take 0; Talk 1; Talk 1; Talk 1; Open 1; Kill 1; Break; Collect 0; Main; Main; Main; Main].
    split; [no_move|]. split; [reflexivity|]. vm_compute. reflexivity.
  Qed.
  Lemma torn_case : exists s, 
    steps (tasks other) 2 (start [] false no_files) s /\ final (tasks other) 2 s /\ st_main s = Exited (Err BrokenProcessPool) /\
    st_world s "outputs/run/ftle_v1.mat"%string = Some (Unfinished [0]) /\
    ends other (command "2") no_files (true, Ok tt) (st_world s).
  Proof.
    destruct torn_run as (s & Hs & Hf & Hm & Hw). exists s. do 4 (split; [assumption|]).
    refine (run_ends O fscipy one_float imems mems eigvals (lists other) toys (command "2") no_files (the_manager other 2) s (Err BrokenProcessPool) init_other _ Hm).
    exact Hs.
  Qed.

  (** Two tasks with the same file, open at the same time. *)
  Lemma overlap_run : exists s, steps (tasks same) 2 (start [] false no_files) s /\ exists rs, st_main s = Exited (Ok rs) /\
    st_world s "outputs/run/ftle_v.mat"%string = Some (Unfinished [1; 0]).
  Proof.
    by_actions [Main; Main; Main; Main; Main; Hand; Hand; Take 1; Take 0; Talk 0; Talk 1; Talk 0; Talk 0; Talk 1; Talk 1; Open 1; Open 0; Write 1; Write 0; Return 0;
      Return 1; Receive; Receive; Collect 1; Collect 0; Main; Leave; Main; Main].
    eexists. split; [reflexivity|]. vm_compute. reflexivity.
  Qed.

  (** A complete run without kills. *)
  Lemma clean_final : exists s, steps (tasks other) 2 (start [] false no_files) s /\ final (tasks other) 2 s /\ ~ killed s /\
    completed s 0 /\ completed s 1 /\ seed_x (st_world s "outputs/run/ftle_v1.mat"%string) = [0x1p-2%float].
  Proof.
    by_actions (first_last). split; [apply exited_final; [reflexivity|exact I]|]. split; [discriminate|]. split; [vm_compute; auto|]. split; [vm_compute; auto|]. vm_compute. reflexivity.
  Qed.
End Cases.

Lemma nothing_settled {T} : settled_files (T := T) no_files.
Proof. intros p l. discriminate. Qed.
