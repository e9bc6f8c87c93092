(** Model of the command line program as a whole: main and MultipleFTLEProcessManager of src/pyftle/__main__.py with all
    their parts.  No proofs here. *)
From Verif Require Import Base Num NdArray Particles Jacobian Integrate Interpolate Readers DataSource Solver Writers Batches
  FileRun FileUtils Hyper Manager Monitor Executor ManagerRun Jobs Decorators.

Section Program.
  Context {T : Type} (O : ops T) (scp : scipy T).
  Variable parse_float : string -> res T.
  (** Contents of the memory that task i is given, first by the interpolator and second by the integrator. *)
  Variables imems mems : nat -> nat -> memory (T := T).
  Variable eigvals : m33 T -> res (T * T * T).
  (** The text files and the .mat files on disk. *)
  Variable texts : string -> option string.
  Variable inputs : filesystem T.

  (** __main__.py:70-89: the objects of the manager that its tasks are given copies of. *)
  Definition manager_world (m : manager scp) : world T (istate scp) unit (@wstate T) :=
    World (m_integrator m) (m_interpolator m, 0) tt [] (WState None no_files) 0.

  (** __main__.py:168-187, _worker, on the task with its number. *)
  Definition manager_task (m : manager scp) (f : nat * file_source T) : task (option (list (xval T))) (files T) :=
    job (fst f) (file_worker O scp (imems (fst f)) eigvals (mems (fst f)) (write O (m_writer m)) inputs (snd f) true true) (manager_world m).

  (** __main__.py:216-234 without the decorator: how main can end, and the output files at any time after it has ended.
      [fs]: the output files before. *)
  Inductive main_ends (c : command_line) (fs : files T) : bool * res unit -> files T -> Prop :=
  | init_fails e :
      (let* a := parse_args parse_float c in manager_init O scp texts a) = Err e ->
      main_ends c fs (guarded (Err e)) fs
  | run_ends m s r :
      (let* a := parse_args parse_float c in manager_init O scp texts a) = Ok m ->
      run_states (let* tasks := manager_batches O scp m in Ok (indexed tasks)) (manager_task m) (m_processes m) [] false fs s ->
      st_main s = Exited r ->
      main_ends c fs (guarded (let* _ := r in Ok tt)) (st_world s).

  (** With the decorator @time_it: what is printed at the end, and the outcome (__main__.py:215-236, decorators.py:61-110). *)
  Definition program_ends (t1 t2 : Z) (c : command_line) (fs : files T)
    (failure_printed : bool) (durations : list (Z * Z * Z * Z)) (outcome : res unit) (fs' : files T) : Prop :=
    exists r, main_ends c fs (failure_printed, r) fs' /\ time_it t1 t2 r = (durations, outcome).
End Program.
