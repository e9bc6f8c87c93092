(** Model of a task of ParallelExecutor.run whose [worker_fn] runs an FTLE solver (__main__.py:168-187,
    api.py:157-183), and of what AnalyticalSolver.run does with the results (api.py:207-224).  No proofs here. *)
From Verif Require Import Base Num NdArray Particles Solver Writers Executor.

(** What there is on disk under a name: a file of the writers, complete; a file that the tasks [by] have opened for writing
    and that no task has completed without being disturbed by another one; any other file, for example one torn by the end of
    an earlier program (file_writers.py:92-266). *)
Inductive entry (T : Type) : Type :=
| Whole (c : content T)
| Unfinished (by_tasks : list nat)
| Other.
Arguments Whole {T} c. Arguments Unfinished {T} by_tasks. Arguments Other {T}.
(** The directory of results (file_writers.py): what there is under every name. *)
Definition files (T : Type) : Type := string -> option (entry T).
(** An empty one (file_writers.py:92-266). *)
Definition no_files {A : Type} : string -> option A := fun _ => None.

(** Task [i] opens the file for writing (scipy.io.savemat and pyvista's save truncate an existing file and then write to it) (file_writers.py:92-266). *)
Definition open_entry {T} (i : nat) (found : option (entry T)) : entry T :=
  Unfinished (i :: match found with Some (Unfinished l) => l | _ => [] end).
(** Task [i] has written [c] to the file it opened, and closes it.  Simplification: if another task had the file open at the
    same time, it is counted as damaged for good; in fact its contents are then a mixture of both (file_writers.py:92-266). *)
Definition close_entry {T} (i : nat) (c : content T) (found : option (entry T)) : option (entry T) :=
  match found with
  | Some (Unfinished [j]) => if j =? i then Some (Whole c) else found
  | _ => found
  end.
(** The same for all the files in [new] (file_writers.py:92-266). *)
Definition open_files {T} (i : nat) (new : string -> option (content T)) (fs : files T) : files T :=
  fun p => match new p with Some _ => Some (open_entry i (fs p)) | None => fs p end.
(** The end of a write of file_writers.py for every file of the task [i]. *)
Definition close_files {T} (i : nat) (new : string -> option (content T)) (fs : files T) : files T :=
  fun p => match new p with Some c => close_entry i c (fs p) | None => fs p end.

(** The objects a task works with, when the writer has written the files [fs].  Each task works on a pickled copy of the
    solver's objects; only the files are shared (__main__.py:168-187, api.py:157-183). *)
Definition with_files {T S P} (w : world T S P (@wstate T)) (fs : string -> option (content T)) : world T S P (@wstate T) :=
  World (w_integrator w) (w_interp w) (w_source w) [] (WState (w_dim (w_writer w)) fs) (w_clock w).

(** [worker]: the call of worker_fn on task [i].  The files it writes are those it writes on an empty disk.  (JobFacts.v,
    [run_files]: neither these files nor messages nor result depend on the files there are.) (__main__.py:168-187, api.py:157-183). *)
Definition job {T S P R} (i : nat) (worker : world T S P (@wstate T) -> world T S P (@wstate T) * res R) (w : world T S P (@wstate T))
  : task R (files T) :=
  let out := worker (with_files w no_files) in
  let new := w_files (w_writer (fst out)) in
  Task (w_queue (fst out)) (open_files i new) (close_files i new) (snd out).

(** The tasks with their numbers.  (Each task has its own memory, so the contents of freshly allocated memory depend on
    the number.) (parallel.py:225-228). *)
Definition indexed {A} (l : list A) : list (nat * A) := combine (seq 0 (length l)) l.

(** What AnalyticalSolver.run returns (api.py:185-222). *)
Inductive returned (T : Type) : Type :=
| ReturnsNone
| ReturnsField (f : list (xval T))                (* 1-D array *)
| ReturnsStack (rows : list (list (xval T))).     (* 2-D array *)
Arguments ReturnsNone {T}. Arguments ReturnsField {T} f. Arguments ReturnsStack {T} rows.

(** np.stack(results, axis=0) of 1-D arrays.  Simplification: with a None among them, ValueError (api.py:210-222). *)
Definition np_stack {T} (results : list (option (list (xval T)))) : res (returned T) :=
  let* rows := mapr (fun r => match r with Some f => Ok f | None => Err ValueError end) results in
  match rows with
  | [] => Err ValueError
  | f :: _ => if forallb (fun g => length g =? length f) rows then Ok (ReturnsStack rows) else Err ValueError
  end.

(** api.py:210-224; [results] is the list returned by the executor. *)
Definition api_result {T} (writer : bool) (results : list (option (option (list (xval T))))) : res (returned T) :=
  if writer then Ok ReturnsNone
  else let results := map (fun r => match r with Some (Some f) => Some f | _ => None end) results in
       match results with
       | [] => Err RuntimeError
       | [r] => Ok (match r with Some f => ReturnsField f | None => ReturnsNone end)
       | _ => np_stack results
       end.

(** api.py:207-224, run; [outcome] is the outcome of the call of the executor. *)
Definition api_run {T} (writer : bool) (outcome : res (list (option (option (list (xval T)))))) : res (returned T) :=
  let* results := outcome in api_result writer results.
