(** Model of MultipleFTLEProcessManager.run (src/pyftle/__main__.py:189-207) and AnalyticalSolver.run
    (api.py:207-208): the tasks are made, then given to ParallelExecutor.run.  No proofs here. *)
From Verif Require Import Base Num NdArray Particles Solver Monitor Executor.

(** The states such a run can be in, on an executor with queue [q] and stop event [stop]: [batches] is
    the result of _create_batches and [work] is _worker (__main__.py:189-213). *)
Definition run_states {A R W} (batches : res (list A)) (work : A -> task R W) (n : Z) (q : list message)
  (stop : bool) (w : W) (s : state R W) : Prop :=
  match batches with
  | Err e => s = State (Exited (Err e)) [] no_pool (Board q stop NotStarted q) w
  | Ok bs => steps (map work bs) n (start q stop w) s
  end.
