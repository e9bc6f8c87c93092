(** Properties C43 and C60 to C66: ParallelExecutor.run, src/pyftle/parallel.py, and the runs built on it.
    [steps tasks n (start q stop w) s]: state [s] can be reached when run is called with the given tasks
    on an executor with n processes; every schedule of main thread, pool manager, workers and
    monitor, with workers possibly killed, is such an execution.  [q] and [stop] are what earlier runs
    left in the queue and the stop event; [w] are the files on disk. *)
From Coq Require Import Reals Permutation.
From Verif Require Import Base Num NdArray DataSource Batches Particles Solver Monitor Executor SpecExecutor ManagerRun
  SolverCases BatchCases ExecutorFacts ExecutorMain MonitorFacts ExecutorWatch ExecutorExit Schedule ExecutorCases ExecutorProps ExecutorRuns.

(** C43.  If the timestep is zero, or the window is not positive, or longer than the list of velocity
    files, then no task of the file workflow ever starts, no file changes, and the run can only end
    with an exception. *)
Theorem C43_no_output : forall (T : Type) (O : ops T) (R W : Type) velocities coordinates particle_files period h
  (work : file_source T -> task R W) n q stop w s,
  (o_eqb O (o_abs O h) (o_zero O) = true \/
   exists p, window_length O period h = Ok p /\ ((p <= 0)%Z \/ (Z.of_nat (length velocities) < p)%Z)) ->
  run_states (file_tasks O velocities coordinates particle_files period h) work n q stop w s ->
  st_world s = w /\ (forall i, ~ begun s i) /\ (forall rs, st_main s <> Exited (Ok rs)) /\
  (final (match file_tasks O velocities coordinates particle_files period h with Ok l => map work l | Err _ => [] end) n s ->
   exists e, st_main s = Exited (Err e)).
Proof. exact @no_output. Qed.
Print Assumptions C43_no_output.

Example C43_case : exists p, window_length Rops 1%R (1/2)%R = Ok p /\
  ((p <= 0)%Z \/ (Z.of_nat (length ["a"; "b"]%string) < p)%Z).
Proof. exact (ex_intro _ 3%Z (conj (proj1 window_case) (or_intror eq_refl))). Qed.

(** C60.  If no task fails and run returns, it returns the results in the order of the tasks. *)
Theorem C60_order : forall (R W : Type) (tasks : list (task R W)) n q stop w results s rs,
  map t_outcome tasks = map Ok results ->
  steps tasks n (start q stop w) s -> st_main s = Exited (Ok rs) -> rs = map Some results.
Proof. exact @any_return. Qed.
Print Assumptions C60_order.

(** And it does return: when nothing can happen any more and no worker was killed, run has returned
    them.  (Every execution gets there: C61_terminates.) *)
Theorem C60_returns : forall (R W : Type) (tasks : list (task R W)) n q stop w results s,
  map t_outcome tasks = map Ok results -> tasks <> [] -> (0 < n)%Z ->
  steps tasks n (start q stop w) s -> final tasks n s -> ~ killed s -> st_main s = Exited (Ok (map Some results)).
Proof. exact @results_in_order. Qed.
Print Assumptions C60_returns.

(** Every task then opened its output once and afterwards closed it once; the files are what this made of them, in some order. *)
Theorem C60_effects : forall (R W : Type) (tasks : list (task R W)) n q stop w s rs,
  steps tasks n (start q stop w) s -> st_main s = Exited (Ok rs) ->
  exists evs, Permutation evs (map Opens (seq 0 (length tasks)) ++ map Closes (seq 0 (length tasks))) /\ orderly evs /\
    st_world s = effects tasks evs w.
Proof. exact @each_once. Qed.
Print Assumptions C60_effects.

(** Two workers, the second task finishing and being written first. *)
Example C60_case : exists s, steps two_tasks 2 (start [] false []) s /\ final two_tasks 2 s /\ ~ killed s /\
  begun s 0 /\ begun s 1 /\ st_main s = Exited (Ok [Some 10; Some 20]) /\ st_world s = [20; 10].
Proof. exact two_final. Qed.

(** C61.  If some task fails, run does not return. *)
Theorem C61_never_returns : forall (R W : Type) (tasks : list (task R W)) n q stop w s t e,
  In t tasks -> t_outcome t = Err e -> steps tasks n (start q stop w) s -> forall rs, st_main s <> Exited (Ok rs).
Proof. exact @fails. Qed.
Print Assumptions C61_never_returns.

(** What run raises is the exception of a task that failed; or BrokenProcessPool when a worker was
    killed, IndexError without tasks, ValueError without processes. *)
Theorem C61_raises : forall (R W : Type) (tasks : list (task R W)) n q stop w s e,
  steps tasks n (start q stop w) s -> st_main s = Exited (Err e) ->
  (exists i t, nth_error tasks i = Some t /\ t_outcome t = Err e /\ completed s i) \/
  (killed s /\ e = BrokenProcessPool) \/ (tasks = [] /\ e = IndexError) \/ ((n <= 0)%Z /\ e = ValueError).
Proof. exact @error_kinds. Qed.
Print Assumptions C61_raises.

(** There is no infinite execution, even with workers being killed, ... *)
Theorem C61_terminates : forall (R W : Type) (tasks : list (task R W)) n q stop w (execution : nat -> state R W),
  execution 0 = start q stop w -> ~ (forall k, step tasks n (execution k) (execution (S k))).
Proof. exact @terminating. Qed.
Print Assumptions C61_terminates.

(** ... and no deadlock: when nobody can make a step, run has returned or raised. *)
Theorem C61_no_deadlock : forall (R W : Type) (tasks : list (task R W)) n q stop w s,
  steps tasks n (start q stop w) s -> final tasks n s -> exists o, st_main s = Exited o.
Proof. exact @no_deadlock. Qed.
Print Assumptions C61_no_deadlock.

(** At every point of every execution, run can still end, without anybody being killed from then on. *)
Theorem C61_can_end : forall (R W : Type) (tasks : list (task R W)) n q stop w s,
  steps tasks n (start q stop w) s -> exists s', steps tasks n s s' /\ final tasks n s' /\ (killed s' -> killed s).
Proof. exact @undisturbed. Qed.
Print Assumptions C61_can_end.

Example C61_case : exists s, steps five_tasks 1 (start [] false []) s /\ final five_tasks 1 s /\ ~ killed s /\
  begun s 2 /\ nth_error (p_futures (st_pool s)) 3 = Some Cancelled /\ st_main s = Exited (Err ValueError).
Proof. exact five_final. Qed.

(** C62 is false: a task raises ValueError, and run raises ValueError, which is no RuntimeError. *)
Theorem C62_runtime_error_refuted : exists (tasks : list (task nat (list nat))) n s e,
  steps tasks n (start [] false []) s /\ ~ killed s /\ st_main s = Exited (Err e) /\ is_runtime_error e = false.
Proof. exact other_exception. Qed.
Print Assumptions C62_runtime_error_refuted.

(** If the tasks raise RuntimeError only, then so does run (given tasks and processes). *)
Theorem C62_runtime_error_partial : forall (R W : Type) (tasks : list (task R W)) n q stop w s e,
  tasks <> [] -> (0 < n)%Z ->
  (forall t x, In t tasks -> t_outcome t = Err x -> is_runtime_error x = true) ->
  steps tasks n (start q stop w) s -> st_main s = Exited (Err e) -> is_runtime_error e = true.
Proof. exact @runtime_errors. Qed.
Print Assumptions C62_runtime_error_partial.

Example C62_case : exists s, steps [bad "a" RuntimeError] 1 (start [] false []) s /\
  st_main s = Exited (Err RuntimeError).
Proof. exact runtime_case. Qed.

(** C63 is false.  A failure has been collected, task 3 of 5 waits to be handed to a worker; it is
    nevertheless started and completed, ... *)
Theorem C63_no_further_task_refuted : exists s1 s2,
  steps five_tasks 1 (start [] false []) s1 /\ (st_main s1 = Caught ValueError /\ waits s1 3) /\
  steps five_tasks 1 s1 s2 /\ (st_main s2 = Exited (Err ValueError) /\ ~ killed s2 /\ completed s2 3).
Proof. exact late_start. Qed.
Print Assumptions C63_no_further_task_refuted.

(** ... and run raises while a worker is still at work, which writes its file later. *)
Theorem C63_exit_waits_refuted : exists s1 s2,
  steps five_tasks 1 (start [] false []) s1 /\
  (st_main s1 = Exited (Err ValueError) /\ works_on s1 1 /\ st_world s1 = []) /\
  steps five_tasks 1 s1 s2 /\ (~ killed s2 /\ st_world s2 = [1]).
Proof. exact no_wait. Qed.
Print Assumptions C63_exit_waits_refuted.

(** If the manager thread of the pool sees the request to cancel in time, the waiting tasks never
    start. *)
Theorem C63_cancelled_partial : forall (R W : Type) (tasks : list (task R W)) n q stop w s s' s'' i,
  steps tasks n (start q stop w) s -> manager_step tasks n (st_pool s) (st_pool s') -> step tasks n s s' ->
  p_cancel (st_pool s) = true -> p_cancel (st_pool s') = false -> waits s i ->
  steps tasks n s' s'' -> ~ begun s'' i.
Proof. exact @cancel_honoured. Qed.
Print Assumptions C63_cancelled_partial.

(** A task that was begun is completed in the end, if no worker is killed; ... *)
Theorem C63_begun_completed : forall (R W : Type) (tasks : list (task R W)) n q stop w s i,
  steps tasks n (start q stop w) s -> final tasks n s -> ~ killed s -> begun s i -> completed s i.
Proof. exact @begun_completed. Qed.
Print Assumptions C63_begun_completed.

(** ... and every task is completed or cancelled, never both. *)
Theorem C63_completed_or_cancelled : forall (R W : Type) (tasks : list (task R W)) n q stop w s i,
  steps tasks n (start q stop w) s -> final tasks n s -> ~ killed s -> (0 < n)%Z -> i < length tasks ->
  completed s i \/ nth_error (p_futures (st_pool s)) i = Some Cancelled.
Proof. exact @completed_or_cancelled. Qed.
Print Assumptions C63_completed_or_cancelled.
Theorem C63_cancelled_never : forall (R W : Type) (tasks : list (task R W)) n q stop w s s' i,
  steps tasks n (start q stop w) s -> steps tasks n s s' ->
  nth_error (p_futures (st_pool s)) i = Some Cancelled -> ~ begun s i /\ ~ begun s' i.
Proof. exact @cancelled_never. Qed.
Print Assumptions C63_cancelled_never.

Example C63_case : exists s1 s2,
  steps five_tasks 1 (start [] false []) s1 /\ (st_main s1 = Caught ValueError /\ waits s1 3) /\
  steps five_tasks 1 s1 s2 /\ nth_error (p_futures (st_pool s2)) 3 = Some Cancelled.
Proof. exact cancel_in_time. Qed.

(** C64.  For at most n workers, each of which reports the steps and then the end of one task after
    another, at every point of every interleaving of their messages: the monitor has not failed, shows at
    most n bars on distinct rows, and has counted the tasks whose end it has seen. *)
Theorem C64_monitor : forall n (workers : list (list (string * list nat))) log seen rest,
  length workers <= Z.to_nat n -> interleaves (map worker_chat workers) log -> log = seen ++ rest ->
  exists m, monitor_reads (monitor_start n) seen = Ok m /\ tidy n m /\ m_finished m = length (filter is_done seen).
Proof. exact monitor_ok. Qed.
Print Assumptions C64_monitor.

(** After all messages it has counted all tasks. *)
Theorem C64_complete : forall n (workers : list (list (string * list nat))) log,
  length workers <= Z.to_nat n -> interleaves (map worker_chat workers) log ->
  exists m, monitor_reads (monitor_start n) log = Ok m /\ m_finished m = length (concat workers).
Proof. exact monitor_complete. Qed.
Print Assumptions C64_complete.

Example C64_case : interleaves (map worker_chat [[("a", [0; 1]); ("b", [0])]; [("a", [5])]]%string)
  [Progress "a" 0; Progress "a" 5; Progress "a" 1; Done "a"; Done "a"; Progress "b" 0; Done "b"]%string.
Proof. exact interleaving_case. Qed.

(** Whatever the messages were, as long as the monitor has not failed it shows one bar for each task that
    has reported a step and not yet its end, and the bar shows the step reported last. *)
Theorem C64_bars : forall n seen m, monitor_reads (monitor_start n) seen = Ok m ->
  NoDup (map b_id (m_bars m)) /\
  forall id k, (exists b, In b (m_bars m) /\ b_id b = id /\ b_n b = k) <-> reached id seen k.
Proof. exact bars_show. Qed.
Print Assumptions C64_bars.

Example C64_bars_case : exists m,
  monitor_reads (monitor_start 2) [Progress "a" 0; Progress "b" 4; Progress "a" 3; Done "b"]%string = Ok m /\
  reached "a" [Progress "a" 0; Progress "b" 4; Progress "a" 3; Done "b"]%string 3 /\
  map b_n (m_bars m) = [3].
Proof. exact bars_case. Qed.

(** In the run of an executor whose tasks all report their end, and as long as no worker is killed,
    the monitor does not fail. *)
Theorem C64_run : forall (R W : Type) (tasks : list (task R W)) n stop w s,
  (forall t, In t tasks -> exists id ks, t_talk t = chat (id, ks)) ->
  steps tasks n (start [] stop w) s -> ~ killed s ->
  (forall e, b_watch (st_board s) <> Crashed e) /\ (forall m, b_watch (st_board s) = Watching m -> tidy n m).
Proof. exact @monitor_run. Qed.
Print Assumptions C64_run.

Example C64_run_case : forall t, In t two_tasks -> exists id ks, t_talk t = chat (id, ks).
Proof. exact two_talks. Qed.

(** C65 is false: a task fails, its worker begins the next one, and the monitor fails with KeyError. *)
Theorem C65_monitor_refuted : exists s,
  steps fail_then 1 (start [] false []) s /\ ~ killed s /\ b_watch (st_board s) = Crashed KeyError.
Proof. exact monitor_crash. Qed.
Print Assumptions C65_monitor_refuted.

(** The monitor survives failures and killed workers if at most n different task ids occur, ... *)
Theorem C65_few_partial : forall (R W : Type) (tasks : list (task R W)) n (names : list string) q stop w s,
  length names <= Z.to_nat n ->
  (forall t msg, In t tasks -> In msg (t_talk t) -> In (message_id msg) names) ->
  (forall msg, In msg q -> In (message_id msg) names) ->
  steps tasks n (start q stop w) s ->
  (forall e, b_watch (st_board s) <> Crashed e) /\ (forall m, b_watch (st_board s) = Watching m -> tidy n m).
Proof. exact @few_run. Qed.
Print Assumptions C65_few_partial.

Example C65_few_case : length ["a"; "b"]%string <= Z.to_nat 2 /\
  forall t msg, In t fail_then -> In msg (t_talk t) -> In (message_id msg) ["a"; "b"]%string.
Proof. exact few_case. Qed.

(** ... and if every worker stops at the first task that fails. *)
Theorem C65_last_partial : forall n (workers : list (list (string * list nat) * (string * list nat))) log,
  length workers <= Z.to_nat n ->
  interleaves (map (fun w => worker_chat (fst w) ++ map (Progress (fst (snd w))) (snd (snd w))) workers) log ->
  exists m, monitor_reads (monitor_start n) log = Ok m /\ tidy n m.
Proof. exact monitor_cut. Qed.
Print Assumptions C65_last_partial.

Example C65_last_case : interleaves (map (fun w => worker_chat (fst w) ++ map (Progress (fst (snd w))) (snd (snd w)))
  [([("a", [0])], ("b", [0; 1]))]%string) [Progress "a" 0; Done "a"; Progress "b" 0; Progress "b" 1]%string.
Proof. exact cut_case. Qed.

(** C66 is false: with n_processes = 0, run raises ValueError and leaves the monitor waiting forever.
    The same happens when a task raises SystemExit, and when a worker dies during submission. *)
Theorem C66_stopped_refuted : exists s m,
  steps two_tasks 0 (start [] false []) s /\ st_main s = Exited (Err ValueError) /\
  (forall s', steps two_tasks 0 s s' -> b_watch (st_board s') = Watching m).
Proof. exact left_behind. Qed.
Print Assumptions C66_stopped_refuted.
Theorem C66_exit_refuted : exists s,
  steps [bad "a" SystemExit] 1 (start [] false []) s /\ st_main s = Exited (Err SystemExit) /\ ~ killed s /\
  watching s /\ final [bad "a" SystemExit] 1 s.
Proof. exact exit_leaves_monitor. Qed.
Print Assumptions C66_exit_refuted.
Theorem C66_death_refuted : exists s,
  steps two_tasks 1 (start [] false []) s /\ st_main s = Exited (Err BrokenProcessPool) /\ watching s /\
  final two_tasks 1 s.
Proof. exact death_leaves_monitor. Qed.
Print Assumptions C66_death_refuted.

(** With processes, tasks that raise ordinary exceptions, and no killed worker, the monitor is gone
    when run exits. *)
Theorem C66_stopped_partial : forall (R W : Type) (tasks : list (task R W)) n q stop w s o,
  (0 < n)%Z -> (forall t e, In t tasks -> t_outcome t = Err e -> is_exception e = true) ->
  steps tasks n (start q stop w) s -> st_main s = Exited o -> ~ killed s -> ~ watching s.
Proof. exact @stopped. Qed.
Print Assumptions C66_stopped_partial.

Example C66_case : exists s, steps five_tasks 1 (start [] false []) s /\ final five_tasks 1 s /\ ~ killed s /\
  begun s 2 /\ nth_error (p_futures (st_pool s)) 3 = Some Cancelled /\ st_main s = Exited (Err ValueError).
Proof. exact five_final. Qed.
