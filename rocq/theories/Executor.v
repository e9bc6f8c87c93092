(** Model of src/pyftle/parallel.py:171-271, ParallelExecutor.run, as a transition system: the main
    thread, the manager thread of concurrent.futures.ProcessPoolExecutor, the worker processes and the
    monitor process take steps in any order.  No proofs here.

    The parts of ProcessPoolExecutor and Future that run relies on are modelled from CPython
    (concurrent/futures/process.py; the same code in 3.10-3.13).  Simplifications: a step of the manager
    thread (filling the call queue by one item, receiving one result, cancelling, leaving) may happen
    at any time at which its guard holds, so that the wake-up pipe is not modelled; a worker process is
    there from the creation of the pool on; the results of a worker are put on the result queue in one
    step.  Exceptions of the main thread other than those below (KeyboardInterrupt) are not modelled. *)
From Verif Require Import Base Num NdArray Particles Solver Monitor.

Section Executor.
  (** [R]: what a task returns; [W]: what tasks share, the file system. *)
  Context {R W : Type}.

  (** A task given to run, together with what [worker_fn] does on it: the messages it puts on the
      progress queue, what it does to the files when it opens its output file and when it has written and closed
      it, and its result or exception.  A task works on its own pickled copy of everything else (parallel.py:171-271). *)
  Record task : Type := Task {
    t_talk : list message;
    t_open : W -> W;
    t_effect : W -> W;
    t_outcome : res R
  }.

  (** A worker process: waiting for a call; running task [i] with messages still to put; writing the output of
      task [i]; having finished task [i] but not having returned its result; killed (parallel.py:171-271). *)
  Inductive slot : Type :=
  | Idle
  | Busy (i : nat) (rest : list message)
  | Writing (i : nat)
  | Wrote (i : nat)
  | Dead.

  (** A future of parallel.py:212-228: submitted, handed to a worker, cancelled, or with a result or exception. *)
  Inductive future : Type :=
  | Pending
  | Running
  | Cancelled
  | Finished (r : res R).

  (** The pool: the futures submitted so far, the queue of work ids, the call queue, the workers, the
      result queue, the attributes _shutdown_thread and _cancel_pending_futures, whether the manager
      thread is alive, and the attribute _broken.  The last four fields are history: which tasks a
      worker has begun, which have had their effect, which have been handed to the call queue, and
      whether a worker was killed (parallel.py:171-271). *)
  Record pool : Type := Pool {
    p_futures : list future;
    p_work_ids : list nat;
    p_calls : list nat;
    p_slots : list slot;
    p_returned : list nat;
    p_shutdown : bool;
    p_cancel : bool;
    p_alive : bool;
    p_broken : bool;
    p_started : list nat;
    p_written : list nat;
    p_killed : bool
  }.

  (** The monitor process (parallel.py:110-170, 215-219). *)
  Inductive watch : Type :=
  | NotStarted
  | Watching (m : monitor)
  | Crashed (e : exn)
  | Left (m : monitor)
  | Terminated.

  (** The progress queue, the stop event, the monitor process and (history) all messages ever put on
      the queue (parallel.py:171-271). *)
  Record board : Type := Board {
    b_queue : list message;
    b_stop : bool;
    b_watch : watch;
    b_log : list message
  }.

  (** Where the main thread is (parallel.py:171-271). *)
  Inductive control : Type :=
  | Calling                                   (* run has been called *)
  | Watched                                   (* the monitor has been started *)
  | Submitting                                (* in the with block, submitting *)
  | Collecting (waiting : list nat)           (* in the for loop; the futures not yet yielded *)
  | Caught (e : exn)                          (* in the except block *)
  | Stopped (e : exn)                         (* the stop event has been set *)
  | CancelAsked (e : exn)                     (* shutdown(wait=False, cancel_futures=True) was called *)
  | Reraised (e : exn)                        (* the monitor was terminated; the exception leaves the with block *)
  | Joining (o : res (list (option R)))       (* in __exit__, waiting for the manager thread *)
  | Closing (rs : list (option R))            (* after the with block *)
  | Exited (o : res (list (option R))).

  (** The state of a call of run, parallel.py:171-271: where the main thread is, the results collected, the pool, the monitor with its queue, and the files. *)
  Record state : Type := State {
    st_main : control;
    st_results : list (option R);
    st_pool : pool;
    st_board : board;
    st_world : W
  }.

  (** The pool before its creation, and a fresh pool of [n] workers (max_workers = n_processes) (parallel.py:224). *)
  Definition no_pool : pool := Pool [] [] [] [] [] false false false false [] [] false.
  (** ProcessPoolExecutor(max_workers=n), parallel.py:171-271. *)
  Definition new_pool (n : Z) : pool :=
    Pool [] [] [] (repeat Idle (Z.to_nat n)) [] false false true false [] [] false.

  (** A call of run on a ParallelExecutor whose queue and stop event are [q] and [stop] (fresh ones are
      empty and unset; both survive from one call of run to the next) (parallel.py:171-271). *)
  Definition start (q : list message) (stop : bool) (w : W) : state :=
    State Calling [] no_pool (Board q stop NotStarted q) w.

  (** Process.terminate on the monitor if it is alive (parallel.py:251-259). *)
  Definition terminate (w : watch) : watch :=
    match w with Watching _ => Terminated | _ => w end.

  (** executor.shutdown: sets the attributes _shutdown_thread and _cancel_pending_futures (parallel.py:249). *)
  Definition shut (cancel : bool) (p : pool) : pool :=
    Pool (p_futures p) (p_work_ids p) (p_calls p) (p_slots p) (p_returned p) true cancel (p_alive p)
      (p_broken p) (p_started p) (p_written p) (p_killed p).

  (** The monitor process of parallel.py:171-271 changes its state. *)
  Definition set_watch (w : watch) (b : board) : board := Board (b_queue b) (b_stop b) w (b_log b).

  (** Future.cancel on a pending future; BrokenProcessPool on an unfinished one (parallel.py:249). *)
  Definition cancel_future (f : future) : future := match f with Pending => Cancelled | _ => f end.
  (** set_exception(BrokenProcessPool) on a future that is not settled (parallel.py:233). *)
  Definition break_future (f : future) : future :=
    match f with Pending | Running => Finished (Err BrokenProcessPool) | _ => f end.
  (** Future.done() (parallel.py:230). *)
  Definition settled (f : future) : bool :=
    match f with Finished _ | Cancelled => true | _ => false end.

  Variable tasks : list task.
  Variable n : Z.  (** n_processes *)

  (** Steps of the main thread (parallel.py:171-271). *)
  Inductive main_step : state -> state -> Prop :=
  (* 215: tasks[0] of an empty list *)
  | m_empty rs p b w :
      tasks = [] ->
      main_step (State Calling rs p b w) (State (Exited (Err IndexError)) rs p b w)
  (* 217-221: the monitor process is started *)
  | m_watch rs p b w :
      tasks <> [] ->
      main_step (State Calling rs p b w) (State Watched rs p (set_watch (Watching (monitor_start n)) b) w)
  (* 226: ProcessPoolExecutor(max_workers=n) raises for n <= 0 *)
  | m_no_pool rs p b w :
      (n <= 0)%Z ->
      main_step (State Watched rs p b w) (State (Exited (Err ValueError)) rs p b w)
  (* 223, 226 *)
  | m_pool rs p b w :
      (0 < n)%Z ->
      main_step (State Watched rs p b w)
        (State Submitting (repeat None (length tasks)) (new_pool n) b w)
  (* 227-230: submit of one task *)
  | m_submit rs p b w :
      length (p_futures p) < length tasks ->
      p_broken p = false ->
      main_step (State Submitting rs p b w)
        (State Submitting rs
           (Pool (p_futures p ++ [Pending]) (p_work_ids p ++ [length (p_futures p)]) (p_calls p) (p_slots p)
              (p_returned p) (p_shutdown p) (p_cancel p) (p_alive p) (p_broken p) (p_started p)
              (p_written p) (p_killed p)) b w)
  (* 227-230: submit raises on a broken pool; __exit__ shuts the pool down *)
  | m_submit_broken rs p b w :
      length (p_futures p) < length tasks ->
      p_broken p = true ->
      main_step (State Submitting rs p b w)
        (State (Joining (Err BrokenProcessPool)) rs (shut false p) b w)
  | m_submitted rs p b w :
      length (p_futures p) = length tasks ->
      main_step (State Submitting rs p b w) (State (Collecting (seq 0 (length tasks))) rs p b w)
  (* 232-237: as_completed yields any finished future *)
  | m_collect l1 i l2 r rs p b w :
      nth_error (p_futures p) i = Some (Finished (Ok r)) ->
      main_step (State (Collecting (l1 ++ i :: l2)) rs p b w)
        (State (Collecting (l1 ++ l2)) (set_nth i (Some r) rs) p b w)
  (* 238-245 *)
  | m_catch l1 i l2 e rs p b w :
      nth_error (p_futures p) i = Some (Finished (Err e)) ->
      is_exception e = true ->
      main_step (State (Collecting (l1 ++ i :: l2)) rs p b w) (State (Caught e) rs p b w)
  (* 235-236: not caught by [except Exception]; __exit__ shuts the pool down *)
  | m_escape l1 i l2 e rs p b w :
      nth_error (p_futures p) i = Some (Finished (Err e)) ->
      is_exception e = false ->
      main_step (State (Collecting (l1 ++ i :: l2)) rs p b w)
        (State (Joining (Err e)) rs (shut false p) b w)
  (* 248 *)
  | m_stop e rs p b w :
      main_step (State (Caught e) rs p b w)
        (State (Stopped e) rs p (Board (b_queue b) true (b_watch b) (b_log b)) w)
  (* 251: returns at once, and forgets the manager thread *)
  | m_cancel e rs p b w :
      main_step (State (Stopped e) rs p b w) (State (CancelAsked e) rs (shut true p) b w)
  (* 254-257 *)
  | m_terminate e rs p b w :
      main_step (State (CancelAsked e) rs p b w)
        (State (Reraised e) rs p (set_watch (terminate (b_watch b)) b) w)
  (* 226, __exit__ calls shutdown(wait=True), which resets the request to cancel, and has no manager
     thread left to wait for *)
  | m_reraise e rs p b w :
      main_step (State (Reraised e) rs p b w) (State (Exited (Err e)) rs (shut false p) b w)
  (* the loop is over: __exit__ calls shutdown(wait=True) *)
  | m_collected rs p b w :
      main_step (State (Collecting []) rs p b w) (State (Joining (Ok rs)) rs (shut false p) b w)
  | m_joined_raise e rs p b w :
      p_alive p = false ->
      main_step (State (Joining (Err e)) rs p b w) (State (Exited (Err e)) rs p b w)
  | m_joined rs' rs p b w :
      p_alive p = false ->
      main_step (State (Joining (Ok rs')) rs p b w) (State (Closing rs') rs p b w)
  (* 259-271: the list [exceptions] is empty here *)
  | m_return rs' rs p b w :
      main_step (State (Closing rs') rs p b w)
        (State (Exited (Ok rs')) rs p (set_watch (terminate (b_watch b)) b) w).

  (** Steps of the manager thread (process.py, _ExecutorManagerThread). *)
  Inductive manager_step : pool -> pool -> Prop :=
  (* add_call_item_to_queue; the call queue holds at most max_workers + 1 items *)
  | g_hand i fs ids calls slots ret sh ca br st wr ki :
      (Z.of_nat (length calls) < n + 1)%Z ->
      nth_error fs i = Some Pending ->
      manager_step (Pool fs (i :: ids) calls slots ret sh ca true br st wr ki)
        (Pool (set_nth i Running fs) ids (calls ++ [i]) slots ret sh ca true br st wr ki)
  (* process_result_item *)
  | g_receive i t fs ids calls slots ret sh ca br st wr ki :
      nth_error tasks i = Some t ->
      manager_step (Pool fs ids calls slots (i :: ret) sh ca true br st wr ki)
        (Pool (set_nth i (Finished (t_outcome t)) fs) ids calls slots ret sh ca true br st wr ki)
  (* flag_executor_shutting_down *)
  | g_cancel fs ids calls slots ret br st wr ki :
      manager_step (Pool fs ids calls slots ret true true true br st wr ki)
        (Pool (map cancel_future fs) [] calls slots ret true false true br st wr ki)
  (* run, end of the loop *)
  | g_exit fs ids calls slots ret ca br st wr ki :
      forallb settled fs = true ->
      manager_step (Pool fs ids calls slots ret true ca true br st wr ki)
        (Pool fs ids calls slots ret true ca false br st wr ki)
  (* terminate_broken *)
  | g_broken fs ids calls slots ret sh ca br st wr ki :
      In Dead slots ->
      manager_step (Pool fs ids calls slots ret sh ca true br st wr ki)
        (Pool (map break_future fs) ids calls (map (fun _ => Dead) slots) ret true ca false true st wr ki).

  (** Steps of the worker processes (process.py, _process_worker). *)
  Inductive worker_step : pool -> board -> W -> pool -> board -> W -> Prop :=
  | w_take i t l1 l2 fs ids calls ret sh ca al br st wr ki b w :
      nth_error tasks i = Some t ->
      worker_step (Pool fs ids (i :: calls) (l1 ++ Idle :: l2) ret sh ca al br st wr ki) b w
        (Pool fs ids calls (l1 ++ Busy i (t_talk t) :: l2) ret sh ca al br (st ++ [i]) wr ki) b w
  | w_talk i msg rest l1 l2 fs ids calls ret sh ca al br st wr ki q stop v log w :
      worker_step (Pool fs ids calls (l1 ++ Busy i (msg :: rest) :: l2) ret sh ca al br st wr ki)
        (Board q stop v log) w
        (Pool fs ids calls (l1 ++ Busy i rest :: l2) ret sh ca al br st wr ki)
        (Board (q ++ [msg]) stop v (log ++ [msg])) w
  | w_open i t l1 l2 fs ids calls ret sh ca al br st wr ki b w :
      nth_error tasks i = Some t ->
      worker_step (Pool fs ids calls (l1 ++ Busy i [] :: l2) ret sh ca al br st wr ki) b w
        (Pool fs ids calls (l1 ++ Writing i :: l2) ret sh ca al br st wr ki) b (t_open t w)
  | w_write i t l1 l2 fs ids calls ret sh ca al br st wr ki b w :
      nth_error tasks i = Some t ->
      worker_step (Pool fs ids calls (l1 ++ Writing i :: l2) ret sh ca al br st wr ki) b w
        (Pool fs ids calls (l1 ++ Wrote i :: l2) ret sh ca al br st (wr ++ [i]) ki) b (t_effect t w)
  | w_return i l1 l2 fs ids calls ret sh ca al br st wr ki b w :
      worker_step (Pool fs ids calls (l1 ++ Wrote i :: l2) ret sh ca al br st wr ki) b w
        (Pool fs ids calls (l1 ++ Idle :: l2) (ret ++ [i]) sh ca al br st wr ki) b w.

  (** A worker process is killed from outside (parallel.py:171-271). *)
  Inductive kill_step : pool -> pool -> Prop :=
  | k_die s l1 l2 fs ids calls ret sh ca al br st wr ki :
      s <> Dead ->
      kill_step (Pool fs ids calls (l1 ++ s :: l2) ret sh ca al br st wr ki)
        (Pool fs ids calls (l1 ++ Dead :: l2) ret sh ca al br st wr true).

  (** Steps of the monitor process (parallel.py:142-169). *)
  Inductive monitor_step : board -> board -> Prop :=
  | o_read m msg q stop log :
      monitor_step (Board (msg :: q) stop (Watching m) log)
        (Board q stop (match monitor_read m msg with Ok m' => Watching m' | Err e => Crashed e end) log)
  | o_leave m q stop log :
      stop = true \/ length tasks <= m_finished m ->
      monitor_step (Board q stop (Watching m) log) (Board q stop (Left m) log).

  (** A step of one of the four parties; a step of any kind (parallel.py:171-271). *)
  Inductive move : state -> state -> Prop :=
  | s_main s s' : main_step s s' -> move s s'
  | s_manager c rs p p' b w : manager_step p p' -> move (State c rs p b w) (State c rs p' b w)
  | s_worker c rs p p' b b' w w' :
      worker_step p b w p' b' w' -> move (State c rs p b w) (State c rs p' b' w')
  | s_monitor c rs p b b' w : monitor_step b b' -> move (State c rs p b w) (State c rs p b' w).

  (** A step of any kind: one of the four parties moves, or a worker is killed from outside (parallel.py:171-271). *)
  Inductive step : state -> state -> Prop :=
  | s_move s s' : move s s' -> step s s'
  | s_kill c rs p p' b w : kill_step p p' -> step (State c rs p b w) (State c rs p' b w).

  (** Finite executions (parallel.py:171-271). *)
  Inductive steps : state -> state -> Prop :=
  | steps_refl s : steps s s
  | steps_next s1 s2 s3 : steps s1 s2 -> step s2 s3 -> steps s1 s3.
End Executor.
Arguments task R W : clear implicits.
Arguments Task {R W}.
Arguments state R W : clear implicits.
Arguments pool R : clear implicits.
Arguments future R : clear implicits.
Arguments control R : clear implicits.
