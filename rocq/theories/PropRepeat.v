(** Properties C124 and C125: runs that are stopped and repeated. *)
From Coq Require Import PrimFloat.
From Verif Require Import Base Num NdArray Particles Jacobian Integrate Interpolate Readers DataSource
  Solver SpecSolver Writers Batches FileRun AnalyticalRun FileUtils Hyper Manager Monitor Executor SpecExecutor ManagerRun
  Jobs Decorators Program SpecProgram SpecRepeat ProgramCases ApiCases SpecMem MemMain RepeatFacts RepeatCases.

(** C124.  The program has been run any number of times for some of the output files that [c] asks for, each time stopped at any moment.  A
    run of [c] that then ends without a failure leaves exactly the files that it would have left on the original disk. *)
Theorem C124_same_files : forall T (O : ops T) scp parse_float imems mems eigvals texts inputs c fs fs1 fs2 fs2',
  settled_files fs -> left_behind O scp (asked_for O scp parse_float texts c) fs fs1 ->
  (forall a m ts, parse_args parse_float c = Ok a -> manager_init O scp texts a = Ok m -> manager_batches O scp m = Ok ts -> names_differ scp m ts) ->
  main_ends O scp parse_float imems mems eigvals texts inputs c fs (false, Ok tt) fs2 ->
  main_ends O scp parse_float imems mems eigvals texts inputs c fs1 (false, Ok tt) fs2' ->
  forall p, fs2' p = fs2 p.
Proof. exact @repeated. Qed.
Print Assumptions C124_same_files.

(** Also if the repeated run finds other values in fresh memory, unless points are interpolated from scattered data in space (C118). *)
Theorem C124_any_memory : forall T (O : ops T) scp parse_float imems mems eigvals texts inputs imems' mems' c fs fs1 fs2 fs2',
  settled_files fs -> left_behind O scp (asked_for O scp parse_float texts c) fs fs1 -> whole_arrays inputs ->
  (forall a m, parse_args parse_float c = Ok a -> manager_init O scp texts a = Ok m -> not_scattered_in_space inputs a m) ->
  (forall a m ts, parse_args parse_float c = Ok a -> manager_init O scp texts a = Ok m -> manager_batches O scp m = Ok ts -> names_differ scp m ts) ->
  main_ends O scp parse_float imems mems eigvals texts inputs c fs (false, Ok tt) fs2 ->
  main_ends O scp parse_float imems' mems' eigvals texts inputs c fs1 (false, Ok tt) fs2' ->
  forall p, fs2' p = fs2 p.
Proof. exact @repeated_memory. Qed.
Print Assumptions C124_any_memory.

(** Nothing on the disk keeps it from ending so: if a run of [c] could end without a failure on some disk, it can on every disk, and otherwise
    it can only end by reporting a failure. *)
Theorem C124_can_repeat : forall T (O : ops T) scp parse_float imems mems eigvals texts inputs c fs fs1 fs2,
  main_ends O scp parse_float imems mems eigvals texts inputs c fs (false, Ok tt) fs2 ->
  (exists fs2', main_ends O scp parse_float imems mems eigvals texts inputs c fs1 (false, Ok tt) fs2') /\
  (forall out fs2', main_ends O scp parse_float imems mems eigvals texts inputs c fs1 out fs2' -> out = (false, Ok tt) \/ out = (true, Ok tt)).
Proof. exact @can_repeat. Qed.
Print Assumptions C124_can_repeat.

(** The same for AnalyticalSolver with a writer. *)
Theorem C124_analytical : forall T (O : ops T) scp format imems mems eigvals wr w m k h n n' q q' stop stop' fs fs1 s s' rs rs',
  settled_files fs ->
  left_behind_analytical O scp
    (fun p => exists t id, In t (analytical_tasks O scp format m k h) /\ src_id t = Ok id /\ p = output_path wr (append "ftle_" id)) fs fs1 ->
  have_ids scp (analytical_tasks O scp format m k h) -> ids_differ scp (analytical_tasks O scp format m k h) ->
  steps (map (saving_task O scp imems mems eigvals wr w) (indexed (analytical_tasks O scp format m k h))) n (start q stop fs) s ->
  st_main s = Exited (Ok rs) ->
  steps (map (saving_task O scp imems mems eigvals wr w) (indexed (analytical_tasks O scp format m k h))) n' (start q' stop' fs1) s' ->
  st_main s' = Exited (Ok rs') ->
  forall p, st_world s' p = st_world s p.
Proof. exact @repeated_analytical. Qed.
Print Assumptions C124_analytical.
Theorem C124_analytical_can_repeat : forall T (O : ops T) scp format imems mems eigvals wr w m k h n q q' stop stop' fs fs1 s rs,
  let tasks := map (saving_task O scp imems mems eigvals wr w) (indexed (analytical_tasks O scp format m k h)) in
  steps tasks n (start q stop fs) s -> st_main s = Exited (Ok rs) ->
  (exists s' rs', steps tasks n (start q' stop' fs1) s' /\ st_main s' = Exited (Ok rs')) /\
  (forall s' e, steps tasks n (start q' stop' fs1) s' -> st_main s' = Exited (Err e) -> killed s' /\ e = BrokenProcessPool).
Proof. exact @can_repeat_analytical. Qed.
Print Assumptions C124_analytical_can_repeat.

Example C124_case : forall lnF imems mems eigvals, exists fs1 fs2 fs2',
  settled_files (T := float) no_files /\
  left_behind (Fops lnF) fscipy (asked_for (Fops lnF) fscipy one_float (lists other) (command "2")) no_files fs1 /\
  fs1 "outputs/run/ftle_v1.mat"%string = Some Other /\
  (forall a m ts, parse_args one_float (command "2") = Ok a -> manager_init (Fops lnF) fscipy (lists other) a = Ok m ->
     manager_batches (Fops lnF) fscipy m = Ok ts -> names_differ fscipy m ts) /\
  main_ends (Fops lnF) fscipy one_float imems mems eigvals (lists other) toys (command "2") no_files (false, Ok tt) fs2 /\
  main_ends (Fops lnF) fscipy one_float imems mems eigvals (lists other) toys (command "2") fs1 (false, Ok tt) fs2' /\
  seed_x (fs2' "outputs/run/ftle_v1.mat"%string) = [0x1p-2%float].
Proof. exact repeat_case. Qed.
Example C124_any_memory_case : forall lnF,
  whole_arrays toys /\
  (forall a m, parse_args one_float (command "2") = Ok a -> manager_init (Fops lnF) fscipy (lists other) a = Ok m -> not_scattered_in_space toys a m).
Proof. exact toys_flat. Qed.
Example C124_analytical_case : forall lnF scp imems mems eigvals, exists fs1 s s' rs rs',
  left_behind_analytical (Fops lnF) scp
    (fun p => exists t id, In t (analytical_tasks (Fops lnF) scp two_names 2 2 0.5%float) /\ src_id t = Ok id /\
       p = output_path (Writer Mat_format "out" None) (append "ftle_" id)) no_files fs1 /\
  fs1 "out/ftle_first.mat"%string = Some Other /\
  (have_ids scp (analytical_tasks (Fops lnF) scp two_names 2 2 0.5%float) /\ ids_differ scp (analytical_tasks (Fops lnF) scp two_names 2 2 0.5%float)) /\
  let tasks := map (saving_task (Fops lnF) scp imems mems eigvals (Writer Mat_format "out" None) (fstart lnF scp))
    (indexed (analytical_tasks (Fops lnF) scp two_names 2 2 0.5%float)) in
  steps tasks 2 (start [] false no_files) s /\ st_main s = Exited (Ok rs) /\
  steps tasks 2 (start [] false fs1) s' /\ st_main s' = Exited (Ok rs').
Proof. exact repeat_analytical_case. Qed.

(** C125.  A repeated run does not spare the fields that are already there: when it is stopped it may have destroyed one of them. *)
Theorem C125_refuted : forall lnF imems mems eigvals, exists f fs1 fs2 x,
  manager_batches (Fops lnF) fscipy (the_manager other 2) = Ok (tasks_for lnF other) /\
  nth_error (tasks_for lnF other) 0 = Some f /\ output_file fscipy (the_manager other 2) f = "outputs/run/ftle_v1.mat"%string /\
  left_behind (Fops lnF) fscipy (asked_for (Fops lnF) fscipy one_float (lists other) (command "2")) no_files fs1 /\
  fs1 "outputs/run/ftle_v1.mat"%string = Some (Whole x) /\
  right_contents (Fops lnF) fscipy imems mems eigvals toys (the_manager other 2) 0 f x /\
  left_behind (Fops lnF) fscipy (asked_for (Fops lnF) fscipy one_float (lists other) (command "2")) fs1 fs2 /\
  fs2 "outputs/run/ftle_v1.mat"%string = Some Other.
Proof. exact lost_case. Qed.
Print Assumptions C125_refuted.

(** What one more run does to the file of task [i] if it is stopped at any moment: if it has not begun this task, the file is as before; if it has completed
    it without failure, the file is right; in between, the file is as before or destroyed. *)
Theorem C125_partial : forall T (O : ops T) scp imems mems eigvals inputs m ts n q stop fs s i f, names_differ scp m ts -> settled_files fs ->
  steps (map (manager_task O scp imems mems eigvals inputs m) (indexed ts)) n (start q stop fs) s -> nth_error ts i = Some f ->
  (~ begun s i -> torn (st_world s) (output_file scp m f) = fs (output_file scp m f)) /\
  (completed s i -> t_outcome (manager_task O scp imems mems eigvals inputs m (i, f)) = Ok None ->
     exists x, torn (st_world s) (output_file scp m f) = Some (Whole x) /\ right_contents O scp imems mems eigvals inputs m i f x) /\
  (begun s i -> ~ completed s i ->
     torn (st_world s) (output_file scp m f) = fs (output_file scp m f) \/ torn (st_world s) (output_file scp m f) = Some Other).
Proof. exact @one_more. Qed.
Print Assumptions C125_partial.

(** Files that no run was asked to write stay as they are. *)
Theorem C125_others_partial : forall T (O : ops T) scp outputs fs fs1, settled_files fs -> left_behind O scp outputs fs fs1 ->
  forall p, ~ outputs p -> fs1 p = fs p.
Proof. exact (fun T O scp outputs fs fs1 Hset H => proj2 (@left_kept T O scp outputs fs fs1 Hset H)). Qed.
Print Assumptions C125_others_partial.

Example C125_case : forall lnF imems mems eigvals, exists fs1 s,
  left_behind (Fops lnF) fscipy (asked_for (Fops lnF) fscipy one_float (lists other) (command "2")) no_files fs1 /\ settled_files fs1 /\
  names_differ fscipy (the_manager other 2) (tasks_for lnF other) /\ length (tasks_for lnF other) = 2 /\
  steps (map (manager_task (Fops lnF) fscipy imems mems eigvals toys (the_manager other 2)) (indexed (tasks_for lnF other))) 2 (start [] false fs1) s /\
  completed s 0 /\ ~ begun s 1.
Proof. exact half_case. Qed.
