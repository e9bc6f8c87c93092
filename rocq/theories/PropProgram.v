(** Properties C93 to C96: whole runs of the command line program and of AnalyticalSolver, with the files they leave. *)
From Coq Require Import PrimFloat Reals.
From Verif Require Import Base Num NdArray Particles ParticleFacts SpecSeeds Jacobian Integrate Interpolate Readers DataSource
  Solver SpecSolver Writers Batches FileRun AnalyticalRun FileUtils Hyper Manager Monitor Executor SpecExecutor ManagerRun
  Jobs Decorators Program SpecProgram SpecConfig ProgramFacts ProgramCases AnalyticalDisk ApiCases.
Local Open Scope nat_scope.

(** C93.  The files left do not depend on the schedule and the number of processes ... *)
Theorem C93_partial : forall T (O : ops T) scp imems mems eigvals inputs m ts n n' q q' stop stop' fs s s' rs rs',
  names_differ scp m ts -> settled_files fs ->
  steps (map (manager_task O scp imems mems eigvals inputs m) (indexed ts)) n (start q stop fs) s -> st_main s = Exited (Ok rs) ->
  steps (map (manager_task O scp imems mems eigvals inputs m) (indexed ts)) n' (start q' stop' fs) s' -> st_main s' = Exited (Ok rs') ->
  forall p, st_world s p = st_world s' p.
Proof. exact @independent. Qed.
Print Assumptions C93_partial.

(** ... if the tasks have different output files.  They may not have: *)
Theorem C93_refuted : forall lnF imems mems eigvals,
  (let* a := parse_args one_float (command "2") in manager_init (Fops lnF) fscipy (lists same) a) = Ok (the_manager same 2) /\
  exists ts, manager_batches (Fops lnF) fscipy (the_manager same 2) = Ok ts /\ exists s s' rs rs',
    steps (map (manager_task (Fops lnF) fscipy imems mems eigvals toys (the_manager same 2)) (indexed ts)) 2 (start [] false no_files) s /\
    st_main s = Exited (Ok rs) /\
    steps (map (manager_task (Fops lnF) fscipy imems mems eigvals toys (the_manager same 2)) (indexed ts)) 2 (start [] false no_files) s' /\
    st_main s' = Exited (Ok rs') /\
    st_world s "outputs/run/ftle_v.mat"%string <> st_world s' "outputs/run/ftle_v.mat"%string.
Proof.
  exact (fun lnF imems mems eigvals => conj (init_same lnF)
    (ex_intro _ (tasks_for lnF same) (conj (proj1 (batches_same lnF)) (collide lnF imems mems eigvals)))).
Qed.
Print Assumptions C93_refuted.

(** Whatever the names, after a run that returns, the output file of each task is whole and has the right contents for a task with this
    output file, or two of these tasks had it open at the same time. *)
Theorem C93_one_of_them : forall T (O : ops T) scp imems mems eigvals inputs m ts n q stop fs s rs, settled_files fs ->
  steps (map (manager_task O scp imems mems eigvals inputs m) (indexed ts)) n (start q stop fs) s -> st_main s = Exited (Ok rs) ->
  forall f, In f ts ->
    (exists i g c, nth_error ts i = Some g /\ output_file scp m g = output_file scp m f /\
       st_world s (output_file scp m f) = Some (Whole c) /\ right_contents O scp imems mems eigvals inputs m i g c) \/
    (exists i j g h k, i <> j /\ nth_error ts i = Some g /\ nth_error ts j = Some h /\
       output_file scp m g = output_file scp m f /\ output_file scp m h = output_file scp m f /\
       st_world s (output_file scp m f) = Some (Unfinished (i :: j :: k))).
Proof. exact @one_of_them. Qed.
Print Assumptions C93_one_of_them.

(** Both happen; [C93_refuted] has runs of the first kind. *)
Theorem C93_overlap : forall lnF imems mems eigvals,
  manager_batches (Fops lnF) fscipy (the_manager same 2) = Ok (tasks_for lnF same) /\
  exists s, steps (map (manager_task (Fops lnF) fscipy imems mems eigvals toys (the_manager same 2)) (indexed (tasks_for lnF same))) 2
      (start [] false no_files) s /\
    exists rs, st_main s = Exited (Ok rs) /\ st_world s "outputs/run/ftle_v.mat"%string = Some (Unfinished [1; 0]).
Proof. exact (fun lnF imems mems eigvals => conj (proj1 (batches_same lnF)) (overlap_run lnF imems mems eigvals)). Qed.
Print Assumptions C93_overlap.

(** The same for AnalyticalSolver with a writer: in any arithmetic if the ids are different, and over the reals with a timestep of at
    least 1e-6. *)
Theorem C93_analytical_partial : forall T (O : ops T) scp format imems mems eigvals wr w m k h n n' q q' stop stop' fs s s' rs rs',
  have_ids scp (analytical_tasks O scp format m k h) -> ids_differ scp (analytical_tasks O scp format m k h) -> settled_files fs ->
  steps (map (saving_task O scp imems mems eigvals wr w) (indexed (analytical_tasks O scp format m k h))) n (start q stop fs) s ->
  st_main s = Exited (Ok rs) ->
  steps (map (saving_task O scp imems mems eigvals wr w) (indexed (analytical_tasks O scp format m k h))) n' (start q' stop' fs) s' ->
  st_main s' = Exited (Ok rs') ->
  forall p, st_world s p = st_world s' p.
Proof. exact @saving_independent. Qed.
Print Assumptions C93_analytical_partial.
Theorem C93_real_partial : forall scp imems mems eigvals wr w m k h n n' q q' stop stop' fs s s' rs rs',
  0 < k -> (1/1000000 <= Rabs h)%R -> settled_files fs ->
  let tasks := map (saving_task Rops scp imems mems eigvals wr w) (indexed (analytical_tasks Rops scp format6 (Z.of_nat m) (Z.of_nat k) h)) in
  steps tasks n (start q stop fs) s -> st_main s = Exited (Ok rs) ->
  steps tasks n' (start q' stop' fs) s' -> st_main s' = Exited (Ok rs') ->
  forall p, st_world s p = st_world s' p.
Proof. exact real_independent. Qed.
Print Assumptions C93_real_partial.

Example C93_case : forall lnF imems mems eigvals,
  (exists fs', main_ends (Fops lnF) fscipy one_float imems mems eigvals (lists other) toys (command "2") no_files (false, Ok tt) fs' /\
    seed_x (fs' "outputs/run/ftle_v1.mat"%string) = [0x1p-2%float] /\ seed_x (fs' "outputs/run/ftle_v2.mat"%string) = [0x1p-1%float]) /\
  names_differ fscipy (the_manager other 2) (tasks_for lnF other) /\ settled_files (T := float) no_files.
Proof. exact (fun lnF imems mems eigvals => conj (clean_case lnF imems mems eigvals) (conj (other_differ lnF) nothing_settled)). Qed.
Example C93_analytical_case : forall lnF scp imems mems eigvals,
  (have_ids scp (analytical_tasks (Fops lnF) scp two_names 2 2 0.5%float) /\
   ids_differ scp (analytical_tasks (Fops lnF) scp two_names 2 2 0.5%float)) /\
  exists s rs c d,
    steps (map (saving_task (Fops lnF) scp imems mems eigvals (Writer Mat_format "out" None) (fstart lnF scp))
      (indexed (analytical_tasks (Fops lnF) scp two_names 2 2 0.5%float))) 2 (start [] false no_files) s /\
    st_main s = Exited (Ok rs) /\ st_world s "out/ftle_first.mat"%string = Some (Whole c) /\ st_world s "out/ftle_second.mat"%string = Some (Whole d).
Proof. exact (fun lnF scp imems mems eigvals => conj (two_ids lnF scp) (two_saved lnF scp imems mems eigvals)). Qed.

(** C94.  At the end of a run a file can be neither as before nor complete: a worker is killed while it writes.  (main then ends normally.) *)
Theorem C94_refuted : forall lnF imems mems eigvals,
  manager_batches (Fops lnF) fscipy (the_manager other 2) = Ok (tasks_for lnF other) /\
  let tasks := map (manager_task (Fops lnF) fscipy imems mems eigvals toys (the_manager other 2)) (indexed (tasks_for lnF other)) in
  exists s, steps tasks 2 (start [] false no_files) s /\ final tasks 2 s /\ st_main s = Exited (Err BrokenProcessPool) /\
    st_world s "outputs/run/ftle_v1.mat"%string = Some (Unfinished [0]) /\
    main_ends (Fops lnF) fscipy one_float imems mems eigvals (lists other) toys (command "2") no_files (true, Ok tt) (st_world s).
Proof. exact (fun lnF imems mems eigvals => conj (proj1 (batches_other lnF)) (torn_case lnF imems mems eigvals)). Qed.
Print Assumptions C94_refuted.

(** At every moment of every run, whichever tasks failed and workers were killed, each file is as before the run, and then no completed task
    has this output file; or it is the complete and right file of a task that was completed; or it is unfinished: then tasks that were begun
    have opened it, and if it was only one, this one is not completed. *)
Theorem C94_any_file : forall T (O : ops T) scp imems mems eigvals inputs m ts n q stop fs s p, settled_files fs ->
  steps (map (manager_task O scp imems mems eigvals inputs m) (indexed ts)) n (start q stop fs) s ->
  (st_world s p = fs p /\
     forall i f, nth_error ts i = Some f -> completed s i -> t_outcome (manager_task O scp imems mems eigvals inputs m (i, f)) = Ok None ->
       p <> output_file scp m f) \/
  (exists i f c, nth_error ts i = Some f /\ completed s i /\ t_outcome (manager_task O scp imems mems eigvals inputs m (i, f)) = Ok None /\
     p = output_file scp m f /\ st_world s p = Some (Whole c) /\ right_contents O scp imems mems eigvals inputs m i f c) \/
  (exists k, st_world s p = Some (Unfinished k) /\ k <> [] /\ NoDup k /\
     (forall i, In i k -> exists f, nth_error ts i = Some f /\ begun s i /\ p = output_file scp m f) /\
     (forall i, k = [i] -> ~ completed s i)).
Proof. exact @any_file. Qed.
Print Assumptions C94_any_file.

(** If the output files are different, the file of each task that was completed without failure is its own and right at every later moment,
    even if workers are killed. *)
Theorem C94_own_file : forall T (O : ops T) scp imems mems eigvals inputs m ts n q stop fs s, names_differ scp m ts -> settled_files fs ->
  steps (map (manager_task O scp imems mems eigvals inputs m) (indexed ts)) n (start q stop fs) s ->
  forall i f, nth_error ts i = Some f -> completed s i -> t_outcome (manager_task O scp imems mems eigvals inputs m (i, f)) = Ok None ->
    exists c, st_world s (output_file scp m f) = Some (Whole c) /\ right_contents O scp imems mems eigvals inputs m i f c.
Proof. exact @any_state. Qed.
Print Assumptions C94_own_file.

(** When nothing more can happen and nobody was killed, no file is unfinished, whichever tasks failed. *)
Theorem C94_partial : forall T (O : ops T) scp imems mems eigvals inputs m ts n q stop fs s p, names_differ scp m ts -> settled_files fs ->
  steps (map (manager_task O scp imems mems eigvals inputs m) (indexed ts)) n (start q stop fs) s ->
  final (map (manager_task O scp imems mems eigvals inputs m) (indexed ts)) n s -> ~ killed s ->
  (st_world s p = fs p /\
     forall i f, nth_error ts i = Some f -> completed s i -> t_outcome (manager_task O scp imems mems eigvals inputs m (i, f)) = Ok None ->
       p <> output_file scp m f) \/
  (exists i f c, nth_error ts i = Some f /\ completed s i /\ t_outcome (manager_task O scp imems mems eigvals inputs m (i, f)) = Ok None /\
     p = output_file scp m f /\ st_world s p = Some (Whole c) /\ right_contents O scp imems mems eigvals inputs m i f c).
Proof. exact @quiet_end. Qed.
Print Assumptions C94_partial.

Example C94_case : forall lnF imems mems eigvals,
  names_differ fscipy (the_manager other 2) (tasks_for lnF other) /\ settled_files (T := float) no_files /\
  let tasks := map (manager_task (Fops lnF) fscipy imems mems eigvals toys (the_manager other 2)) (indexed (tasks_for lnF other)) in
  exists s, steps tasks 2 (start [] false no_files) s /\ final tasks 2 s /\ ~ killed s /\ completed s 0 /\ completed s 1 /\
    seed_x (st_world s "outputs/run/ftle_v1.mat"%string) = [0x1p-2%float].
Proof. exact (fun lnF imems mems eigvals => conj (other_differ lnF) (conj nothing_settled (clean_final lnF imems mems eigvals))). Qed.

(** The same for AnalyticalSolver. *)
Theorem C94_analytical : forall T (O : ops T) scp format imems mems eigvals wr w m k h n q stop fs s p, settled_files fs ->
  let ts := analytical_tasks O scp format m k h in
  steps (map (saving_task O scp imems mems eigvals wr w) (indexed ts)) n (start q stop fs) s ->
  (st_world s p = fs p /\
     forall i t id, nth_error ts i = Some t -> src_id t = Ok id -> completed s i ->
       t_outcome (saving_task O scp imems mems eigvals wr w (i, t)) = Ok None -> p <> output_path wr (append "ftle_" id)) \/
  (exists i t id c, nth_error ts i = Some t /\ src_id t = Ok id /\ completed s i /\
     t_outcome (saving_task O scp imems mems eigvals wr w (i, t)) = Ok None /\ p = output_path wr (append "ftle_" id) /\
     st_world s p = Some (Whole c) /\ analytical_right O scp imems mems eigvals wr w i id t c) \/
  (exists l, st_world s p = Some (Unfinished l) /\ l <> [] /\ NoDup l /\
     (forall i, In i l -> exists t id, nth_error ts i = Some t /\ src_id t = Ok id /\ begun s i /\ p = output_path wr (append "ftle_" id)) /\
     (forall i, l = [i] -> ~ completed s i)).
Proof. exact @saving_any_file. Qed.
Print Assumptions C94_analytical.

(** C95.  The program is said to raise RuntimeError if a solver fails; it never does ... *)
Theorem C95_never_raised : forall T (O : ops T) scp parse_float imems mems eigvals texts inputs c fs b e fs',
  main_ends O scp parse_float imems mems eigvals texts inputs c fs (b, Err e) fs' -> is_runtime_error e = false.
Proof. exact @never_runtime. Qed.
Print Assumptions C95_never_raised.

(** ... and can end normally, with exit status 0 and the message that reports the duration of a complete execution, although a worker was
    killed and no file was written. *)
Theorem C95_refuted : forall lnF imems mems eigvals t1 t2, (exists fs' d,
    program_ends (Fops lnF) fscipy one_float imems mems eigvals (lists other) toys t1 t2 (command "2") no_files true [d] (Ok tt) fs' /\
    fs' "outputs/run/ftle_v1.mat"%string = None /\ fs' "outputs/run/ftle_v2.mat"%string = None).
Proof. exact killed_program. Qed.
Print Assumptions C95_refuted.

(** A message about a failure is printed only if there was one. *)
Theorem C95_reported : forall T (O : ops T) scp parse_float imems mems eigvals texts inputs c fs fs',
  main_ends O scp parse_float imems mems eigvals texts inputs c fs (true, Ok tt) fs' ->
  exists e, is_runtime_error e = true /\
    ((let* a := parse_args parse_float c in let* m := manager_init O scp texts a in manager_batches O scp m) = Err e \/
     exists a m ts s, parse_args parse_float c = Ok a /\ manager_init O scp texts a = Ok m /\ manager_batches O scp m = Ok ts /\
       steps (map (manager_task O scp imems mems eigvals inputs m) (indexed ts)) (m_processes m) (start [] false fs) s /\ fs' = st_world s /\
       ((exists i f, nth_error ts i = Some f /\ completed s i /\ t_outcome (manager_task O scp imems mems eigvals inputs m (i, f)) = Err e) \/ killed s)).
Proof. exact @reported. Qed.
Print Assumptions C95_reported.

(** C96.  If the program ends without reporting a failure and the output files are different, then for each task the file has the right contents,
    and no other file is changed. *)
Theorem C96_complete : forall T (O : ops T) scp parse_float imems mems eigvals texts inputs c fs fs', settled_files fs ->
  main_ends O scp parse_float imems mems eigvals texts inputs c fs (false, Ok tt) fs' ->
  exists a m ts, parse_args parse_float c = Ok a /\ manager_init O scp texts a = Ok m /\ manager_batches O scp m = Ok ts /\
    (names_differ scp m ts ->
      (forall i f, nth_error ts i = Some f -> exists x,
         fs' (output_file scp m f) = Some (Whole x) /\ right_contents O scp imems mems eigvals inputs m i f x) /\
      (forall p, (forall f, In f ts -> p <> output_file scp m f) -> fs' p = fs p)).
Proof. exact @complete. Qed.
Print Assumptions C96_complete.
Example C96_case : forall lnF imems mems eigvals, settled_files (T := float) no_files /\
  (exists fs', main_ends (Fops lnF) fscipy one_float imems mems eigvals (lists other) toys (command "2") no_files (false, Ok tt) fs') /\
  names_differ fscipy (the_manager other 2) (tasks_for lnF other).
Proof.
  intros lnF imems mems eigvals. split; [exact nothing_settled|]. split; [|exact (other_differ lnF)].
  destruct (clean_case lnF imems mems eigvals) as (fs' & H & _). exists fs'. exact H.
Qed.

(** The same for AnalyticalSolver with a writer. *)
Theorem C96_analytical : forall T (O : ops T) scp format imems mems eigvals wr w m k h n q stop fs s rs,
  let ts := analytical_tasks O scp format m k h in
  have_ids scp ts -> ids_differ scp ts -> settled_files fs ->
  steps (map (saving_task O scp imems mems eigvals wr w) (indexed ts)) n (start q stop fs) s -> st_main s = Exited (Ok rs) ->
  (forall i t id, nth_error ts i = Some t -> src_id t = Ok id -> exists c,
     st_world s (output_path wr (append "ftle_" id)) = Some (Whole c) /\ analytical_right O scp imems mems eigvals wr w i id t c) /\
  (forall p, (forall t id, In t ts -> src_id t = Ok id -> p <> output_path wr (append "ftle_" id)) -> st_world s p = fs p).
Proof. exact @saving_complete. Qed.
Print Assumptions C96_analytical.
Theorem C96_real : forall scp imems mems eigvals wr w m k h n q stop fs s rs, 0 < k -> (1/1000000 <= Rabs h)%R -> settled_files fs ->
  let ts := analytical_tasks Rops scp format6 (Z.of_nat m) (Z.of_nat k) h in
  steps (map (saving_task Rops scp imems mems eigvals wr w) (indexed ts)) n (start q stop fs) s -> st_main s = Exited (Ok rs) ->
  (forall i t, nth_error ts i = Some t -> let id := format6 (INR i * h) in
     exists c, st_world s (output_path wr (append "ftle_" id)) = Some (Whole c) /\ analytical_right Rops scp imems mems eigvals wr w i id t c) /\
  (forall p, (forall i, i < m -> p <> output_path wr (append "ftle_" (format6 (INR i * h)))) -> st_world s p = fs p).
Proof. exact real_complete. Qed.
Print Assumptions C96_real.

(** C82, for the program: a run from [t1] to [t2] ends as without the decorator; if it ends normally, it prints the time
    between them, and otherwise nothing. *)
Theorem C82_program : forall T (O : ops T) scp parse_float imems mems eigvals texts inputs t1 t2 c fs b durations outcome fs',
  program_ends O scp parse_float imems mems eigvals texts inputs t1 t2 c fs b durations outcome fs' ->
  main_ends O scp parse_float imems mems eigvals texts inputs c fs (b, outcome) fs' /\
  (outcome = Ok tt -> exists d, durations = [d] /\ elapsed t1 t2 d) /\ (forall e, outcome = Err e -> durations = []).
Proof. exact @program_duration. Qed.
Print Assumptions C82_program.
