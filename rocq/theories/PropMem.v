(** Property C118: results do not depend on what freshly allocated memory contains; and more about C46. *)
From Coq Require Import String Reals Floats.
From Verif Require Import Base Num NdArray Text Particles Jacobian Ftle Integrate Interpolate Readers DataSource Solver FileRun Writers Batches AnalyticalRun FileUtils
  Hyper Manager Monitor Executor ManagerRun Jobs Decorators Program SpecProgram SpecSeeds SpecAccuracy SpecMem ParticleFacts AnalyticalFacts SolverCases GridProgramCases ApiCases MemMain MemApi MemCases.

(** C118 is false.  The program runs on scattered data in space, at rest everywhere, with six seeds around one point.  Whatever the
    logarithm, and whatever the eigenvalue routine does on other matrices than these two, the FTLE in the output file depends on
    whether freshly allocated memory is zero. *)
Theorem C118_refuted : forall lnF eigvals, accurate_log lnF ->
  eigvals (M33 1 0 0 0 1 0 0 0 1)%float = Ok (1, 1, 1)%float -> eigvals (M33 1 0 0 0 1 0 0 0 4)%float = Ok (1, 1, 4)%float ->
  let ends mems := main_ends (Fops lnF) still_scipy read_one mems mems eigvals still_lists still_files still_command no_files in
  (exists fs, ends zeros (false, Ok tt) fs) /\ (exists fs, ends dirty (false, Ok tt) fs) /\
  forall fs fs', ends zeros (false, Ok tt) fs -> ends dirty (false, Ok tt) fs' ->
  exists c c' x x', fs "outputs/run/ftle_v0.mat"%string = Some (Whole c) /\ fs' "outputs/run/ftle_v0.mat"%string = Some (Whole c') /\
    only_value c (XVal x) /\ only_value c' (XVal x') /\ x <> x'.
Proof. exact memory_matters. Qed.
Print Assumptions C118_refuted.

(** What holds: with the interpolator "grid", or with seeds in the plane, or with seeds in space and velocities on a grid with three
    axes, however a run of the command line program ends, with whatever result and files, it can end so with any other contents of
    freshly allocated memory ([imems]: arrays of the interpolator, [mems]: arrays of the integrator; for each task). *)
Theorem C118_partial : forall (T : Type) (O : ops T) (scp : scipy T) parse_float imems imems' mems mems' eigvals texts inputs c fs out fs',
  whole_arrays inputs ->
  (forall a m, parse_args parse_float c = Ok a -> manager_init O scp texts a = Ok m -> not_scattered_in_space inputs a m) ->
  main_ends O scp parse_float imems mems eigvals texts inputs c fs out fs' ->
  main_ends O scp parse_float imems' mems' eigvals texts inputs c fs out fs'.
Proof. exact @program_mem. Qed.
Print Assumptions C118_partial.

Example C118_case : forall lnF imems mems eigvals,
  whole_arrays flat_files /\
  (forall a m, parse_args read_one still_command = Ok a -> manager_init (Fops lnF) still_scipy still_lists a = Ok m -> not_scattered_in_space flat_files a m) /\
  exists fs, main_ends (Fops lnF) still_scipy read_one imems mems eigvals still_lists flat_files still_command no_files (false, Ok tt) fs /\
    exists c, fs "outputs/run/ftle_v0.mat"%string = Some (Whole c).
Proof. exact memory_case. Qed.

(** The same for AnalyticalSolver, for every velocity function, without a writer or with one. *)
Theorem C118_analytical : forall (T : Type) (O : ops T) (scp : scipy T) format eigvals write imems mems imems' mems' saving fn seeds name wr
  (w : world T (istate scp) (particles T) (@wstate T)) m k h n q stop fs s,
  analytical_start O scp fn seeds name wr = Ok w ->
  let tasks imems mems := map (fun t => job (fst t) (analytical_worker O scp (imems (fst t)) eigvals (mems (fst t)) write (snd t) true saving) w)
                            (indexed (analytical_tasks O scp format m k h)) in
  steps (tasks imems mems) n (start q stop fs) s -> steps (tasks imems' mems') n (start q stop fs) s.
Proof. exact @runs_mem. Qed.
Print Assumptions C118_analytical.

(** More about C46: the consecutive fields that AnalyticalSolver.run returns are all the same, for every velocity function,
    steady or not. *)
Theorem C46_fields_equal : forall (T : Type) (O : ops T) (scp : scipy T) format eigvals write imems mems fn seeds name wr
  (w : world T (istate scp) (particles T) (@wstate T)) m k h n q stop fs s rs, (2 <= m)%Z ->
  analytical_start O scp fn seeds name wr = Ok w ->
  steps (map (fun t => job (fst t) (analytical_worker O scp (imems (fst t)) eigvals (mems (fst t)) write (snd t) true false) w)
             (indexed (analytical_tasks O scp format m k h))) n (start q stop fs) s -> st_main s = Exited (Ok rs) ->
  exists row, api_run false (Ok rs) = Ok (ReturnsStack (repeat row (Z.to_nat m))).
Proof. exact @fields_equal. Qed.
Print Assumptions C46_fields_equal.

(** A run of two tasks that returns. *)
Example C46_fields_case : forall lnF scp imems mems eigvals format write,
  analytical_start (Fops lnF) scp expand (mk2 (Fops lnF) [fseed]) "euler" (WState (T := PrimFloat.float) None no_files) = Ok (fstart lnF scp) /\
  exists s rs f g,
    steps (map (fun t => job (fst t) (analytical_worker (Fops lnF) scp (imems (fst t)) eigvals (mems (fst t)) write (snd t) true false) (fstart lnF scp))
               (indexed (analytical_tasks (Fops lnF) scp format 2 2 0.5%float))) 2 (start [] false no_files) s /\
    st_main s = Exited (Ok rs) /\ api_run false (Ok rs) = Ok (ReturnsStack [[f]; [g]]).
Proof. exact (fun lnF scp imems mems eigvals format write => conj (fstart_is lnF scp) (two_fields lnF scp imems mems eigvals format write)). Qed.
