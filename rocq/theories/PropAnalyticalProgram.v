(** Property C113: whole runs of AnalyticalSolver on steady flows, in binary64 (src/pyftle/api.py with all its parts). *)
From Coq Require Import String Reals ZArith Floats.
From Verif Require Import Base Num NdArray Text Particles Jacobian Ftle Integrate Interpolate DataSource Solver FileRun AnalyticalRun Writers Batches
  Monitor Executor Jobs SpecExecutor SpecWriters SpecProgram SpecSeeds SpecFtle SpecSolver SpecIntegrate SpecOrder SpecConverge SpecFloat64 SpecAccuracy SpecFloatGrid SpecFloatJac
  SpecEigen SpecRounding SpecFloatRun SpecFloatRun3 SpecGridProgram SpecAnalyticalProgram ParticleFacts FtleAccuracyMain FloatJac FloatRuns FloatFtleCases FloatEigenCases
  AnalyticalProgramMain AnalyticalProgramCases.
Local Open Scope R_scope.

(** C113.  AnalyticalSolver is given a velocity function that evaluates a steady flow [v], seeds in the plane, an
    integrator, a time step [h], a flow map period of [n - 1] time steps and a number of fields.  [resolves2]: the steps
    resolve the flow maps [phi i] of [v] from the times [i h] (C109).  Then a run without a writer can end, and when it does,
    either it raises BrokenProcessPool because a worker process was killed, or it returns one row for each field; the
    entry of row i for a seed is the FTLE [ln s / ((n - 1) |h|)] of [phi i] up to [(2^-21 + 12 E / (s a)) / ((n - 1) |h|)].
    (A single field is returned as a one-dimensional array.) *)
Theorem C113_returns_2d : forall lnF (scp : scipy PrimFloat.float) format imems mems eigvals wr fn g, accurate_log lnF -> steady_fn fn g ->
  forall m n h hF period v gs Gs phi E, resolves2 m n h g v gs Gs phi E -> represents hF h -> represents period ((INR n - 1) * Rabs h) ->
  forall count processes p w k, (1 <= count)%Z -> (0 < processes)%Z -> mk_particles (Fops lnF) (layout2 gs) = Ok p ->
  analytical_start (Fops lnF) scp fn p (method_name m) (WState None no_files) = Ok w -> window_length (Fops lnF) period hF = Ok k ->
  let tasks := map (fun t => job (fst t) (analytical_worker (Fops lnF) scp (imems (fst t)) eigvals (mems (fst t)) (write (Fops lnF) wr) (snd t) true false) w)
                 (indexed (analytical_tasks (Fops lnF) scp format count k hF)) in
  forall q stop (fs : files PrimFloat.float),
  (exists s rs, Executor.steps tasks processes (start q stop fs) s /\ st_main s = Exited (Ok rs)) /\
  forall s r, Executor.steps tasks processes (start q stop fs) s -> st_main s = Exited r ->
    (r = Err BrokenProcessPool /\ killed s) \/
    exists rows, length rows = Z.to_nat count /\ (forall i f, nth_error rows i = Some f -> ftle_field2 E (phi i) n h Gs f) /\
      ((count = 1)%Z -> exists f, rows = [f] /\ api_run false r = Ok (ReturnsField f)) /\
      ((2 <= count)%Z -> api_run false r = Ok (ReturnsStack rows)).
Proof. exact @steady_returns2. Qed.
Print Assumptions C113_returns_2d.

(** The same in space, where [eigvals] computes eigenvalues accurately; the error bound has 2^-34 for 2^-21 (C110). *)
Theorem C113_returns_3d : forall lnF (scp : scipy PrimFloat.float) format imems mems eigvals wr fn g, accurate_log lnF -> accurate_eigvals eigvals -> steady_fn fn g ->
  forall m n h hF period v gs Gs phi E, resolves3 m n h g v gs Gs phi E -> represents hF h -> represents period ((INR n - 1) * Rabs h) ->
  forall count processes p w k, (1 <= count)%Z -> (0 < processes)%Z -> mk_particles (Fops lnF) (layout3 gs) = Ok p ->
  analytical_start (Fops lnF) scp fn p (method_name m) (WState None no_files) = Ok w -> window_length (Fops lnF) period hF = Ok k ->
  let tasks := map (fun t => job (fst t) (analytical_worker (Fops lnF) scp (imems (fst t)) eigvals (mems (fst t)) (write (Fops lnF) wr) (snd t) true false) w)
                 (indexed (analytical_tasks (Fops lnF) scp format count k hF)) in
  forall q stop (fs : files PrimFloat.float),
  (exists s rs, Executor.steps tasks processes (start q stop fs) s /\ st_main s = Exited (Ok rs)) /\
  forall s r, Executor.steps tasks processes (start q stop fs) s -> st_main s = Exited r ->
    (r = Err BrokenProcessPool /\ killed s) \/
    exists rows, length rows = Z.to_nat count /\ (forall i f, nth_error rows i = Some f -> ftle_field3 E (phi i) n h Gs f) /\
      ((count = 1)%Z -> exists f, rows = [f] /\ api_run false r = Ok (ReturnsField f)) /\
      ((2 <= count)%Z -> api_run false r = Ok (ReturnsStack rows)).
Proof. exact @steady_returns3. Qed.
Print Assumptions C113_returns_3d.

(** With a writer it returns None, and the field for the start time [i h] is in a file that is named after the start time with
    six decimals.  It holds the FTLE values and the seeds in order.  The time steps must not be smaller than 1.001e-6, since
    otherwise names of different fields can agree (C49).  No other file is changed. *)
Theorem C113_saves_2d : forall lnF (scp : scipy PrimFloat.float) format imems mems eigvals fn g, accurate_log lnF -> steady_fn fn g -> six_decimals format ->
  forall m n h hF period v gs Gs phi E, resolves2 m n h g v gs Gs phi E -> represents hF h -> represents period ((INR n - 1) * Rabs h) ->
  1001 / 1000000000 <= Rabs h ->
  forall count processes p w k fmt dir wr, (1 <= count <= 2 ^ 36)%Z -> (0 < processes)%Z -> mk_particles (Fops lnF) (layout2 gs) = Ok p ->
  create_writer fmt dir None = Ok wr ->
  analytical_start (Fops lnF) scp fn p (method_name m) (WState None no_files) = Ok w -> window_length (Fops lnF) period hF = Ok k ->
  let tasks := map (fun t => job (fst t) (analytical_worker (Fops lnF) scp (imems (fst t)) eigvals (mems (fst t)) (write (Fops lnF) wr) (snd t) true true) w)
                 (indexed (analytical_tasks (Fops lnF) scp format count k hF)) in
  forall q stop (fs : files PrimFloat.float), settled_files fs ->
  (exists s rs, Executor.steps tasks processes (start q stop fs) s /\ st_main s = Exited (Ok rs)) /\
  exists time, (forall i, (i < Z.to_nat count)%nat -> about h i (time i)) /\
  forall s r, Executor.steps tasks processes (start q stop fs) s -> st_main s = Exited r ->
    (r = Err BrokenProcessPool /\ killed s) \/
    (api_run true r = Ok ReturnsNone /\
     (forall i, (i < Z.to_nat count)%nat -> exists f x, ftle_field2 E (phi i) n h Gs f /\
        point_file (Fops lnF) fmt (length Gs) 2 f (arr2 (map (mean2 (Fops lnF)) gs)) x /\
        st_world s (output_path wr (append "ftle_" (format (time i)))) = Some (Whole x)) /\
     (forall p, (forall i, (i < Z.to_nat count)%nat -> p <> output_path wr (append "ftle_" (format (time i)))) -> st_world s p = fs p)).
Proof. exact @steady_saves2. Qed.
Print Assumptions C113_saves_2d.

Theorem C113_saves_3d : forall lnF (scp : scipy PrimFloat.float) format imems mems eigvals fn g, accurate_log lnF -> accurate_eigvals eigvals -> steady_fn fn g -> six_decimals format ->
  forall m n h hF period v gs Gs phi E, resolves3 m n h g v gs Gs phi E -> represents hF h -> represents period ((INR n - 1) * Rabs h) ->
  1001 / 1000000000 <= Rabs h ->
  forall count processes p w k fmt dir wr, (1 <= count <= 2 ^ 36)%Z -> (0 < processes)%Z -> mk_particles (Fops lnF) (layout3 gs) = Ok p ->
  create_writer fmt dir None = Ok wr ->
  analytical_start (Fops lnF) scp fn p (method_name m) (WState None no_files) = Ok w -> window_length (Fops lnF) period hF = Ok k ->
  let tasks := map (fun t => job (fst t) (analytical_worker (Fops lnF) scp (imems (fst t)) eigvals (mems (fst t)) (write (Fops lnF) wr) (snd t) true true) w)
                 (indexed (analytical_tasks (Fops lnF) scp format count k hF)) in
  forall q stop (fs : files PrimFloat.float), settled_files fs ->
  (exists s rs, Executor.steps tasks processes (start q stop fs) s /\ st_main s = Exited (Ok rs)) /\
  exists time, (forall i, (i < Z.to_nat count)%nat -> about h i (time i)) /\
  forall s r, Executor.steps tasks processes (start q stop fs) s -> st_main s = Exited r ->
    (r = Err BrokenProcessPool /\ killed s) \/
    (api_run true r = Ok ReturnsNone /\
     (forall i, (i < Z.to_nat count)%nat -> exists f x, ftle_field3 E (phi i) n h Gs f /\
        point_file (Fops lnF) fmt (length Gs) 3 f (arr3 (map (mean3 (Fops lnF)) gs)) x /\
        st_world s (output_path wr (append "ftle_" (format (time i)))) = Some (Whole x)) /\
     (forall p, (forall i, (i < Z.to_nat count)%nat -> p <> output_path wr (append "ftle_" (format (time i)))) -> st_world s p = fs p)).
Proof. exact @steady_saves3. Qed.
Print Assumptions C113_saves_3d.

(** Three fields of the saddle flow (x, y) -> (y, x), each from eight AB2 steps of 1/64.  The flow stretches by exp (1/8). *)
Example C113_case_returns : forall (scp : scipy PrimFloat.float) imems mems eigvals wr, exists w,
  analytical_start (Fops lnR_rounded) scp (on_each saddle) (mk2 (Fops lnR_rounded) [seed_F]) "ab2" (WState (T := PrimFloat.float) None no_files) = Ok w /\
  window_length (Fops lnR_rounded) 0.109375%float 0.015625%float = Ok 8%Z /\
  let tasks := map (fun t => job (fst t) (analytical_worker (Fops lnR_rounded) scp (imems (fst t)) eigvals (mems (fst t)) (write (Fops lnR_rounded) wr) (snd t) true false) w)
                 (indexed (analytical_tasks (Fops lnR_rounded) scp format_six 3 8 0.015625%float)) in
  (exists s rs, Executor.steps tasks 2 (start [] false no_files) s /\ st_main s = Exited (Ok rs)) /\
  forall s rs, Executor.steps tasks 2 (start [] false no_files) s -> st_main s = Exited (Ok rs) ->
    exists f0 f1 f2, api_run false (Ok rs) = Ok (ReturnsStack [f0; f1; f2]) /\ Forall (one_value ((1 / 8) / (7 / 64)) (/ 20)) [f0; f1; f2].
Proof. exact returns_case. Qed.

(** Two fields of the flow (x, y, z) -> (y, x, z), written as VTK files. *)
Example C113_case_saves : forall (scp : scipy PrimFloat.float) imems mems, exists w wr,
  create_writer "vtk" "out" None = Ok wr /\
  analytical_start (Fops lnR_rounded) scp (on_each swirl) (mk3 (Fops lnR_rounded) [seed3_F]) "ab2" (WState (T := PrimFloat.float) None no_files) = Ok w /\
  let tasks := map (fun t => job (fst t) (analytical_worker (Fops lnR_rounded) scp (imems (fst t)) eigvals_rounded (mems (fst t)) (write (Fops lnR_rounded) wr) (snd t) true true) w)
                 (indexed (analytical_tasks (Fops lnR_rounded) scp format_six 2 8 0.015625%float)) in
  (exists s rs, Executor.steps tasks 2 (start [] false no_files) s /\ st_main s = Exited (Ok rs)) /\
  forall s rs, Executor.steps tasks 2 (start [] false no_files) s -> st_main s = Exited (Ok rs) -> exists time,
    forall i, (i < 2)%nat -> about (1 / 64) i (time i) /\ exists points f, 
      st_world s (output_path wr (append "ftle_" (format_six (time i)))) = Some (Whole (VtpFile points f)) /\ one_value ((1 / 8) / (7 / 64)) (/ 10) f.
Proof. exact saves_case. Qed.

(** C49, in binary64.  Any two tasks of AnalyticalSolver have different identifiers, hence different output files, when the
    time step is a little above 10^-6 and there are at most 2^36 fields, whatever the rounding of the multiples of the time
    step.  Missing: this is false of time steps below 5e-7 (C49_small_timestep_refuted). *)
Theorem C49_binary64_partial : forall lnF (scp : scipy PrimFloat.float) format count n hF h i j a b,
  six_decimals format -> (0 < n)%nat -> represents hF h -> 1001 / 1000000000 <= Rabs h <= 2 ^ 800 -> (count <= 2 ^ 36)%Z ->
  nth_error (analytical_tasks (Fops lnF) scp format count (Z.of_nat n) hF) i = Some a ->
  nth_error (analytical_tasks (Fops lnF) scp format count (Z.of_nat n) hF) j = Some b -> i <> j ->
  exists s t, src_id a = Ok s /\ src_id b = Ok t /\ s <> t.
Proof. exact names_apart. Qed.
Print Assumptions C49_binary64_partial.

(** Three fields at distance 1/64: the identifiers of the tasks are 0.000000, 0.015625 and 0.031250. *)
Example C49_binary64_case : forall (scp : scipy PrimFloat.float), six_decimals format_six /\ represents 0.015625%float (1 / 64) /\
  map src_id (analytical_tasks (Fops lnR_rounded) scp format_six 3 8 0.015625%float) = map Ok ["0.000000"; "0.015625"; "0.031250"]%string.
Proof. exact names_case. Qed.
