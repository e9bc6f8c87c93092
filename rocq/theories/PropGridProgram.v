(** Property C112: whole runs of the command line program on gridded 2D data, in binary64 (src/pyftle/__main__.py with all its
    parts). *)
From Coq Require Import String Reals ZArith Floats.
From Verif Require Import Base Num NdArray Text Particles Jacobian Ftle Integrate GridInterp Interpolate Readers DataSource Solver FileRun Writers Batches FileUtils
  Hyper Manager Monitor Executor ManagerRun Jobs Decorators Program SpecExecutor SpecWriters SpecProgram SpecSeeds SpecInterp SpecFtle SpecGrid
  SpecFiles SpecIntegrate SpecOrder SpecConverge SpecFloat64 SpecAccuracy SpecFloatGrid SpecFloatJac SpecRounding SpecFloatRun SpecGridRun SpecGridProgram
  FtleAccuracyMain GridProgramMain GridProgramCases.
Local Open Scope R_scope.

(** C112.  The program is given three lists of files, a time step [h], a flow map period of [n - 1] time steps, an integrator,
    the compiled grid interpolator and one of the two output formats.  In the order of the run (reversed when [h] is negative) the
    k-th velocity file samples the velocity field [v] at time [t0 + k h]; the coordinate files hold the grid; the particle
    files hold seeds away from its border.  Then a run ends without an exception.  It reports a failure only if a worker
    process was killed.  Otherwise for each window of [n] velocity files there is an output file, named after the first
    of them, with the seeds of the matching particle file and for each seed the FTLE [ln s / ((n - 1) |h|)] of the flow
    of [v] from the start of the window, up to [(2^-21 + 12 E / (s a)) / ((n - 1) |h|)] (C111); no other file is changed.
    And there is such a run. *)
Theorem C112_program : forall lnF (scp : scipy PrimFloat.float) parse_float imems mems eigvals texts inputs c a,
  accurate_log lnF -> parse_args parse_float c = Ok a ->
  forall m hF h n nx ny vs cs ps fmt,
  integrator_name a = Some (method_name m) -> interpolator_name a = Some "grid"%string ->
  flow_grid_shape a = Some [Z.of_nat nx; Z.of_nat ny] -> output_format a = Some fmt -> (fmt = "mat" \/ fmt = "vtk")%string -> (0 < num_processes a)%Z ->
  Manager.snapshot_timestep a = hF -> represents hF h -> represents (flow_map_period a) ((INR n - 1) * Rabs h) ->
  listed texts (list_velocity_files a) vs -> listed texts (list_coordinate_files a) cs -> listed texts (list_particle_files a) ps ->
  (n <= length vs)%nat -> NoDup (map stem vs) -> NoDup cs -> (2 <= length cs)%nat -> ps <> [] ->
  forall x0 x1 y0 y1 B M eps L rho v t0,
  (2 <= nx)%nat -> (2 <= ny)%nat -> (Z.of_nat nx <= INT_MAX)%Z -> (Z.of_nat ny <= INT_MAX)%Z -> sane_extent x0 x1 -> sane_extent y0 y1 ->
  Rabs x0 <= B /\ Rabs x1 <= B -> Rabs y0 <= B /\ Rabs y1 <= B ->
  forall delta, delta = sampling_error nx ny x0 x1 y0 y1 L M eps -> tame_on_grid m B M delta L rho n h ->
  lipschitz_field 2 L v ->
  (forall t X Y, between t0 (t0 + INR (length vs) * h) t -> x0 <= X <= x1 -> y0 <= Y <= y1 -> sized M (v t [X; Y])) ->
  series inputs nx ny x0 x1 y0 y1 M eps v t0 h (run_order h vs) cs ->
  forall gs Gs, (forall p, In p ps -> seeded inputs x0 x1 y0 y1 rho p (gs p) (Gs p)) ->
  (forall p, In p ps -> fits (particles_grid_shape a) (length (Gs p))) ->
  forall phi K J V E, 0 <= K -> 0 <= J -> 0 <= V -> E = rounding_bound n h delta B L + truncation m n h L K J V -> E <= 2 ^ 199 ->
  (forall i p, (i + n <= length vs)%nat -> nth_error (run_order h ps) (i mod length ps) = Some p ->
     let t := t0 + INR i * h in
     (forall G x, In G (Gs p) -> In x (corners2 G) -> flow_along (regular m v t (t + INR n * h) K J V) v t (t + INR n * h) (phi i) x) /\
     Forall (fun G => exists s, resolved2 E (phi i) G s) (Gs p)) ->
  forall fs, settled_files fs ->
  (exists fs', main_ends (Fops lnF) scp parse_float imems mems eigvals texts inputs c fs (false, Ok tt) fs') /\
  forall b r fs', main_ends (Fops lnF) scp parse_float imems mems eigvals texts inputs c fs (b, r) fs' ->
  r = Ok tt /\
  (b = true -> exists mg ts s, manager_init (Fops lnF) scp texts a = Ok mg /\ manager_batches (Fops lnF) scp mg = Ok ts /\
     Executor.steps (map (manager_task (Fops lnF) scp imems mems eigvals inputs mg) (indexed ts)) (num_processes a) (start [] false fs) s /\ killed s) /\
  (b = false ->
     (forall i f p, (i + n <= length vs)%nat -> nth_error (run_order h vs) i = Some f -> nth_error (run_order h ps) (i mod length ps) = Some p ->
        exists xs x,
          Forall2 (fun G x => exists s, spectral_norm_2 (gradient2 G (image2 (phi i) G)) s /\ ftle_within E (side2 G) s ((INR n - 1) * Rabs h) x) (Gs p) xs /\
          fs' (result_file (experiment_name a) fmt (particles_grid_shape a) f) = Some (Whole x) /\
          field_file (Fops lnF) fmt (particles_grid_shape a) (length (Gs p)) (map XVal xs) (arr2 (map (mean2 (Fops lnF)) (gs p))) x) /\
     (forall q, (forall i f, (i + n <= length vs)%nat -> nth_error (run_order h vs) i = Some f -> q <> result_file (experiment_name a) fmt (particles_grid_shape a) f) -> fs' q = fs q)).
Proof. exact @grid_program. Qed.
Print Assumptions C112_program.

(** A command line, files and a flow that meet the hypotheses, and what the run leaves: nine snapshots of the saddle flow
    (x, y) -> (y, x) on 1025 x 1025 nodes, windows of eight, AB2 steps of 1/64.  [shows]: the file holds the FTLE.
    (The option 1,1,1 for the seeds is read as the grid shape (1, 1), C80.) *)
Example C112_case : forall scp imems mems eigvals,
  let ends command := main_ends (Fops lnR_rounded) scp read_number imems mems eigvals input_lists input_files command no_files in
  ((exists fs, ends (grid_command "mat" None) (false, Ok tt) fs) /\ forall fs, ends (grid_command "mat" None) (false, Ok tt) fs ->
    shows fs "outputs/run/ftle_v0.mat" ((1 / 8) / (7 / 64)) (1 / 7) /\ shows fs "outputs/run/ftle_v1.mat" ((1 / 8) / (7 / 64)) (1 / 7)) /\
  ((exists fs, ends (grid_command "vtk" (Some "1,1,1")) (false, Ok tt) fs) /\ forall fs, ends (grid_command "vtk" (Some "1,1,1")) (false, Ok tt) fs ->
    shows fs "outputs/run/ftle_v0.vts" ((1 / 8) / (7 / 64)) (1 / 7) /\ shows fs "outputs/run/ftle_v1.vts" ((1 / 8) / (7 / 64)) (1 / 7)).
Proof. exact program_case. Qed.
