(** Property C115: whole runs of the command line program on gridded 3D data, in binary64 (src/pyftle/__main__.py with all its
    parts). *)
From Coq Require Import String Reals ZArith Floats.
From Verif Require Import Base Num NdArray Text Particles Jacobian Ftle Integrate GridInterp Interpolate Readers DataSource Solver FileRun Writers Batches FileUtils
  Hyper Manager Monitor Executor ManagerRun Jobs Decorators Program SpecExecutor SpecWriters SpecProgram SpecSeeds SpecInterp SpecFtle SpecGrid
  SpecFiles SpecIntegrate SpecOrder SpecConverge SpecFloat64 SpecAccuracy SpecEigen SpecFloatGrid SpecFloatJac SpecRounding SpecFloatRun SpecFloatRun3 SpecGridRun SpecGridRun3
  SpecGridProgram SpecGridProgram3 FtleAccuracyMain FloatEigenCases GridProgramCases GridProgramMain3 GridProgramCases3.
Local Open Scope R_scope.

(** C115.  As C112, for 3D data: the option for the flow grid is (nx, nx, nz) (other grids are mixed up by the interpolator,
    C32), the seeds have six neighbours, and the eigenvalue routine is backward stable ([accurate_eigvals]).  A run ends
    without an exception, reports a failure only if a worker process was killed, and otherwise leaves for each window of
    [n] velocity files an output file with the seeds of the matching particle file and for each seed the FTLE of the flow of
    [v] from the start of the window, up to [(2^-34 + 12 E / (s a)) / ((n - 1) |h|)] (C114); no other file is changed.  And
    there is such a run.  [field_file3] says where the values are in the file; for structured VTK files this is not
    where their seeds are (C74). *)
Theorem C115_program : forall lnF (scp : scipy PrimFloat.float) parse_float imems mems eigvals texts inputs c a,
  accurate_log lnF -> accurate_eigvals eigvals -> parse_args parse_float c = Ok a ->
  forall m hF h n nx nz vs cs ps fmt,
  integrator_name a = Some (method_name m) -> interpolator_name a = Some "grid"%string ->
  flow_grid_shape a = Some [Z.of_nat nx; Z.of_nat nx; Z.of_nat nz] -> output_format a = Some fmt -> (fmt = "mat" \/ fmt = "vtk")%string -> (0 < num_processes a)%Z ->
  Manager.snapshot_timestep a = hF -> represents hF h -> represents (flow_map_period a) ((INR n - 1) * Rabs h) ->
  listed texts (list_velocity_files a) vs -> listed texts (list_coordinate_files a) cs -> listed texts (list_particle_files a) ps ->
  (n <= length vs)%nat -> NoDup (map stem vs) -> NoDup cs -> (2 <= length cs)%nat -> ps <> [] ->
  forall x0 x1 y0 y1 z0 z1 B M eps L rho v t0,
  (2 <= nx)%nat -> (2 <= nz)%nat -> (Z.of_nat nx <= INT_MAX)%Z -> (Z.of_nat nz <= INT_MAX)%Z -> (Z.of_nat nx * Z.of_nat nz <= INT_MAX)%Z ->
  sane_extent x0 x1 -> sane_extent y0 y1 -> sane_extent z0 z1 ->
  Rabs x0 <= B /\ Rabs x1 <= B -> Rabs y0 <= B /\ Rabs y1 <= B -> Rabs z0 <= B /\ Rabs z1 <= B ->
  forall delta, delta = sampling_error3 nx nz x0 x1 y0 y1 z0 z1 L M eps -> tame_on_grid m B M delta L rho n h ->
  lipschitz_field 3 L v ->
  (forall t X Y Z, between t0 (t0 + INR (length vs) * h) t -> x0 <= X <= x1 -> y0 <= Y <= y1 -> z0 <= Z <= z1 -> sized M (v t [X; Y; Z])) ->
  series3 inputs nx nz x0 x1 y0 y1 z0 z1 M eps v t0 h (run_order h vs) cs ->
  forall gs Gs, (forall p, In p ps -> seeded3 inputs x0 x1 y0 y1 z0 z1 rho p (gs p) (Gs p)) ->
  (forall p, In p ps -> fits3 (particles_grid_shape a) (length (Gs p))) ->
  forall phi K J V E, 0 <= K -> 0 <= J -> 0 <= V -> E = rounding_bound n h delta B L + truncation m n h L K J V -> E <= 2 ^ 199 ->
  (forall i p, (i + n <= length vs)%nat -> nth_error (run_order h ps) (i mod length ps) = Some p ->
     let t := t0 + INR i * h in
     (forall G x, In G (Gs p) -> In x (corners3 G) -> flow_along3 (regular m v t (t + INR n * h) K J V) v t (t + INR n * h) (phi i) x) /\
     Forall (fun G => exists s, resolved3 E (phi i) G s) (Gs p)) ->
  forall fs, settled_files fs ->
  (exists fs', main_ends (Fops lnF) scp parse_float imems mems eigvals texts inputs c fs (false, Ok tt) fs') /\
  forall b r fs', main_ends (Fops lnF) scp parse_float imems mems eigvals texts inputs c fs (b, r) fs' ->
  r = Ok tt /\
  (b = true -> exists mg ts s, manager_init (Fops lnF) scp texts a = Ok mg /\ manager_batches (Fops lnF) scp mg = Ok ts /\
     Executor.steps (map (manager_task (Fops lnF) scp imems mems eigvals inputs mg) (indexed ts)) (num_processes a) (start [] false fs) s /\ killed s) /\
  (b = false ->
     (forall i f p, (i + n <= length vs)%nat -> nth_error (run_order h vs) i = Some f -> nth_error (run_order h ps) (i mod length ps) = Some p ->
        exists xs x,
          Forall2 (fun G x => exists s, spectral_norm_3 (gradient3 G (image3 (phi i) G)) s /\ ftle_within3 E (side3 G) s ((INR n - 1) * Rabs h) x) (Gs p) xs /\
          fs' (result_file (experiment_name a) fmt (particles_grid_shape a) f) = Some (Whole x) /\
          field_file3 (Fops lnF) fmt (particles_grid_shape a) (length (Gs p)) (map XVal xs) (arr3 (map (mean3 (Fops lnF)) (gs p))) x) /\
     (forall q, (forall i f, (i + n <= length vs)%nat -> nth_error (run_order h vs) i = Some f -> q <> result_file (experiment_name a) fmt (particles_grid_shape a) f) -> fs' q = fs q)).
Proof. exact @grid_program3. Qed.
Print Assumptions C115_program.

(** Command lines, files and a flow that meet the hypotheses, and what the runs leave: nine snapshots of the flow
    (x, y, z) -> (y, x, z) on 1025 x 1025 x 513 nodes, windows of eight, AB2 steps of 1/64, two seeds, with and without the
    option for a grid of seeds.  [shows_pair]: the file holds the FTLE of both. *)
Example C115_case : forall scp imems mems,
  let ends command := main_ends (Fops lnR_rounded) scp read_number imems mems eigvals_rounded input_lists input_files3 command no_files in
  let good fmt seeds ext := (exists fs, ends (grid_command3 fmt seeds) (false, Ok tt) fs) /\ forall fs, ends (grid_command3 fmt seeds) (false, Ok tt) fs ->
    shows_pair fs (append "outputs/run/ftle_v0" ext) ((1 / 8) / (7 / 64)) (1 / 4) /\ shows_pair fs (append "outputs/run/ftle_v1" ext) ((1 / 8) / (7 / 64)) (1 / 4) in
  good "mat"%string None ".mat"%string /\ good "mat"%string (Some "1,1,2"%string) ".mat"%string /\
  good "vtk"%string None ".vtp"%string /\ good "vtk"%string (Some "1,1,2"%string) ".vts"%string.
Proof. exact program_case3. Qed.
