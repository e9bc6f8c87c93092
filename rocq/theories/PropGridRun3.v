(** Property C114: a whole task of the file workflow on gridded 3D data, in binary64 (src/pyftle/data_source.py, file_readers.py,
    interpolate.py, grid_interp/GridInterp.cpp, integrate.py, ftle_solver.py, cauchy_green.py, ftle.py, file_writers.py). *)
From Coq Require Import String Reals ZArith Floats.
From Verif Require Import Base Num NdArray Particles Jacobian Ftle Integrate GridInterp Interpolate Readers DataSource Solver FileRun SpecSeeds SpecInterp SpecFtle SpecGrid
  SpecFiles SpecIntegrate SpecOrder SpecConverge SpecFloat64 SpecAccuracy SpecEigen SpecFloatGrid SpecFloatJac SpecRounding SpecFloatRun SpecFloatRun3 SpecGridRun SpecGridRun3 FtleAccuracyMain
  FloatJac FloatEigenCases GridRunCases GridRunMain3 GridRunCases3.
Local Open Scope R_scope.

(** C114.  Velocity files sample a velocity field with gradient at most [L] at the nodes of a 3D grid, up to [eps]; coordinate
    files hold that grid; a particle file holds the six neighbours of the seeds; the interpolator is the compiled grid
    interpolator; the eigenvalue routine is backward stable ([accurate_eigvals], SpecEigen.v).  A task over these files in
    binary64 returns (or, with a writer, writes, beside the centres of the seeds and under the name of its first velocity
    file) for every seed the FTLE [ln s / ((n - 1) |h|)] of the flow of that velocity field, up to
    [(2^-34 + 12 E / (s a)) / ((n - 1) |h|)].  [E] bounds the error of the final positions: it adds the errors of the
    samples, of interpolating between the nodes, of rounding, and of the method.  [gridded3], [sampling_error3], [clear_in]:
    see SpecGridRun3.v; [tame_on_grid]: see SpecGridRun.v.  The grid must have as many lines in x as in y (for others the
    interpolator mixes nodes up, C32), and there must be two coordinate files with different names (C33, C83). *)
Theorem C114_flow : forall lnF (scp : scipy PrimFloat.float) imems (W : Type) eigvals mems
  (write : W -> string -> list (xval PrimFloat.float) -> mat PrimFloat.float -> W * res unit) fs name fn nx nz x0 x1 y0 y1 z0 z1 m B M eps L rho n h hF v t0,
  accurate_log lnF -> accurate_eigvals eigvals -> case_variant name "grid" -> (2 <= nx)%nat -> (2 <= nz)%nat ->
  (Z.of_nat nx <= INT_MAX)%Z -> (Z.of_nat nz <= INT_MAX)%Z -> (Z.of_nat nx * Z.of_nat nz <= INT_MAX)%Z ->
  sane_extent x0 x1 -> sane_extent y0 y1 -> sane_extent z0 z1 ->
  Rabs x0 <= B /\ Rabs x1 <= B -> Rabs y0 <= B /\ Rabs y1 <= B -> Rabs z0 <= B /\ Rabs z1 <= B ->
  forall delta, delta = sampling_error3 nx nz x0 x1 y0 y1 z0 z1 L M eps -> tame_on_grid m B M delta L rho n h -> represents hF h ->
  lipschitz_field 3 L v ->
  (forall t X Y Z, between t0 (t0 + INR n * h) t -> x0 <= X <= x1 -> y0 <= Y <= y1 -> z0 <= Z <= z1 -> sized M (v t [X; Y; Z])) ->
  forall first rest coordinates particle period src seeds gs Gs,
  mk_file_source (first :: rest) coordinates particle hF period = Ok src -> length (first :: rest) = n ->
  gridded3 fs nx nz x0 x1 y0 y1 z0 z1 M eps (fun k => v (t0 + INR k * h)) (first :: rest) coordinates ->
  (exists a b, In a coordinates /\ In b coordinates /\ a <> b) ->
  fs particle = Ok seeds -> holds_seeds3 gs seeds -> Forall2 seated3 gs Gs -> Forall spaced3 Gs -> Forall (clear_in rho x0 x1 y0 y1 z0 z1) Gs ->
  forall phi K J V E, 0 <= K -> 0 <= J -> 0 <= V -> E = rounding_bound n h delta B L + truncation m n h L K J V -> E <= 2 ^ 199 ->
  (forall G x, In G Gs -> In x (corners3 G) ->
     flow_along3 (regular m v t0 (t0 + INR n * h) K J V) v t0 (t0 + INR n * h) phi x) ->
  Forall (fun G => exists s, resolved3 E phi G s) Gs ->
  forall queue writer (w : world PrimFloat.float (istate scp) unit W),
  create_interpolator (Fops lnF) scp name (Some [nx; nx; nz]) fn = Ok (fst (w_interp w)) -> w_integrator w = fresh m ->
  exists xs,
    Forall2 (fun G x => exists s, spectral_norm_3 (gradient3 G (image3 phi G)) s /\ ftle_within3 E (side3 G) s ((INR n - 1) * Rabs h) x) Gs xs /\
    let r := file_worker (Fops lnF) scp imems eigvals mems write fs src queue writer w in
    (writer = false -> snd r = Ok (Some (map XVal xs))) /\
    (writer = true -> let rw := write (w_writer w) (append "ftle_" (Text.stem first)) (map XVal xs) (arr3 (map (mean3 (Fops lnF)) gs)) in
       w_writer (fst r) = fst rw /\ snd r = (let* _ := snd rw in Ok None)).
Proof. exact @grid_run_flow3. Qed.
Print Assumptions C114_flow.

(** Beside the images of the method in exact arithmetic, when the [k]-th file samples the velocity [v k]. *)
Theorem C114_exact_images : forall lnF (scp : scipy PrimFloat.float) imems (W : Type) eigvals mems
  (write : W -> string -> list (xval PrimFloat.float) -> mat PrimFloat.float -> W * res unit) fs name fn nx nz x0 x1 y0 y1 z0 z1 m B M eps L rho n h hF v,
  accurate_log lnF -> accurate_eigvals eigvals -> case_variant name "grid" -> (2 <= nx)%nat -> (2 <= nz)%nat ->
  (Z.of_nat nx <= INT_MAX)%Z -> (Z.of_nat nz <= INT_MAX)%Z -> (Z.of_nat nx * Z.of_nat nz <= INT_MAX)%Z ->
  sane_extent x0 x1 -> sane_extent y0 y1 -> sane_extent z0 z1 ->
  Rabs x0 <= B /\ Rabs x1 <= B -> Rabs y0 <= B /\ Rabs y1 <= B -> Rabs z0 <= B /\ Rabs z1 <= B ->
  forall delta, delta = sampling_error3 nx nz x0 x1 y0 y1 z0 z1 L M eps -> tame_on_grid m B M delta L rho n h -> represents hF h ->
  (forall k, lipschitz_field 3 L (fun _ => v k)) ->
  (forall k X Y Z, (k < n)%nat -> x0 <= X <= x1 -> y0 <= Y <= y1 -> z0 <= Z <= z1 -> sized M (v k [X; Y; Z])) ->
  forall first rest coordinates particle period src seeds gs Gs,
  mk_file_source (first :: rest) coordinates particle hF period = Ok src -> length (first :: rest) = n ->
  gridded3 fs nx nz x0 x1 y0 y1 z0 z1 M eps v (first :: rest) coordinates ->
  (exists a b, In a coordinates /\ In b coordinates /\ a <> b) ->
  fs particle = Ok seeds -> holds_seeds3 gs seeds -> Forall2 seated3 gs Gs -> Forall spaced3 Gs -> Forall (clear_in rho x0 x1 y0 y1 z0 z1) Gs ->
  forall phi, (forall G x, In G Gs -> In x (corners3 G) -> path Rops m (steps v h n) (row3 x) = row3 (phi x)) ->
  forall E, E = rounding_bound n h delta B L -> E <= 2 ^ 199 ->
  Forall (fun G => exists s, resolved3 E phi G s) Gs ->
  forall queue writer (w : world PrimFloat.float (istate scp) unit W),
  create_interpolator (Fops lnF) scp name (Some [nx; nx; nz]) fn = Ok (fst (w_interp w)) -> w_integrator w = fresh m ->
  exists xs,
    Forall2 (fun G x => exists s, spectral_norm_3 (gradient3 G (image3 phi G)) s /\ ftle_within3 E (side3 G) s ((INR n - 1) * Rabs h) x) Gs xs /\
    let r := file_worker (Fops lnF) scp imems eigvals mems write fs src queue writer w in
    (writer = false -> snd r = Ok (Some (map XVal xs))) /\
    (writer = true -> let rw := write (w_writer w) (append "ftle_" (Text.stem first)) (map XVal xs) (arr3 (map (mean3 (Fops lnF)) gs)) in
       w_writer (fst r) = fst rw /\ snd r = (let* _ := snd rw in Ok None)).
Proof. exact @grid_run_exact3. Qed.
Print Assumptions C114_exact_images.

(** A task that meets the hypotheses of [C114_flow], and what it gives: eight AB2 steps of 1/64 in the flow of
    (x, y, z) -> (y, x, z), sampled at 1025 x 1025 x 513 nodes of the cube [-2, 2]^3; one seed with neighbours at distance 1
    of the origin.  The flow stretches by exp (1/8). *)
Example C114_case_flow : forall scp imems mems write, mk_file_source snapshots coordinates "seeds.mat" 0.015625%float 8 = Ok case_source /\
  exists x r, snd (file_worker (Fops lnR_rounded) scp imems eigvals_rounded mems write files3 case_source false false (case_world3 scp)) = Ok (Some [XVal x]) /\
    represents x r /\ Rabs (r - (1 / 8) / (7 / 64)) <= 1 / 4.
Proof. exact grid_case3. Qed.

(** The same for [C114_exact_images], with a writer: two Euler steps of 1/16.  The gradient has norm (17/16)^2. *)
Example C114_case_exact : forall scp imems mems write, mk_file_source (firstn 2 snapshots) (firstn 2 coordinates) "seeds.mat" 0.0625%float 2 = Ok short_source /\
  exists x r, w_writer (fst (file_worker (Fops lnR_rounded) scp imems eigvals_rounded mems write files3 short_source false true (short_world3 scp)))
      = fst (write tt "ftle_v0" [XVal x] (arr3 [mean3 (Fops lnR_rounded) seed3_F]))%string /\
    represents x r /\ Rabs (r - ln (289 / 256) / (1 / 16)) <= 1 / 4.
Proof. exact short_case3. Qed.
