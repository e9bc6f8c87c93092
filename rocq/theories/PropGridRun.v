(** Property C111: a whole task of the file workflow on gridded 2D data, in binary64 (src/pyftle/data_source.py, file_readers.py,
    interpolate.py, grid_interp/GridInterp.cpp, integrate.py, ftle_solver.py, cauchy_green.py, ftle.py, file_writers.py). *)
From Coq Require Import String Reals ZArith Floats.
From Verif Require Import Base Num NdArray Particles Jacobian Ftle Integrate GridInterp Interpolate Readers DataSource Solver FileRun SpecSeeds SpecInterp SpecFtle SpecGrid
  SpecFiles SpecIntegrate SpecOrder SpecConverge SpecFloat64 SpecAccuracy SpecFloatGrid SpecFloatJac SpecRounding SpecFloatRun SpecGridRun FtleAccuracyMain
  FloatJac GridRunMain GridRunCases.
Local Open Scope R_scope.

(** C111.  Velocity files sample a velocity field with gradient at most [L] at the nodes of a grid, up to [eps]; coordinate
    files hold that grid; a particle file holds the neighbours of the seeds; the interpolator is the compiled grid
    interpolator.  A task over these files in binary64 returns (or, with a writer, writes, beside the centres of the seeds
    and under the name of its first velocity file) for every seed the FTLE [ln s / ((n - 1) |h|)] of the flow of that
    velocity field, up to [(2^-21 + 12 E / (s a)) / ((n - 1) |h|)].  [E] bounds the error of the final positions: it adds
    the errors of the samples, of interpolating between the nodes, of rounding, and of the method.  [gridded],
    [sampling_error], [clear_of], [tame_on_grid]: see SpecGridRun.v.  There must be two coordinate files with different
    names: with one file for all steps the grid interpolator fails (C33, C83). *)
Theorem C111_flow : forall lnF (scp : scipy PrimFloat.float) imems (W : Type) eigvals mems
  (write : W -> string -> list (xval PrimFloat.float) -> mat PrimFloat.float -> W * res unit) fs name fn nx ny x0 x1 y0 y1 m B M eps L rho n h hF v t0,
  accurate_log lnF -> case_variant name "grid" -> (2 <= nx)%nat -> (2 <= ny)%nat ->
  (Z.of_nat nx <= INT_MAX)%Z -> (Z.of_nat ny <= INT_MAX)%Z -> sane_extent x0 x1 -> sane_extent y0 y1 ->
  Rabs x0 <= B /\ Rabs x1 <= B -> Rabs y0 <= B /\ Rabs y1 <= B ->
  forall delta, delta = sampling_error nx ny x0 x1 y0 y1 L M eps -> tame_on_grid m B M delta L rho n h -> represents hF h ->
  lipschitz_field 2 L v ->
  (forall t X Y, between t0 (t0 + INR n * h) t -> x0 <= X <= x1 -> y0 <= Y <= y1 -> sized M (v t [X; Y])) ->
  forall first rest coordinates particle period src seeds gs Gs,
  mk_file_source (first :: rest) coordinates particle hF period = Ok src -> length (first :: rest) = n ->
  gridded fs nx ny x0 x1 y0 y1 M eps (fun k => v (t0 + INR k * h)) (first :: rest) coordinates ->
  (exists a b, In a coordinates /\ In b coordinates /\ a <> b) ->
  fs particle = Ok seeds -> holds_seeds gs seeds -> Forall2 seated2 gs Gs -> Forall spaced2 Gs ->
  Forall (fun G => Forall (fun x => clear_of rho x0 x1 (fst x) /\ clear_of rho y0 y1 (snd x)) (corners2 G)) Gs ->
  forall phi K J V E, 0 <= K -> 0 <= J -> 0 <= V -> E = rounding_bound n h delta B L + truncation m n h L K J V -> E <= 2 ^ 199 ->
  (forall G x, In G Gs -> In x (corners2 G) ->
     flow_along (regular m v t0 (t0 + INR n * h) K J V) v t0 (t0 + INR n * h) phi x) ->
  Forall (fun G => exists s, resolved2 E phi G s) Gs ->
  forall queue writer (w : world PrimFloat.float (istate scp) unit W),
  create_interpolator (Fops lnF) scp name (Some [nx; ny]) fn = Ok (fst (w_interp w)) -> w_integrator w = fresh m ->
  exists xs,
    Forall2 (fun G x => exists s, spectral_norm_2 (gradient2 G (image2 phi G)) s /\ ftle_within E (side2 G) s ((INR n - 1) * Rabs h) x) Gs xs /\
    let r := file_worker (Fops lnF) scp imems eigvals mems write fs src queue writer w in
    (writer = false -> snd r = Ok (Some (map XVal xs))) /\
    (writer = true -> let rw := write (w_writer w) (append "ftle_" (Text.stem first)) (map XVal xs) (arr2 (map (mean2 (Fops lnF)) gs)) in
       w_writer (fst r) = fst rw /\ snd r = (let* _ := snd rw in Ok None)).
Proof. exact @grid_run_flow. Qed.
Print Assumptions C111_flow.

(** Beside the images of the method in exact arithmetic, when the [k]-th file samples the velocity [v k]. *)
Theorem C111_exact_images : forall lnF (scp : scipy PrimFloat.float) imems (W : Type) eigvals mems
  (write : W -> string -> list (xval PrimFloat.float) -> mat PrimFloat.float -> W * res unit) fs name fn nx ny x0 x1 y0 y1 m B M eps L rho n h hF v,
  accurate_log lnF -> case_variant name "grid" -> (2 <= nx)%nat -> (2 <= ny)%nat ->
  (Z.of_nat nx <= INT_MAX)%Z -> (Z.of_nat ny <= INT_MAX)%Z -> sane_extent x0 x1 -> sane_extent y0 y1 ->
  Rabs x0 <= B /\ Rabs x1 <= B -> Rabs y0 <= B /\ Rabs y1 <= B ->
  forall delta, delta = sampling_error nx ny x0 x1 y0 y1 L M eps -> tame_on_grid m B M delta L rho n h -> represents hF h ->
  (forall k, lipschitz_field 2 L (fun _ => v k)) ->
  (forall k X Y, (k < n)%nat -> x0 <= X <= x1 -> y0 <= Y <= y1 -> sized M (v k [X; Y])) ->
  forall first rest coordinates particle period src seeds gs Gs,
  mk_file_source (first :: rest) coordinates particle hF period = Ok src -> length (first :: rest) = n ->
  gridded fs nx ny x0 x1 y0 y1 M eps v (first :: rest) coordinates ->
  (exists a b, In a coordinates /\ In b coordinates /\ a <> b) ->
  fs particle = Ok seeds -> holds_seeds gs seeds -> Forall2 seated2 gs Gs -> Forall spaced2 Gs ->
  Forall (fun G => Forall (fun x => clear_of rho x0 x1 (fst x) /\ clear_of rho y0 y1 (snd x)) (corners2 G)) Gs ->
  forall phi, (forall G x, In G Gs -> In x (corners2 G) -> path Rops m (steps v h n) (row2 x) = row2 (phi x)) ->
  forall E, E = rounding_bound n h delta B L -> E <= 2 ^ 199 ->
  Forall (fun G => exists s, resolved2 E phi G s) Gs ->
  forall queue writer (w : world PrimFloat.float (istate scp) unit W),
  create_interpolator (Fops lnF) scp name (Some [nx; ny]) fn = Ok (fst (w_interp w)) -> w_integrator w = fresh m ->
  exists xs,
    Forall2 (fun G x => exists s, spectral_norm_2 (gradient2 G (image2 phi G)) s /\ ftle_within E (side2 G) s ((INR n - 1) * Rabs h) x) Gs xs /\
    let r := file_worker (Fops lnF) scp imems eigvals mems write fs src queue writer w in
    (writer = false -> snd r = Ok (Some (map XVal xs))) /\
    (writer = true -> let rw := write (w_writer w) (append "ftle_" (Text.stem first)) (map XVal xs) (arr2 (map (mean2 (Fops lnF)) gs)) in
       w_writer (fst r) = fst rw /\ snd r = (let* _ := snd rw in Ok None)).
Proof. exact @grid_run_exact. Qed.
Print Assumptions C111_exact_images.

(** A task that meets the hypotheses of [C111_flow], and what it gives: eight AB2 steps of 1/64 in the saddle flow
    (x, y) -> (y, x), sampled at 1025 x 1025 nodes of [-2, 2] x [-2, 2]; one seed with neighbours (+-1, 0), (0, +-1).  The
    flow stretches by exp (1/8). *)
Example C111_case_flow : forall scp imems eigvals mems write, mk_file_source snapshots coordinates "seeds.mat" 0.015625%float 8 = Ok case_source /\
  exists x r, snd (file_worker (Fops lnR_rounded) scp imems eigvals mems write files case_source false false (case_world scp)) = Ok (Some [XVal x]) /\
    represents x r /\ Rabs (r - (1 / 8) / (7 / 64)) <= 1 / 7.
Proof. exact grid_case. Qed.

(** The same for [C111_exact_images], with a writer: two Euler steps of 1/16.  The gradient has norm (17/16)^2. *)
Example C111_case_exact : forall scp imems eigvals mems write, mk_file_source (firstn 2 snapshots) (firstn 2 coordinates) "seeds.mat" 0.0625%float 2 = Ok short_source /\
  exists x r, w_writer (fst (file_worker (Fops lnR_rounded) scp imems eigvals mems write files short_source false true (short_world scp)))
      = fst (write tt "ftle_v0" [XVal x] (arr2 [mean2 (Fops lnR_rounded) seed_F]))%string /\
    represents x r /\ Rabs (r - ln (289 / 256) / (1 / 16)) <= 1 / 8.
Proof. exact short_case. Qed.
