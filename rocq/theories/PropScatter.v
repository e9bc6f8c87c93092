(** Property C116: whole tasks of the file workflow on scattered 2D data, in binary64 (src/pyftle/data_source.py, file_readers.py,
    interpolate.py, integrate.py, ftle_solver.py, cauchy_green.py, ftle.py, file_writers.py). *)
From Coq Require Import String Reals ZArith Floats.
From Verif Require Import Base Num NdArray Particles Jacobian Ftle Integrate GridInterp Interpolate Readers DataSource Solver FileRun SpecSeeds SpecInterp SpecFtle SpecGrid
  SpecFiles SpecIntegrate SpecOrder SpecConverge SpecFloat64 SpecAccuracy SpecFloatGrid SpecFloatJac SpecRounding SpecFloatRun SpecGridRun SpecScatter FtleAccuracyMain
  FloatJac GridRunCases FloatRuns ScatterMain ScatterData ScatterCases.
Local Open Scope R_scope.

(** C116.  Velocity files hold velocities at points that coordinate files list in any order, and no grid shape is given: the
    interpolator is one of SciPy's for scattered points (cubic, linear or nearest).  In a region [D] of the plane, SciPy
    reproduces the velocity field [v] that was sampled up to [delta] ([scattered] in SpecScatter.v).  Then a task over these
    files in binary64 returns (or, with a writer, writes, beside the centres of the seeds and under the name of its first
    velocity file) for every seed the FTLE [ln s / ((n - 1) |h|)] of the flow of [v], up to
    [(2^-21 + 12 E / (s a)) / ((n - 1) |h|)].  [E] bounds the error of the final positions: it adds the errors of SciPy, of
    rounding and of the method.  The neighbours of the seeds must have the distance [rho] from the border of [D], so that no
    particle leaves [D].  All files may share one coordinate file. *)
Theorem C116_flow : forall lnF (scp : scipy PrimFloat.float) imems (W : Type) eigvals mems
  (write : W -> string -> list (xval PrimFloat.float) -> mat PrimFloat.float -> W * res unit) fs name fn k (D : R * R -> Prop) m B M delta L rho n h hF v t0,
  accurate_log lnF -> case_variant name (option_of k) -> bounded_by B D ->
  tame_on_grid m B M delta L rho n h -> represents hF h ->
  lipschitz_field 2 L v ->
  (forall t q, between t0 (t0 + INR n * h) t -> D q -> sized M (v t (row2 q))) ->
  forall first rest coordinates particle period src seeds gs Gs,
  mk_file_source (first :: rest) coordinates particle hF period = Ok src -> length (first :: rest) = n ->
  scattered fs scp k D delta (fun j => v (t0 + INR j * h)) (first :: rest) coordinates ->
  fs particle = Ok seeds -> holds_seeds gs seeds -> Forall2 seated2 gs Gs -> Forall spaced2 Gs ->
  Forall (fun G => Forall (clearance rho D) (corners2 G)) Gs ->
  forall phi K J V E, 0 <= K -> 0 <= J -> 0 <= V -> E = rounding_bound n h delta B L + truncation m n h L K J V -> E <= 2 ^ 199 ->
  (forall G x, In G Gs -> In x (corners2 G) ->
     flow_along (regular m v t0 (t0 + INR n * h) K J V) v t0 (t0 + INR n * h) phi x) ->
  Forall (fun G => exists s, resolved2 E phi G s) Gs ->
  forall queue writer (w : world PrimFloat.float (istate scp) unit W),
  create_interpolator (Fops lnF) scp name None fn = Ok (fst (w_interp w)) -> w_integrator w = fresh m ->
  exists xs,
    Forall2 (fun G x => exists s, spectral_norm_2 (gradient2 G (image2 phi G)) s /\ ftle_within E (side2 G) s ((INR n - 1) * Rabs h) x) Gs xs /\
    let r := file_worker (Fops lnF) scp imems eigvals mems write fs src queue writer w in
    (writer = false -> snd r = Ok (Some (map XVal xs))) /\
    (writer = true -> let rw := write (w_writer w) (append "ftle_" (Text.stem first)) (map XVal xs) (arr2 (map (mean2 (Fops lnF)) gs)) in
       w_writer (fst r) = fst rw /\ snd r = (let* _ := snd rw in Ok None)).
Proof. exact @scatter_run_flow. Qed.
Print Assumptions C116_flow.

(** Beside the images of the method in exact arithmetic, when the [j]-th file samples the velocity [v j]. *)
Theorem C116_exact_images : forall lnF (scp : scipy PrimFloat.float) imems (W : Type) eigvals mems
  (write : W -> string -> list (xval PrimFloat.float) -> mat PrimFloat.float -> W * res unit) fs name fn k (D : R * R -> Prop) m B M delta L rho n h hF v,
  accurate_log lnF -> case_variant name (option_of k) -> bounded_by B D ->
  tame_on_grid m B M delta L rho n h -> represents hF h ->
  (forall j, lipschitz_field 2 L (fun _ => v j)) ->
  (forall j q, (j < n)%nat -> D q -> sized M (v j (row2 q))) ->
  forall first rest coordinates particle period src seeds gs Gs,
  mk_file_source (first :: rest) coordinates particle hF period = Ok src -> length (first :: rest) = n ->
  scattered fs scp k D delta v (first :: rest) coordinates ->
  fs particle = Ok seeds -> holds_seeds gs seeds -> Forall2 seated2 gs Gs -> Forall spaced2 Gs ->
  Forall (fun G => Forall (clearance rho D) (corners2 G)) Gs ->
  forall phi, (forall G x, In G Gs -> In x (corners2 G) -> path Rops m (steps v h n) (row2 x) = row2 (phi x)) ->
  forall E, E = rounding_bound n h delta B L -> E <= 2 ^ 199 ->
  Forall (fun G => exists s, resolved2 E phi G s) Gs ->
  forall queue writer (w : world PrimFloat.float (istate scp) unit W),
  create_interpolator (Fops lnF) scp name None fn = Ok (fst (w_interp w)) -> w_integrator w = fresh m ->
  exists xs,
    Forall2 (fun G x => exists s, spectral_norm_2 (gradient2 G (image2 phi G)) s /\ ftle_within E (side2 G) s ((INR n - 1) * Rabs h) x) Gs xs /\
    let r := file_worker (Fops lnF) scp imems eigvals mems write fs src queue writer w in
    (writer = false -> snd r = Ok (Some (map XVal xs))) /\
    (writer = true -> let rw := write (w_writer w) (append "ftle_" (Text.stem first)) (map XVal xs) (arr2 (map (mean2 (Fops lnF)) gs)) in
       w_writer (fst r) = fst rw /\ snd r = (let* _ := snd rw in Ok None)).
Proof. exact @scatter_run_exact. Qed.
Print Assumptions C116_exact_images.

(** If SciPy finds nearest neighbours ([accurate_nearest] in SpecScatter.v) and every point of [D] has a sample no farther than
    [r], then nearest-neighbour interpolation is accurate to about [eps + L r]: [eps] is the error of the samples and [L] the
    velocity gradient. *)
Theorem C116_nearest : forall fs scp (D : R * R -> Prop) delta L r eps v velocities coordinates, accurate_nearest scp -> 0 <= L -> 0 <= r ->
  (forall j, (j < length velocities)%nat -> lipschitz_field 2 L (fun _ => v j)) -> (forall q, D q -> moderate q) -> (exists q, D q) ->
  eps + L * ((1 + / 2 ^ 40) * r + / 2 ^ 500) <= delta ->
  sampled_at fs r eps D v velocities coordinates ->
  scattered fs scp ByNearest D delta v velocities coordinates.
Proof. exact nearest_scattered. Qed.
Print Assumptions C116_nearest.

(** Any of the three is accurate to [eps + L r + eta] if its answers are, up to [eta], weighted means of samples no farther than
    [r]: in linear interpolation these are the corners of a triangle around the query. *)
Theorem C116_means : forall fs scp k D delta L r eps eta v velocities coordinates, 0 <= L -> 0 <= r ->
  (forall j, (j < length velocities)%nat -> lipschitz_field 2 L (fun _ => v j)) -> eps + L * r + eta <= delta ->
  files_hold fs (fun j points values => exists Ps Vs answer, samples_of (v j) eps Ps Vs /\
     built_by scp k points values answer /\ evaluates D answer (mean_around r eta Ps Vs)) velocities coordinates ->
  scattered fs scp k D delta v velocities coordinates.
Proof. exact means_scattered. Qed.
Print Assumptions C116_means.

(** A task that meets the hypotheses of [C116_flow], and what it gives: eight AB2 steps of 1/64 in the saddle flow
    (x, y) -> (y, x), known at 1025 x 1025 points of [-2, 2] x [-2, 2]; eight velocity files share one coordinate file; one seed
    with neighbours (+-1, 0), (0, +-1).  The flow stretches by exp (1/8). *)
Example C116_case_flow : forall imems eigvals mems write, mk_file_source snapshots one_file "seeds.mat" 0.015625%float 8 = Ok scatter_source /\
  exists x r, snd (file_worker (Fops lnR_rounded) exact_scipy imems eigvals mems write files scatter_source false false scatter_world) = Ok (Some [XVal x]) /\
    represents x r /\ Rabs (r - (1 / 8) / (7 / 64)) <= 1 / 7.
Proof. exact scatter_case. Qed.

(** The same for [C116_exact_images], with a writer: two Euler steps of 1/16.  The gradient has norm (17/16)^2. *)
Example C116_case_exact : forall imems eigvals mems write, mk_file_source (firstn 2 snapshots) (firstn 2 one_file) "seeds.mat" 0.0625%float 2 = Ok two_source /\
  exists x r, w_writer (fst (file_worker (Fops lnR_rounded) exact_scipy imems eigvals mems write files two_source false true two_world))
      = fst (write tt "ftle_v0" [XVal x] (arr2 [mean2 (Fops lnR_rounded) seed_F]))%string /\
    represents x r /\ Rabs (r - ln (289 / 256) / (1 / 16)) <= 1 / 8.
Proof. exact two_case. Qed.

(** The hypotheses of [C116_nearest] and [C116_means] in these tasks: a nearest neighbour is a mean with one weight. *)
Example C116_case_nearest : accurate_nearest exact_scipy /\ sampled_at files (/ 360) 0 square (fun _ => saddle) snapshots one_file /\
  0 + 1 * ((1 + / 2 ^ 40) * / 360 + / 2 ^ 500) <= case_delta.
Proof. exact nearest_case. Qed.
Example C116_case_means : files_hold files (fun j points values => exists Ps Vs answer, samples_of saddle 0 Ps Vs /\
     built_by exact_scipy ByNearest points values answer /\ evaluates square answer (mean_around ((1 + / 2 ^ 40) * / 360 + / 2 ^ 500) 0 Ps Vs)) snapshots one_file.
Proof. exact means_case. Qed.
