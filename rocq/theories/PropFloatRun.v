(** Property C109: the FTLE of a whole 2D run in binary64 (src/pyftle/ftle_solver.py, integrate.py, cauchy_green.py, ftle.py). *)
From Coq Require Import String Reals Floats.
From Verif Require Import Base Num Particles Jacobian Ftle Integrate DataSource Solver SpecFtle SpecSeeds SpecIntegrate SpecSolver SpecOrder
  SpecFloat64 SpecAccuracy SpecFloatGrid SpecConverge SpecFloatJac SpecRounding SpecFloatRun FtleAccuracyMain FloatFtleRun FloatFtleCases.
Local Open Scope R_scope.

(** C109.  A run in binary64 returns, for every seed, the FTLE [ln s / ((n - 1) |h|)] of the exact-arithmetic images of its
    neighbours up to [(2^-21 + 12 E / (s a)) / ((n - 1) |h|)]: [E] is the accumulated rounding error of the positions
    (C108), [a] the distance of the neighbours, [s] the norm of their central differences.  [evaluates]: the velocities
    are accurate to [delta]; [tame], [resolved2]: see SpecFloatRun.v. *)
Theorem C109_exact_images : forall lnF (S P W : Type) (intF : S -> mat PrimFloat.float -> S * res (mat PrimFloat.float)) eigvals mems
  (write : W -> string -> list (xval PrimFloat.float) -> mat PrimFloat.float -> W * res unit) IF, samples_field intF IF ->
  forall m B B0 M delta L n h hF f v, accurate_log lnF -> tame m B B0 M delta L n h -> represents hF h ->
  (forall k, (k < n)%nat -> evaluates 2 B delta (f k) (v k) /\ speed 2 B M (v k) /\ lipschitz_field 2 L (fun _ => v k)) ->
  (forall k x, length x = 2%nat -> length (f k x) = 2%nat) ->
  forall gs Gs, Forall2 seated2 gs Gs -> Forall spaced2 Gs -> Forall (within2 B0) Gs ->
  forall phi, (forall G x, In G Gs -> In x (corners2 G) -> path Rops m (steps v h n) (row2 x) = row2 (phi x)) ->
  forall E, E = rounding_bound n h delta B L -> E <= 2 ^ 199 -> Forall (fun G => exists s, resolved2 E phi G s) Gs ->
  forall (sv : solver PrimFloat.float S P) (w : world PrimFloat.float S P W) w0 id,
  presents_fields IF (s_source sv) f -> IF w0 (w_interp w) ->
  w_integrator w = fresh m -> s_writer sv = false -> src_id (s_source sv) = Ok id ->
  src_particles (s_source sv) (w_source w) = mk_particles (Fops lnF) (layout2 gs) ->
  src_steps (s_source sv) = n -> src_timestep (s_source sv) = hF ->
  exists xs, snd (run (Fops lnF) intF eigvals mems write sv w) = Ok (Some (map XVal xs)) /\
    Forall2 (fun G x => exists s, spectral_norm_2 (gradient2 G (image2 phi G)) s /\ ftle_within E (side2 G) s ((INR n - 1) * Rabs h) x) Gs xs.
Proof. exact @run_exact_F2. Qed.
Print Assumptions C109_exact_images.

(** Beside the flow of the velocity field [v]: [E] is the rounding error plus the error of the method. *)
Theorem C109_flow : forall lnF (S P W : Type) (intF : S -> mat PrimFloat.float -> S * res (mat PrimFloat.float)) eigvals mems
  (write : W -> string -> list (xval PrimFloat.float) -> mat PrimFloat.float -> W * res unit) IF, samples_field intF IF ->
  forall m B B0 M delta L n h hF f v t0, accurate_log lnF -> tame m B B0 M delta L n h -> represents hF h ->
  lipschitz_field 2 L v ->
  (forall k, (k < n)%nat -> evaluates 2 B delta (f k) (v (t0 + INR k * h)) /\ speed 2 B M (v (t0 + INR k * h))) ->
  (forall k x, length x = 2%nat -> length (f k x) = 2%nat) ->
  forall gs Gs, Forall2 seated2 gs Gs -> Forall spaced2 Gs -> Forall (within2 B0) Gs ->
  forall phi K J V E, 0 <= K -> 0 <= J -> 0 <= V -> E = rounding_bound n h delta B L + truncation m n h L K J V -> E <= 2 ^ 199 ->
  (forall G x, In G Gs -> In x (corners2 G) ->
     flow_along (regular m v t0 (t0 + INR n * h) K J V) v t0 (t0 + INR n * h) phi x) ->
  Forall (fun G => exists s, resolved2 E phi G s) Gs ->
  forall (sv : solver PrimFloat.float S P) (w : world PrimFloat.float S P W) w0 id,
  presents_fields IF (s_source sv) f -> IF w0 (w_interp w) ->
  w_integrator w = fresh m -> s_writer sv = false -> src_id (s_source sv) = Ok id ->
  src_particles (s_source sv) (w_source w) = mk_particles (Fops lnF) (layout2 gs) ->
  src_steps (s_source sv) = n -> src_timestep (s_source sv) = hF ->
  exists xs, snd (run (Fops lnF) intF eigvals mems write sv w) = Ok (Some (map XVal xs)) /\
    Forall2 (fun G x => exists s, spectral_norm_2 (gradient2 G (image2 phi G)) s /\ ftle_within E (side2 G) s ((INR n - 1) * Rabs h) x) Gs xs.
Proof. exact @run_flow_F2. Qed.
Print Assumptions C109_flow.

(** A run that meets the hypotheses of [C109_exact_images], and what it gives: two Euler steps of 1/16 in the saddle flow
    (x, y) -> (y, x), one seed with neighbours (+-1, 0), (0, +-1).  The gradient has norm (17/16)^2. *)
Example C109_case_exact : forall eigvals mems write,
  exists x r, snd (run (Fops lnR_rounded) holds eigvals mems write (saddle_solver lnR_rounded 0.0625%float 2) (saddle_world MEuler))
      = Ok (Some [XVal x]) /\ represents x r /\ Rabs (r - ln (289 / 256) / (1 / 16)) <= / 2 ^ 16.
Proof. exact exact_case. Qed.

(** The same for [C109_flow]: eight AB2 steps of 1/64.  The flow stretches by exp (1/8). *)
Example C109_case_flow : forall eigvals mems write,
  exists x r, snd (run (Fops lnR_rounded) holds eigvals mems write (saddle_solver lnR_rounded 0.015625%float 8) (saddle_world MAB2))
      = Ok (Some [XVal x]) /\ represents x r /\ Rabs (r - (1 / 8) / (7 / 64)) <= / 20.
Proof. exact flow_case. Qed.
