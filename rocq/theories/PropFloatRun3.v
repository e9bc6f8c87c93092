(** Property C110: the 3D FTLE in binary64 (src/pyftle/ftle.py, cauchy_green.py, ftle_solver.py, integrate.py). *)
From Coq Require Import String Reals Floats.
From Verif Require Import Base Num Particles Jacobian Ftle Integrate DataSource Solver SpecFtle SpecSeeds SpecIntegrate SpecSolver SpecOrder
  SpecFloat64 SpecAccuracy SpecFloatGrid SpecConverge SpecFloatJac SpecRounding SpecFloatRun SpecEigen SpecFloatRun3
  FtleAccuracyMain FloatFtleCases FloatJac FloatEigen FloatFtleRun3 FloatEigenCases.
Local Open Scope R_scope.

(** C110, the formula.  For every batch of 3x3 matrices the routine returns finite numbers within [2^-36 / |T|] of the FTLE
    [ln s / T], [s] being the spectral norm; no gap between the singular values is needed.  The logarithm and the
    eigenvalue routine of the library are assumed accurate (SpecAccuracy.v, SpecEigen.v). *)
Theorem C110_ftle_3x3 : forall lnF eigvals Fs Gs T tau, accurate_log lnF -> accurate_eigvals eigvals ->
  represents T tau -> / 2 ^ 200 <= Rabs tau <= 2 ^ 200 -> Forall2 stands_for3 Fs Gs -> Forall moderate3 Gs ->
  exists vs, compute_ftle_3x3 (Fops lnF) eigvals Fs T = Ok (map XVal vs) /\
    Forall2 (fun G v => exists s r, spectral_norm_3 G s /\ represents v r /\ Rabs (r - ln s / tau) <= / 2 ^ 36 / Rabs tau) Gs vs.
Proof. exact accurate_values3. Qed.
Print Assumptions C110_ftle_3x3.

(** With the Jacobian: the FTLE of the exact central differences of the given binary64 positions. *)
Theorem C110_jacobian_ftle : forall lnF eigvals gs gs' Gs Gs' p T tau, accurate_log lnF -> accurate_eigvals eigvals -> represents T tau -> ordinary tau ->
  mk_particles (Fops lnF) (layout3 gs) = Ok p -> length gs' = length gs ->
  Forall2 seated3 gs Gs -> Forall2 seated3 gs' Gs' -> Forall spaced3 Gs -> Forall bounded3 Gs' ->
  Forall well_scaled3 (gradients3 Gs Gs') ->
  exists Fs vs, compute_flow_map_jacobian_3x3 (Fops lnF) (set_positions p (layout3 gs')) = Ok Fs /\
    compute_ftle_3x3 (Fops lnF) eigvals Fs T = Ok (map XVal vs) /\
    Forall2 (fun Q v => exists s r, spectral_norm_3 Q s /\ represents v r /\ Rabs (r - ln s / tau) <= / 2 ^ 35 / Rabs tau)
      (gradients3 Gs Gs') vs.
Proof. exact ftle_F3. Qed.
Print Assumptions C110_jacobian_ftle.

(** Whole runs, beside the exact-arithmetic images of the neighbours (the 3D counterpart of C109_exact_images). *)
Theorem C110_exact_images : forall lnF (S P W : Type) (intF : S -> mat PrimFloat.float -> S * res (mat PrimFloat.float)) eigvals mems
  (write : W -> string -> list (xval PrimFloat.float) -> mat PrimFloat.float -> W * res unit) IF, samples_field intF IF ->
  forall m B B0 M delta L n h hF f v, accurate_log lnF -> accurate_eigvals eigvals -> tame m B B0 M delta L n h -> represents hF h ->
  (forall k, (k < n)%nat -> evaluates 3 B delta (f k) (v k) /\ speed 3 B M (v k) /\ lipschitz_field 3 L (fun _ => v k)) ->
  (forall k x, length x = 3%nat -> length (f k x) = 3%nat) ->
  forall gs Gs, Forall2 seated3 gs Gs -> Forall spaced3 Gs -> Forall (within3 B0) Gs ->
  forall phi, (forall G x, In G Gs -> In x (corners3 G) -> path Rops m (steps v h n) (row3 x) = row3 (phi x)) ->
  forall E, E = rounding_bound n h delta B L -> E <= 2 ^ 199 -> Forall (fun G => exists s, resolved3 E phi G s) Gs ->
  forall (sv : solver PrimFloat.float S P) (w : world PrimFloat.float S P W) w0 id,
  presents_fields IF (s_source sv) f -> IF w0 (w_interp w) ->
  w_integrator w = fresh m -> s_writer sv = false -> src_id (s_source sv) = Ok id ->
  src_particles (s_source sv) (w_source w) = mk_particles (Fops lnF) (layout3 gs) ->
  src_steps (s_source sv) = n -> src_timestep (s_source sv) = hF ->
  exists xs, snd (run (Fops lnF) intF eigvals mems write sv w) = Ok (Some (map XVal xs)) /\
    Forall2 (fun G x => exists s, spectral_norm_3 (gradient3 G (image3 phi G)) s /\ ftle_within3 E (side3 G) s ((INR n - 1) * Rabs h) x) Gs xs.
Proof. exact @run_exact_F3. Qed.
Print Assumptions C110_exact_images.

(** Whole runs, beside the flow of the velocity field (the 3D counterpart of C109_flow). *)
Theorem C110_flow : forall lnF (S P W : Type) (intF : S -> mat PrimFloat.float -> S * res (mat PrimFloat.float)) eigvals mems
  (write : W -> string -> list (xval PrimFloat.float) -> mat PrimFloat.float -> W * res unit) IF, samples_field intF IF ->
  forall m B B0 M delta L n h hF f v t0, accurate_log lnF -> accurate_eigvals eigvals -> tame m B B0 M delta L n h -> represents hF h ->
  lipschitz_field 3 L v ->
  (forall k, (k < n)%nat -> evaluates 3 B delta (f k) (v (t0 + INR k * h)) /\ speed 3 B M (v (t0 + INR k * h))) ->
  (forall k x, length x = 3%nat -> length (f k x) = 3%nat) ->
  forall gs Gs, Forall2 seated3 gs Gs -> Forall spaced3 Gs -> Forall (within3 B0) Gs ->
  forall phi K J V E, 0 <= K -> 0 <= J -> 0 <= V -> E = rounding_bound n h delta B L + truncation m n h L K J V -> E <= 2 ^ 199 ->
  (forall G x, In G Gs -> In x (corners3 G) ->
     flow_along3 (regular m v t0 (t0 + INR n * h) K J V) v t0 (t0 + INR n * h) phi x) ->
  Forall (fun G => exists s, resolved3 E phi G s) Gs ->
  forall (sv : solver PrimFloat.float S P) (w : world PrimFloat.float S P W) w0 id,
  presents_fields IF (s_source sv) f -> IF w0 (w_interp w) ->
  w_integrator w = fresh m -> s_writer sv = false -> src_id (s_source sv) = Ok id ->
  src_particles (s_source sv) (w_source w) = mk_particles (Fops lnF) (layout3 gs) ->
  src_steps (s_source sv) = n -> src_timestep (s_source sv) = hF ->
  exists xs, snd (run (Fops lnF) intF eigvals mems write sv w) = Ok (Some (map XVal xs)) /\
    Forall2 (fun G x => exists s, spectral_norm_3 (gradient3 G (image3 phi G)) s /\ ftle_within3 E (side3 G) s ((INR n - 1) * Rabs h) x) Gs xs.
Proof. exact @run_flow_F3. Qed.
Print Assumptions C110_flow.

(** An eigenvalue routine that meets the assumption: the exact eigenvalues, rounded to the nearest binary64 number. *)
Example C110_oracle : accurate_eigvals eigvals_rounded.
Proof. exact eigvals_rounded_accurate. Qed.

(** The matrix diag(2, 1, 1/2). *)
Example C110_case_matrix : stands_for3 diag3_F diag3_R /\ moderate3 diag3_R /\ spectral_norm_3 diag3_R 2.
Proof. exact diag3_case. Qed.

(** A run: two Euler steps of 1/16 in the flow (x, y, z) -> (y, x, z), one seed with neighbours one unit away.  The
    gradient has norm (17/16)^2, which is a double singular value. *)
Example C110_case_exact : forall mems write,
  exists x r, snd (run (Fops lnR_rounded) holds eigvals_rounded mems write (swirl_solver lnR_rounded 0.0625%float 2) (swirl_world MEuler))
      = Ok (Some [XVal x]) /\ represents x r /\ Rabs (r - ln (289 / 256) / (1 / 16)) <= / 2 ^ 29.
Proof. exact exact_case3. Qed.

(** Eight AB2 steps of 1/64.  The flow stretches by exp (1/8). *)
Example C110_case_flow : forall mems write,
  exists x r, snd (run (Fops lnR_rounded) holds eigvals_rounded mems write (swirl_solver lnR_rounded 0.015625%float 8) (swirl_world MAB2))
      = Ok (Some [XVal x]) /\ represents x r /\ Rabs (r - (1 / 8) / (7 / 64)) <= / 10.
Proof. exact flow_case3. Qed.
