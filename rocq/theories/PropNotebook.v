(** Property C123: the seed recipes of the example notebooks (examples/01_Closed-form_velocity.ipynb, examples/01_Closed-form_velocity_helical.ipynb,
    examples/02_File-based_IO.ipynb) and the images that they show. *)
From Coq Require Import String Reals ZArith.
From Verif Require Import Base Num NdArray Particles Jacobian Integrate Interpolate DataSource Solver FileRun AnalyticalRun Writers Batches
  Monitor Executor Jobs SpecExecutor SpecSeeds SpecFtle SpecSolver SpecIntegrate SpecRounding SpecGridProgram SpecAnalyticalProgram
  Readers Notebook SpecNotebook NotebookFacts NotebookMain NotebookCases.
Local Open Scope R_scope.

(** C123.  The recipe in the plane makes one seed for each pair of central coordinates.  NeighboringParticles accepts the
    positions.  The seeds are in row-major order: the seed number [r * nx + c] is at (x_c, y_r), and the displacements between
    its neighbours are (2 s, 0) and (0, 2 s). *)
Theorem C123_seeds_2d : forall xs ys s, exists pos p, positions_2d Rops xs ys s = Ok pos /\ mk_particles Rops pos = Ok p /\
  particles_len p = (length ys * length xs)%nat /\
  forall r c x y, nth_error ys r = Some y -> nth_error xs c = Some x ->
    nth_error (mrows (initial_centroid p)) (r * length xs + c) = Some [x; y] /\
    nth_error (mrows (initial_delta_right_left p)) (r * length xs + c) = Some [2 * s; 0] /\
    nth_error (mrows (initial_delta_top_bottom p)) (r * length xs + c) = Some [0; 2 * s].
Proof. exact seeds_grid2. Qed.
Print Assumptions C123_seeds_2d.

(** The same in space; there the first coordinate varies slowest. *)
Theorem C123_seeds_3d : forall xs ys zs s, exists pos p, positions_3d Rops xs ys zs s = Ok pos /\ mk_particles Rops pos = Ok p /\
  particles_len p = (length xs * (length ys * length zs))%nat /\
  forall i j k x y z, nth_error xs i = Some x -> nth_error ys j = Some y -> nth_error zs k = Some z ->
    let e := (i * (length ys * length zs) + (j * length zs + k))%nat in
    nth_error (mrows (initial_centroid p)) e = Some [x; y; z] /\
    nth_error (mrows (initial_delta_right_left p)) e = Some [2 * s; 0; 0] /\
    nth_error (mrows (initial_delta_top_bottom p)) e = Some [0; 2 * s; 0] /\
    nth_error (mrows (initial_delta_front_back p)) e = Some [0; 0; 2 * s].
Proof. exact seeds_grid3. Qed.
Print Assumptions C123_seeds_3d.

(** For any arithmetic: the positions are the block of all left neighbours, then all right, top and bottom neighbours, each in
    row-major order of the central points. *)
Theorem C123_positions_2d : forall (T : Type) (O : ops T) xs ys s, positions_2d O xs ys s =
  Ok (layout2 (flat_map (fun y => map (fun x =>
        Group2 (o_sub O x s, o_sub O y (o_zero O)) (o_add O x s, o_add O y (o_zero O))
               (o_add O x (o_zero O), o_add O y s) (o_sub O x (o_zero O), o_sub O y s)) xs) ys)).
Proof. exact @positions_rows. Qed.
Print Assumptions C123_positions_2d.

Theorem C123_positions_3d : forall (T : Type) (O : ops T) xs ys zs s, positions_3d O xs ys zs s =
  Ok (layout3 (flat_map (fun x => flat_map (fun y => map (fun z =>
        Group3 (o_sub O x s, y, z) (o_add O x s, y, z) (x, o_add O y s, z) (x, o_sub O y s, z) (x, y, o_add O z s) (x, y, o_sub O z s)) zs) ys) xs)).
Proof. exact @positions_rows3. Qed.
Print Assumptions C123_positions_3d.

(** For any arithmetic: the particle file of the second notebook is read back as the particles that the first notebook makes in
    memory from the same coordinates. *)
Theorem C123_file_2d : forall (T : Type) (O : ops T) xs ys s, exists data pos p,
  particle_file_2d O xs ys s = Ok data /\ positions_2d O xs ys s = Ok pos /\
  read_seed_particles_coordinates O data = Ok p /\ mk_particles O pos = Ok p.
Proof. exact @file_memory. Qed.
Print Assumptions C123_file_2d.

(** Two columns and three rows of points: the positions. *)
Example C123_seeds_case : exists pos p, positions_2d Rops [10; 20] [1; 2; 3] 5 = Ok pos /\ nrows pos = 24%nat /\ mk_particles Rops pos = Ok p /\
  nth_error (mrows (initial_centroid p)) 3 = Some [20; 2].
Proof. exact seeds_case. Qed.

(** What the notebook shows.  AnalyticalSolver is given a velocity function that evaluates [v] (at the time 0, which is the only time
    it is asked for: C46), the seeds of the recipe, an integrator, a time step [h], a flow map period of [n - 1] time steps and
    a number of fields.  [phi] is what [n] steps of the integrator do to a point.  Then a run can end, and when it does,
    either it raises BrokenProcessPool because a worker process was killed, or it returns one row for each field.  The pixel
    [a, b] of such a row, reshaped as in the notebook, is the FTLE of the central difference gradient of [phi] at (x_b, y_a). *)
Theorem C123_image_2d : forall (scp : scipy R) format imems mems eigvals wr fn v m n h s xs ys phi pos p w count processes,
  (forall q, fn 0 q = Ok (Mat (mcols q) (map (on_rows2 v) (mrows q)))) ->
  (2 <= n)%nat -> h <> 0 -> s <> 0 -> (1 <= count)%Z -> (0 < processes)%Z ->
  (forall q, path Rops m (steps (fun _ => on_rows2 v) h n) (row2 q) = row2 (phi q)) ->
  positions_2d Rops xs ys s = Ok pos -> mk_particles Rops pos = Ok p ->
  analytical_start Rops scp fn p (method_name m) (WState (T := R) None no_files) = Ok w ->
  let tasks := map (fun t => job (fst t) (analytical_worker Rops scp (imems (fst t)) eigvals (mems (fst t)) (write Rops wr) (snd t) true false) w)
                 (indexed (analytical_tasks Rops scp format count (Z.of_nat n) h)) in
  forall q stop (fs : files R),
  (exists st rs, Executor.steps tasks processes (start q stop fs) st /\ st_main st = Exited (Ok rs)) /\
  forall st r, Executor.steps tasks processes (start q stop fs) st -> st_main st = Exited r ->
    (r = Err BrokenProcessPool /\ killed st) \/
    exists rows, length rows = Z.to_nat count /\
      ((count = 1)%Z -> exists f, rows = [f] /\ api_run false r = Ok (ReturnsField f)) /\
      ((2 <= count)%Z -> api_run false r = Ok (ReturnsStack rows)) /\
      forall f, In f rows -> exists img, image_2d xs ys f = Ok img /\ shape img = [length ys; length xs] /\
        forall a b x y, nth_error ys a = Some y -> nth_error xs b = Some x ->
          exists sg, spectral_norm_2 (central2 phi s x y) sg /\ nd_get img [a; b] = Ok (ftle_value sg ((INR n - 1) * Rabs h)).
Proof. exact notebook_image2. Qed.
Print Assumptions C123_image_2d.

(** The same in space, where [eigvals] computes eigenvalues. *)
Theorem C123_image_3d : forall (scp : scipy R) format imems mems eigvals wr fn v m n h s xs ys zs phi pos p w count processes,
  eigvals_ok eigvals ->
  (forall q, fn 0 q = Ok (Mat (mcols q) (map (on_rows3 v) (mrows q)))) ->
  (2 <= n)%nat -> h <> 0 -> s <> 0 -> (1 <= count)%Z -> (0 < processes)%Z ->
  (forall q, path Rops m (steps (fun _ => on_rows3 v) h n) (row3 q) = row3 (phi q)) ->
  positions_3d Rops xs ys zs s = Ok pos -> mk_particles Rops pos = Ok p ->
  analytical_start Rops scp fn p (method_name m) (WState (T := R) None no_files) = Ok w ->
  let tasks := map (fun t => job (fst t) (analytical_worker Rops scp (imems (fst t)) eigvals (mems (fst t)) (write Rops wr) (snd t) true false) w)
                 (indexed (analytical_tasks Rops scp format count (Z.of_nat n) h)) in
  forall q stop (fs : files R),
  (exists st rs, Executor.steps tasks processes (start q stop fs) st /\ st_main st = Exited (Ok rs)) /\
  forall st r, Executor.steps tasks processes (start q stop fs) st -> st_main st = Exited r ->
    (r = Err BrokenProcessPool /\ killed st) \/
    exists rows, length rows = Z.to_nat count /\
      ((count = 1)%Z -> exists f, rows = [f] /\ api_run false r = Ok (ReturnsField f)) /\
      ((2 <= count)%Z -> api_run false r = Ok (ReturnsStack rows)) /\
      forall f, In f rows -> exists img, image_3d xs ys zs f = Ok img /\ shape img = [length xs; length ys; length zs] /\
        forall a b c x y z, nth_error xs a = Some x -> nth_error ys b = Some y -> nth_error zs c = Some z ->
          exists sg, spectral_norm_3 (central3 phi s x y z) sg /\ nd_get img [a; b; c] = Ok (ftle_value sg ((INR n - 1) * Rabs h)).
Proof. exact notebook_image3. Qed.
Print Assumptions C123_image_3d.

(** The flow (x, y) -> (x y, -y) with two Euler steps of 1/2: the map of two steps, the gradient at (10, 2), the objects and the number of
    snapshots for a period of 1/2. *)
Example C123_image_case : forall scp : scipy R, exists phi pos p w,
  (forall q, path Rops MEuler (steps (fun _ => on_rows2 (fun q => (fst q * snd q, - snd q))) (1 / 2) 2) (row2 q) = row2 (phi q)) /\
  positions_2d Rops [10; 20; 30] [1; 2] (1 / 8) = Ok pos /\ mk_particles Rops pos = Ok p /\
  analytical_start Rops scp (fun _ q => Ok (Mat (mcols q) (map (on_rows2 (fun q => (fst q * snd q, - snd q))) (mrows q)))) p (method_name MEuler) (WState (T := R) None no_files) = Ok w /\
  window_length Rops (1 / 2) (1 / 2) = Ok 2%Z /\ central2 phi (1 / 8) 10 2 = M22 3 (25 / 2) 0 (1 / 4).
Proof. exact image_case. Qed.
