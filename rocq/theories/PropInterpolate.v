(** Properties C27-C40, C86-C88: src/pyftle/interpolate.py, src/pyftle/grid_interp/. *)
From Coq Require Import Reals Lra Lia Sorted.
From Verif Require Import Base Num NdArray Integrate GridInterp Interpolate SpecSeeds SpecGrid SpecKernel
  SpecIntegrate SpecInterp GridInterpFacts GridPlace ScipyFacts Faithful StructMain InterpMain.
Local Open Scope R_scope.

(** C27.  The result [Ok vals] means that no read was out of bounds and no int overflowed; one
    value is written for each entry of [out]. *)
Theorem C27_kernel_2d_memory_safe : forall (T : Type) (O : ops T) (v : nd T) sx sy pts out,
  shape v = [sx; sy] -> wf_nd v -> length out = length pts ->
  Forall (fun p => c_fits O (fst p) /\ c_fits O (snd p)) pts ->
  exists vals, interp2d_vec_inplace O v (Mat 2 (map (fun p => [fst p; snd p]) pts)) out = Ok vals /\
    length vals = length out.
Proof. exact @kernel2_safe. Qed.
Print Assumptions C27_kernel_2d_memory_safe.

(** Missing: 3-D grids whose last two extents do not fit an int together. *)
Theorem C27_kernel_3d_memory_safe_partial : forall (T : Type) (O : ops T) (v : nd T) sx sy sz pts out,
  shape v = [sx; sy; sz] -> wf_nd v -> length out = length pts ->
  (Z.of_nat sy <= INT_MAX)%Z -> (Z.of_nat sz <= INT_MAX)%Z -> (Z.of_nat sy * Z.of_nat sz <= INT_MAX)%Z ->
  Forall (fun p => c_fits O (fst (fst p)) /\ c_fits O (snd (fst p)) /\ c_fits O (snd p)) pts ->
  exists vals, interp3d_vec_inplace O v
      (Mat 3 (map (fun p => [fst (fst p); snd (fst p); snd p]) pts)) out = Ok vals /\
    length vals = length out.
Proof. exact @kernel3_safe. Qed.
Print Assumptions C27_kernel_3d_memory_safe_partial.

(** A 1 x 65536 x 32768 grid queried at its first node. *)
Theorem C27_kernel_3d_overflow_refuted : forall (T : Type) (O : ops T),
  exists (v : nd T) (x : T), wf_nd v /\
    (forall z, o_floor O (o_zero O) = Some z -> z = 0%Z -> c_fits O (Some (o_zero O))) /\
    interp3d_vec_inplace O v (Mat 3 [[Some (o_zero O); Some (o_zero O); Some (o_zero O)]]) [x] = Err UndefinedBehaviour.
Proof. exact @kernel3_refuted. Qed.
Print Assumptions C27_kernel_3d_overflow_refuted.

(** The condition on the coordinates is necessary. *)
Theorem C27_unfit_coordinates : forall (T : Type) (O : ops T) (v : nd T) sx sy px py out,
  shape v = [sx; sy] -> length out = 1%nat -> ~ c_fits O px \/ ~ c_fits O py ->
  interp2d_vec_inplace O v (Mat 2 [[px; py]]) out = Err UndefinedBehaviour.
Proof. exact @kernel2_unfit. Qed.
Print Assumptions C27_unfit_coordinates.

(** Arrays of other shapes are refused before anything is read. *)
Theorem C27_shapes_2d : forall (T : Type) (O : ops T) (v : nd T) points out,
  length (shape v) <> 2%nat \/ mcols points <> 2%nat \/ length out <> length (mrows points) ->
  interp2d_vec_inplace O v points out = Err RuntimeError.
Proof. exact @kernel2_shapes. Qed.
Print Assumptions C27_shapes_2d.

Theorem C27_shapes_3d : forall (T : Type) (O : ops T) (v : nd T) points out,
  length (shape v) <> 3%nat \/ mcols points <> 3%nat \/ length out <> length (mrows points) ->
  interp3d_vec_inplace O v points out = Err RuntimeError.
Proof. exact @kernel3_shapes. Qed.
Print Assumptions C27_shapes_3d.

Example C27_shapes_case : mcols (q3 [(1, 1, 1)]) <> 2%nat /\ length (shape (Nd [2; 2; 2]%nat [1; 1; 1; 1; 1; 1; 1; 1])) <> 2%nat.
Proof. split; discriminate. Qed.

(** The point (1/2, -7) is in range. *)
Example C27_case : Forall (fun p => c_fits Rops (fst p) /\ c_fits Rops (snd p)) [(Some (IZR 3), Some (IZR (-7)))].
Proof.
  constructor; [|constructor]. cbn. split.
  - exists (IZR 3), 3%Z. split; [reflexivity|]. split; [|unfold INT_MIN, INT_MAX; lia].
    cbn. f_equal. unfold Int_part. rewrite <- (tech_up (IZR 3) 4); [reflexivity|lra|lra].
  - exists (IZR (-7)), (-7)%Z. split; [reflexivity|]. split; [|unfold INT_MIN, INT_MAX; lia].
    cbn. f_equal. unfold Int_part. rewrite <- (tech_up (IZR (-7)) (-6)); [reflexivity|lra|lra].
Qed.

(** C28.  [sampled2], [sampled3] (SpecGrid): inside, the multilinear interpolant and between the
    corner values; at a node below the last lines, the sample. *)
Theorem C28_bilinear : forall v sx sy V pts out,
  shape v = [sx; sy] -> (Z.of_nat sx <= INT_MAX)%Z -> (Z.of_nat sy <= INT_MAX)%Z ->
  (forall i j, (i < sx)%nat -> (j < sy)%nat -> nd_get v [i; j] = Ok (V i j)) ->
  length out = length pts -> Forall fits2 pts ->
  exists vals, interp2d_vec_inplace Rops v (q2 pts) out = Ok vals /\ Forall2 (sampled2 sx sy V) pts vals.
Proof. exact kernel2_sampled. Qed.
Print Assumptions C28_bilinear.

Theorem C28_trilinear : forall v sx sy sz V pts out,
  shape v = [sx; sy; sz] -> (Z.of_nat sx <= INT_MAX)%Z -> (Z.of_nat sy <= INT_MAX)%Z ->
  (Z.of_nat sz <= INT_MAX)%Z -> (Z.of_nat sy * Z.of_nat sz <= INT_MAX)%Z ->
  (forall i j k, (i < sx)%nat -> (j < sy)%nat -> (k < sz)%nat -> nd_get v [i; j; k] = Ok (V i j k)) ->
  length out = length pts -> Forall fits3 pts ->
  exists vals, interp3d_vec_inplace Rops v (q3 pts) out = Ok vals /\ Forall2 (sampled3 sx sy sz V) pts vals.
Proof. exact kernel3_sampled. Qed.
Print Assumptions C28_trilinear.

(** Such interpolants exist for any lattice data, so the statements are not vacuous. *)
Example C28_case : forall (V : nat -> nat -> R) i j, exists f, multilinear2 f /\
  forall di dj, (di <= 1)%nat -> (dj <= 1)%nat -> f (INR (i + di)) (INR (j + dj)) = V (i + di)%nat (j + dj)%nat.
Proof. intros V i j. exact (multilinear2_exists V i j). Qed.

(** C29. *)
Theorem C29_zero_outside_2d : forall v sx sy V pts out,
  shape v = [sx; sy] -> (Z.of_nat sx <= INT_MAX)%Z -> (Z.of_nat sy <= INT_MAX)%Z ->
  (forall i j, (i < sx)%nat -> (j < sy)%nat -> nd_get v [i; j] = Ok (V i j)) ->
  length out = length pts -> Forall fits2 pts ->
  exists vals, interp2d_vec_inplace Rops v (q2 pts) out = Ok vals /\
    Forall2 (fun p val => outside sx (fst p) \/ outside sy (snd p) -> val = 0) pts vals.
Proof. exact outside2. Qed.
Print Assumptions C29_zero_outside_2d.

Theorem C29_zero_outside_3d : forall v sx sy sz V pts out,
  shape v = [sx; sy; sz] -> (Z.of_nat sx <= INT_MAX)%Z -> (Z.of_nat sy <= INT_MAX)%Z ->
  (Z.of_nat sz <= INT_MAX)%Z -> (Z.of_nat sy * Z.of_nat sz <= INT_MAX)%Z ->
  (forall i j k, (i < sx)%nat -> (j < sy)%nat -> (k < sz)%nat -> nd_get v [i; j; k] = Ok (V i j k)) ->
  length out = length pts -> Forall fits3 pts ->
  exists vals, interp3d_vec_inplace Rops v (q3 pts) out = Ok vals /\
    Forall2 (fun p val => outside sx (fst (fst p)) \/ outside sy (snd (fst p)) \/ outside sz (snd p) -> val = 0) pts vals.
Proof. exact outside3. Qed.
Print Assumptions C29_zero_outside_3d.

Example C29_case : Forall fits2 [(-1, 5 / 2); (1, 7)] /\ outside 3 (-1) /\ outside 3 7.
Proof. unfold fits2, fits, outside. cbn. repeat (constructor; cbn; try lra). Qed.

(** C30 is false: on the last lines the answer is 0, whatever the samples. *)
Theorem C30_last_line_refuted : exists (v : nd R) i j,
  wf_nd v /\ shape v = [2; 2]%nat /\ in_bounds (shape v) [i; j] = true /\
  exists val got, nd_get v [i; j] = Ok val /\
    interp2d_vec_inplace Rops v (q2 [(INR i, INR j)]) [0] = Ok [got] /\ got <> val.
Proof. exact last_line_refuted. Qed.
Print Assumptions C30_last_line_refuted.

Theorem C30_last_lines_are_zero : forall v sx sy i j, (1 <= sx)%nat -> (1 <= sy)%nat ->
  shape v = [sx; sy] -> (Z.of_nat sx <= INT_MAX)%Z -> (Z.of_nat sy <= INT_MAX)%Z ->
  (i < sx)%nat -> (j < sy)%nat -> i = (sx - 1)%nat \/ j = (sy - 1)%nat ->
  interp2d_vec_inplace Rops v (q2 [(INR i, INR j)]) [0] = Ok [0].
Proof. exact last_line_2d. Qed.
Print Assumptions C30_last_lines_are_zero.
Example C30_case : interp2d_vec_inplace Rops (Nd [2; 3]%nat [5; 5; 5; 5; 5; 5]) (q2 [(INR 1, INR 2)]) [0] = Ok [0].
Proof. apply (C30_last_lines_are_zero (Nd [2; 3]%nat [5; 5; 5; 5; 5; 5]) 2 3 1 2); auto; unfold INT_MAX; lia. Qed.

(** C31.  [field2 nx ny U W] : both components sampled; [lattice2 nx u] : node (i, j) carries
    sample i + nx * j. *)
Theorem C31_grid_2d : forall nx ny x0 y0 dx dy, (2 <= nx)%nat -> (2 <= ny)%nat -> 0 < dx -> 0 < dy ->
  (Z.of_nat nx <= INT_MAX)%Z -> (Z.of_nat ny <= INT_MAX)%Z ->
  forall (scp : scipy R) name fn u w, case_variant name "grid" ->
  exists i0 i1,
    create_interpolator Rops scp name (Some [nx; ny]) fn = Ok i0 /\
    update Rops scp i0 (samples2 (nx * ny) u w) (Some (grid_points2 nx ny x0 y0 dx dy)) = (i1, Ok tt) /\
    forall mem pts, Forall (fun p => fits2 (index2 x0 y0 dx dy p)) pts ->
    exists i2 out, interpolate Rops scp mem i1 (arr2 pts) = (i2, Ok (arr2 out)) /\
      Forall2 (fun p v => field2 nx ny (lattice2 nx u) (lattice2 nx w) (index2 x0 y0 dx dy p) v) pts out.
Proof. exact grid2d. Qed.
Print Assumptions C31_grid_2d.

Example C31_case : case_variant "GRID" "grid" /\ fits2 (index2 0 0 (1 / 2) 2 (3 / 4, 1)).
Proof.
  split; [cbn; repeat split; right; cbn; lia|]. unfold fits2, fits, index2. cbn. lra.
Qed.

(** C32 holds for nx = ny only. *)
Theorem C32_grid_3d_partial : forall n nz x0 y0 z0 dx dy dz,
  (2 <= n)%nat -> (2 <= n)%nat -> (2 <= nz)%nat -> 0 < dx -> 0 < dy -> 0 < dz ->
  (Z.of_nat n <= INT_MAX)%Z -> (Z.of_nat n <= INT_MAX)%Z -> (Z.of_nat nz <= INT_MAX)%Z -> (Z.of_nat n * Z.of_nat nz <= INT_MAX)%Z ->
  forall (scp : scipy R) name fn u w t, case_variant name "grid" ->
  exists i0 i1,
    create_interpolator Rops scp name (Some [n; n; nz]) fn = Ok i0 /\
    update Rops scp i0 (samples3 (n * n * nz) u w t) (Some (grid_points3 n n nz x0 y0 z0 dx dy dz)) = (i1, Ok tt) /\
    forall mem pts, Forall (fun p => fits3 (index3 x0 y0 z0 dx dy dz p)) pts ->
    exists i2 out, interpolate Rops scp mem i1 (arr3 pts) = (i2, Ok (arr3 out)) /\
      Forall2 (fun p v => field3 n n nz (lattice3 n nz u) (lattice3 n nz w) (lattice3 n nz t)
                            (index3 x0 y0 z0 dx dy dz p) v) pts out.
Proof. exact (fun n => grid3d n n). Qed.
Print Assumptions C32_grid_3d_partial.
Example C32_case : forall (scp : scipy R) fn u w t, exists i0 i1,
  create_interpolator Rops scp "Grid" (Some [4; 4; 5]%nat) fn = Ok i0 /\
  update Rops scp i0 (samples3 (4 * 4 * 5) u w t) (Some (grid_points3 4 4 5 0 1 2 (1 / 2) 1 3)) = (i1, Ok tt).
Proof.
  intros scp fn u w t. destruct (C32_grid_3d_partial 4 5 0 1 2 (1 / 2) 1 3 ltac:(lia) ltac:(lia) ltac:(lia) ltac:(lra) ltac:(lra) ltac:(lra) ltac:(unfold INT_MAX; lia) ltac:(unfold INT_MAX; lia)
    ltac:(unfold INT_MAX; lia) ltac:(unfold INT_MAX; lia) scp "Grid"%string fn u w t) as (i0 & i1 & H0 & H1 & _); [|exists i0, i1; split; assumption].
  cbn; repeat split; (left; reflexivity) || (right; cbn; lia).
Qed.

(** For every other grid the constant field 1 is answered with 0 at some inner node. *)
Theorem C32_grid_3d_refuted : forall nx ny nz x0 y0 z0 dx dy dz,
  (2 <= nx)%nat -> (2 <= ny)%nat -> (2 <= nz)%nat -> 0 < dx -> 0 < dy -> 0 < dz ->
  (Z.of_nat nx <= INT_MAX)%Z -> (Z.of_nat ny <= INT_MAX)%Z -> (Z.of_nat nz <= INT_MAX)%Z -> (Z.of_nat nx * Z.of_nat nz <= INT_MAX)%Z ->
  forall (scp : scipy R) name fn, case_variant name "grid" -> nx <> ny ->
  exists i0 i1 i j,
    create_interpolator Rops scp name (Some [nx; ny; nz]) fn = Ok i0 /\
    update Rops scp i0 (samples3 (nx * ny * nz) (fun _ => 1) (fun _ => 1) (fun _ => 1))
      (Some (grid_points3 nx ny nz x0 y0 z0 dx dy dz)) = (i1, Ok tt) /\
    (i + 1 < nx)%nat /\ (j + 1 < ny)%nat /\
    forall mem, exists i2, interpolate Rops scp mem i1 (arr3 [(x0 + INR i * dx, y0 + INR j * dy, z0)]) =
      (i2, Ok (arr3 [(0, 0, 0)])).
Proof. exact grid3d_wrong. Qed.
Print Assumptions C32_grid_3d_refuted.

(** C33 is false: after a velocity-only update every query fails. *)
Theorem C33_velocity_only_2d_refuted : forall (scp : scipy R) nx ny x0 y0 dx dy name fn u w u' w',
  case_variant name "grid" -> (2 <= nx)%nat -> (2 <= ny)%nat -> 0 < dx -> 0 < dy ->
  exists i0 i1 i2,
    create_interpolator Rops scp name (Some [nx; ny]) fn = Ok i0 /\
    update Rops scp i0 (samples2 (nx * ny) u w) (Some (grid_points2 nx ny x0 y0 dx dy)) = (i1, Ok tt) /\
    update Rops scp i1 (samples2 (nx * ny) u' w') None = (i2, Ok tt) /\
    forall mem pts, snd (interpolate Rops scp mem i2 (arr2 pts)) = Err RuntimeError.
Proof. exact only2_broken. Qed.
Print Assumptions C33_velocity_only_2d_refuted.

Theorem C33_velocity_only_3d_refuted : forall (scp : scipy R) nx ny nz x0 y0 z0 dx dy dz name fn u w t u' w' t',
  case_variant name "grid" -> (2 <= nx)%nat -> (2 <= ny)%nat -> (2 <= nz)%nat -> 0 < dx -> 0 < dy -> 0 < dz ->
  exists i0 i1 i2,
    create_interpolator Rops scp name (Some [nx; ny; nz]) fn = Ok i0 /\
    update Rops scp i0 (samples3 (nx * ny * nz) u w t) (Some (grid_points3 nx ny nz x0 y0 z0 dx dy dz)) = (i1, Ok tt) /\
    update Rops scp i1 (samples3 (nx * ny * nz) u' w' t') None = (i2, Ok tt) /\
    forall mem pts, snd (interpolate Rops scp mem i2 (arr3 pts)) = Err RuntimeError.
Proof. exact only3_broken. Qed.
Print Assumptions C33_velocity_only_3d_refuted.

(** C34 in 3-D: velocity-only and full updates give the same answers. *)
Theorem C34_structured_velocity_only_3d_partial : forall (T : Type) (O : ops T) (scp : scipy T)
    name method nx ny nz fn i i1 i2 v1 v2 p, structured_name name method ->
  create_interpolator O scp name (Some [nx; ny; nz]) fn = Ok i ->
  nrows p = 3%nat -> wf_mat v2 -> nrows v2 = 3%nat ->
  update O scp i v1 (Some p) = (i1, Ok tt) -> update O scp i v2 (Some p) = (i2, Ok tt) ->
  exists i1', update O scp i1 v2 None = (i1', Ok tt) /\
    (evaluates_current scp method ->
     forall mem q, snd (interpolate O scp mem i1' q) = snd (interpolate O scp mem i2 q)).
Proof. exact @struct3_only. Qed.
Print Assumptions C34_structured_velocity_only_3d_partial.

(** C34 is false in 2-D: updating with the velocities the interpolator already holds changes the
    answer at the node (0, 1) from 1 to nx. *)
Theorem C34_structured_velocity_only_2d_refuted : forall (scp : scipy R) name method m nx ny x0 y0 dx dy fn,
  structured_name name method -> reproduces_nodes scp method m -> evaluates_current scp method ->
  (2 <= nx)%nat -> (2 <= ny)%nat -> (m <= nx)%nat -> (m <= ny)%nat -> 0 < dx -> 0 < dy ->
  exists i0 (u : nat -> R) i1 i1' i2, let v := samples2 (nx * ny) u u in let p := grid_points2 nx ny x0 y0 dx dy in
    create_interpolator Rops scp name (Some [nx; ny]) fn = Ok i0 /\
    update Rops scp i0 v (Some p) = (i1, Ok tt) /\
    update Rops scp i1 v None = (i1', Ok tt) /\
    update Rops scp i1 v (Some p) = (i2, Ok tt) /\
    forall mem,
      snd (interpolate Rops scp mem i1' (arr2 [(x0, y0 + dy)])) = Ok (arr2 [(INR nx, INR nx)]) /\
      snd (interpolate Rops scp mem i2 (arr2 [(x0, y0 + dy)])) = Ok (arr2 [(1, 1)]).
Proof. exact struct2_only_refuted. Qed.
Print Assumptions C34_structured_velocity_only_2d_refuted.

(** With a SciPy method that fits at construction (splines), a velocity-only update does nothing. *)
Theorem C34_spline_updates_ignored : forall (T : Type) (O : ops T) (scp : scipy T)
    name method gs fn i i1 i1' v1 v2 p, structured_name name method ->
  create_interpolator O scp name (Some gs) fn = Ok i -> (length gs = 2%nat \/ length gs = 3%nat) -> nrows p = length gs ->
  update O scp i v1 (Some p) = (i1, Ok tt) -> update O scp i1 v2 None = (i1', Ok tt) ->
  evaluates_built scp method ->
  forall mem q, snd (interpolate O scp mem i1' q) = snd (interpolate O scp mem i1 q).
Proof. exact @spline_stale. Qed.
Print Assumptions C34_spline_updates_ignored.

Example C34_case : structured_name "Linear" "linear" /\ reproduces_nodes node_scipy "linear" 0 /\
  evaluates_current node_scipy "linear" /\
  exists i i1, create_interpolator Rops node_scipy "Linear" (Some [2; 2; 1]%nat) None = Ok i /\
    update Rops node_scipy i vel4_3d (Some pts4_3d) = (i1, Ok tt).
Proof.
  split; [split; [|auto]|].
  - cbn. split; [right; cbn; lia|]. repeat split; left; reflexivity.
  - split; [apply node_scipy_nodes|]. split; [apply node_scipy_current|].
    eexists. eexists. split; [reflexivity|]. reflexivity.
Qed.

(** C35.  After any history. *)
Theorem C35_unstructured_velocity_only : forall (T : Type) (O : ops T) (scp : scipy T) name fn i0 hist v1 v2 p,
  unstructured_name name -> create_interpolator O scp name None fn = Ok i0 ->
  let i := after O scp i0 hist in
  let i1 := fst (update O scp i v1 (Some p)) in
  snd (update O scp i1 v2 None) = snd (update O scp i v2 (Some p)) /\
  (snd (update O scp i v2 (Some p)) = Ok tt ->
   forall mem q, snd (interpolate O scp mem (fst (update O scp i1 v2 None)) q) =
                 snd (interpolate O scp mem (fst (update O scp i v2 (Some p))) q)).
Proof. exact @only_history. Qed.
Print Assumptions C35_unstructured_velocity_only.

Example C35_case : exists i, create_interpolator Rops node_scipy "nearest" None None = Ok i /\
  snd (update Rops node_scipy i vel4 (Some pts4)) = Ok tt.
Proof. eexists. split; reflexivity. Qed.

(** C36 is false: whatever w should be at the first point, some contents of the fresh memory give
    another one. *)
Theorem C36_third_component_refuted : forall (scp : scipy R) name fn i i1 v p pts mem out (w : nat -> R),
  linear_or_nearest name ->
  create_interpolator Rops scp name None fn = Ok i -> update Rops scp i v (Some p) = (i1, Ok tt) ->
  length pts <> 3%nat -> pts <> [] ->
  snd (interpolate Rops scp mem i1 (arr3 pts)) = Ok out ->
  exists mem' out' u0 v0 w0, snd (interpolate Rops scp mem' i1 (arr3 pts)) = Ok (arr3 out') /\
    nth_error out' 0 = Some (u0, v0, w0) /\ w0 <> w 0%nat.
Proof. exact w_refuted. Qed.
Print Assumptions C36_third_component_refuted.

Example C36_case : exists i i1,
  create_interpolator Rops node_scipy "linear" None None = Ok i /\
  update Rops node_scipy i vel4_3d (Some pts4_3d) = (i1, Ok tt) /\
  exists out, snd (interpolate Rops node_scipy (fun _ _ _ => 0) i1 (arr3 [(0, 0, 0); (0, 0, 0)])) = Ok out.
Proof. exact linear_3d_use. Qed.

(** What happens exactly: u and v are SciPy's, w is the old memory, unless there are three points. *)
Theorem C36_third_component_is_memory : forall (T : Type) (O : ops T) (scp : scipy T) name fn i i1 v p pts mem out,
  linear_or_nearest name ->
  create_interpolator O scp name None fn = Ok i -> update O scp i v (Some p) = (i1, Ok tt) -> length pts <> 3%nat ->
  snd (interpolate O scp mem i1 (arr3 pts)) = Ok out ->
  exists uv, length uv = length pts /\ forall mem',
    interpolate O scp mem' i1 (arr3 pts) =
      (i1, Ok (arr3 (zip_with (fun k c => (fst c, snd c, mem' 0%nat k 2%nat)) (seq 0 (length pts)) uv))).
Proof. exact @w_junk. Qed.
Print Assumptions C36_third_component_is_memory.

Theorem C36_three_points : forall (T : Type) (O : ops T) (scp : scipy T) name fn i i1 v p pts mem out,
  linear_or_nearest name ->
  create_interpolator O scp name None fn = Ok i -> update O scp i v (Some p) = (i1, Ok tt) -> length pts = 3%nat ->
  snd (interpolate O scp mem i1 (arr3 pts)) = Ok out ->
  forall mem', interpolate O scp mem' i1 (arr3 pts) = (i1, Ok out).
Proof. exact @w_three. Qed.
Print Assumptions C36_three_points.

(** C37 is false. *)
Theorem C37_three_points_2d_refuted : exists (scp : scipy R) i i1 (v p : mat R), nrows p = 2%nat /\
  create_interpolator Rops scp "linear" None None = Ok i /\
  update Rops scp i v (Some p) = (i1, Ok tt) /\
  (forall mem, snd (interpolate Rops scp mem i1 (arr2 [(0, 0); (1, 1); (0, 1)])) = Err AttributeError) /\
  (forall mem, exists m, snd (interpolate Rops scp mem i1 (arr2 [(0, 0); (1, 1)])) = Ok m) /\
  (forall mem, exists m, snd (interpolate Rops scp mem i1 (arr2 [(0, 0); (1, 1); (0, 1); (1, 0)])) = Ok m).
Proof. exact three_points_refuted. Qed.
Print Assumptions C37_three_points_2d_refuted.

Theorem C37_three_points_2d_never : forall (T : Type) (O : ops T) (scp : scipy T) name fn i i1 v p pts,
  linear_or_nearest name ->
  create_interpolator O scp name None fn = Ok i -> update O scp i v (Some p) = (i1, Ok tt) ->
  nrows p = 2%nat -> length pts = 3%nat ->
  forall mem out, snd (interpolate O scp mem i1 (arr2 pts)) <> Ok out.
Proof. exact @two_d_three. Qed.
Print Assumptions C37_three_points_2d_never.

Theorem C37_other_counts_2d : forall (T : Type) (O : ops T) (scp : scipy T) name fn i i1 v p pts mem m,
  linear_or_nearest name ->
  create_interpolator O scp name None fn = Ok i -> update O scp i v (Some p) = (i1, Ok tt) -> length pts <> 3%nat ->
  snd (interpolate O scp mem i1 (arr2 pts)) = Ok m ->
  exists uv, length uv = length pts /\ m = arr2 uv /\
    forall mem', interpolate O scp mem' i1 (arr2 pts) = (i1, Ok (arr2 uv)).
Proof. exact @two_d_other. Qed.
Print Assumptions C37_other_counts_2d.
Example C37_case : linear_or_nearest "nearest" /\ nrows pts4 = 2%nat /\ exists i i1,
  create_interpolator Rops node_scipy "nearest" None None = Ok i /\ update Rops node_scipy i vel4 (Some pts4) = (i1, Ok tt) /\
  exists out, snd (interpolate Rops node_scipy (fun _ _ _ => 0) i1 (arr2 [(0, 0); (1, 0)])) = Ok out.
Proof.
  split; [right; cbn; repeat split; left; reflexivity|]. split; [reflexivity|].
  do 2 eexists. split; [reflexivity|]. split; [reflexivity|]. eexists. reflexivity.
Qed.

(** C38.  Queries of the right number of columns leave no trace, whatever the memory held. *)
Theorem C38_grid_queries_read_only : forall (T : Type) (O : ops T) (scp : scipy T) name gs fn i hist q mem mem',
  case_variant name "grid" -> create_interpolator O scp name (Some gs) fn = Ok i ->
  (length gs = 2%nat \/ length gs = 3%nat) ->
  queries_have (length gs) hist -> wf_mat q -> mcols q = length gs ->
  snd (interpolate O scp mem (after O scp i hist) q) =
  snd (interpolate O scp mem' (after O scp i (filter is_update hist)) q).
Proof. exact @grid_read_only. Qed.
Print Assumptions C38_grid_queries_read_only.

Example C38_case : queries_have 2
  [AUpdate vel4 (Some pts4); AQuery (fun _ _ _ => 0) (arr2 [(0, 0)]); AUpdate vel4 None; AQuery (fun _ _ _ => 1) (arr2 [])].
Proof. repeat constructor. Qed.

Theorem C38_other_queries_read_only : forall (T : Type) (O : ops T) (scp : scipy T) name gs fn i hist mem q,
  data_driven name -> (case_variant name "grid" -> False) ->
  create_interpolator O scp name gs fn = Ok i ->
  fst (interpolate O scp mem (after O scp i hist) q) = after O scp i hist /\
  after O scp i hist = after O scp i (filter is_update hist).
Proof. exact @other_read_only. Qed.
Print Assumptions C38_other_queries_read_only.

(** Each point is answered as if it were asked alone. *)
Theorem C38_grid_pointwise_2d : forall (T : Type) (O : ops T) (scp : scipy T) name nx ny fn i hist mem pts m,
  case_variant name "grid" -> create_interpolator O scp name (Some [nx; ny]) fn = Ok i -> queries_have 2 hist ->
  snd (interpolate O scp mem (after O scp i hist) (arr2 pts)) = Ok m ->
  exists out, m = arr2 out /\
    Forall2 (fun p o => forall mem', snd (interpolate O scp mem' (after O scp i hist) (arr2 [p])) = Ok (arr2 [o])) pts out.
Proof. exact @grid_pointwise2. Qed.
Print Assumptions C38_grid_pointwise_2d.

Theorem C38_grid_pointwise_3d : forall (T : Type) (O : ops T) (scp : scipy T) name nx ny nz fn i hist mem pts m,
  case_variant name "grid" -> create_interpolator O scp name (Some [nx; ny; nz]) fn = Ok i -> queries_have 3 hist ->
  snd (interpolate O scp mem (after O scp i hist) (arr3 pts)) = Ok m ->
  exists out, m = arr3 out /\
    Forall2 (fun p o => forall mem', snd (interpolate O scp mem' (after O scp i hist) (arr3 [p])) = Ok (arr3 [o])) pts out.
Proof. exact @grid_pointwise3. Qed.
Print Assumptions C38_grid_pointwise_3d.

(** A query of the wrong number of columns does leave a trace: it is rejected, and then good
    queries of that many points are rejected too. *)
Theorem C38_wrong_query_refuted : forall (scp : scipy R) nx ny nz x0 y0 z0 dx dy dz name fn u w t pts2 pts3,
  case_variant name "grid" -> (2 <= nx)%nat -> (2 <= ny)%nat -> (2 <= nz)%nat -> 0 < dx -> 0 < dy -> 0 < dz ->
  length pts2 = length pts3 ->
  exists i0 i1,
    create_interpolator Rops scp name (Some [nx; ny; nz]) fn = Ok i0 /\
    update Rops scp i0 (samples3 (nx * ny * nz) u w t) (Some (grid_points3 nx ny nz x0 y0 z0 dx dy dz)) = (i1, Ok tt) /\
    forall mem mem',
      snd (interpolate Rops scp mem i1 (arr2 pts2)) = Err IndexError /\
      snd (interpolate Rops scp mem' (fst (interpolate Rops scp mem i1 (arr2 pts2))) (arr3 pts3)) = Err IndexError.
Proof. exact poison_refuted. Qed.
Print Assumptions C38_wrong_query_refuted.

(** C39. *)
Theorem C39_no_points_partial : forall (T : Type) (O : ops T) (scp : scipy T) name gs fn i vs v,
  data_driven name -> create_interpolator O scp name gs fn = Ok i ->
  (~ case_variant name "grid" -> snd (update O scp (after O scp i (only_velocities vs)) v None) = Err ValueError) /\
  forall mem q, exists e, snd (interpolate O scp mem (after O scp i (only_velocities vs)) q) = Err e.
Proof. exact @no_points. Qed.
Print Assumptions C39_no_points_partial.

Theorem C39_grid_accepts_no_points_refuted : forall (scp : scipy R) name gs fn v, case_variant name "grid" ->
  exists i i1, create_interpolator Rops scp name (Some gs) fn = Ok i /\ update Rops scp i v None = (i1, Ok tt).
Proof. exact grid_silent_refuted. Qed.
Print Assumptions C39_grid_accepts_no_points_refuted.

(** An update that raised IndexError leaves an interpolator that answers. *)
Theorem C39_failed_update_answers_refuted : exists (scp : scipy R) i i1 v p,
  create_interpolator Rops scp "linear" None None = Ok i /\
  update Rops scp i v (Some p) = (i1, Err IndexError) /\
  forall mem, exists m, snd (interpolate Rops scp mem i1 (arr3 [(0, 0, 0)])) = Ok m.
Proof. exact failed_update_refuted. Qed.
Print Assumptions C39_failed_update_answers_refuted.

Example C39_case : exists i, data_driven "CUBIC" /\ create_interpolator Rops node_scipy "CUBIC" (Some [2; 3]%nat) None = Ok i.
Proof. eexists. split; [left; cbn; repeat split; right; cbn; lia|reflexivity]. Qed.

(** C40. *)
Theorem C40_interpolator_factory : forall (T : Type) (O : ops T) (scp : scipy T) name gs fn,
  (case_variant name "analytical" ->
     create_interpolator O scp name gs fn =
       match fn with Some f => Ok (IAnalytical (Analytical f (o_zero O))) | None => Err ExecutableNotFoundError end) /\
  (case_variant name "grid" ->
     create_interpolator O scp name gs fn =
       match gs with Some s => Ok (IHigh (highperf_new s)) | None => Err TypeError end) /\
  (case_variant name "cubic" ->
     create_interpolator O scp name gs fn =
       match gs with
       | Some s => Ok (IGrid (GridI "cubic" s None None None None None None)) | None => Ok (ICubic unstructured_new) end) /\
  (case_variant name "linear" ->
     create_interpolator O scp name gs fn =
       match gs with
       | Some s => Ok (IGrid (GridI "linear" s None None None None None None)) | None => Ok (ILinear unstructured_new) end) /\
  (case_variant name "nearest" ->
     create_interpolator O scp name gs fn =
       match gs with
       | Some s => Ok (IGrid (GridI "nearest" s None None None None None None)) | None => Ok (INearest unstructured_new) end) /\
  (~ case_variant name "analytical" -> ~ data_driven name ->
     create_interpolator O scp name gs fn = Err ValueError).
Proof. exact @create_spec. Qed.
Print Assumptions C40_interpolator_factory.

(** Constructing the grid interpolator directly: exactly five methods are accepted. *)
Theorem C40_grid_methods : forall (T : Type) (shape : list nat) (method : string),
  (In method ["linear"; "nearest"; "slinear"; "cubic"; "quintic"]%string ->
     gridinterp_new shape method = Ok (@GridI T method shape None None None None None None)) /\
  (~ In method ["linear"; "nearest"; "slinear"; "cubic"; "quintic"]%string ->
     @gridinterp_new T shape method = Err ValueError).
Proof. exact grid_methods. Qed.
Print Assumptions C40_grid_methods.

Example C40_case : case_variant "AnalyTical" "analytical" /\ ~ data_driven "spline" /\ ~ case_variant "spline" "analytical".
Proof.
  split; [cbn; repeat split; (left; reflexivity) || (right; cbn; lia)|].
  split; [|cbn; tauto]. unfold data_driven. cbn. unfold same_letter. cbn.
  intros [H|[H|[H|H]]]; try tauto; destruct H as [[H|H] _]; try discriminate; lia.
Qed.

(** C86.  The first update of a structured SciPy interpolator puts sample i * ny + j on node (i, j). *)
Theorem C86_structured_2d_placement : forall (scp : scipy R) nx ny m x0 y0 dx dy name method fn,
  (2 <= nx)%nat -> (2 <= ny)%nat -> (m <= nx)%nat -> (m <= ny)%nat -> 0 < dx -> 0 < dy ->
  structured_name name method -> reproduces_nodes scp method m ->
  forall u w, exists i0 i1,
  create_interpolator Rops scp name (Some [nx; ny]) fn = Ok i0 /\
  update Rops scp i0 (samples2 (nx * ny) u w) (Some (grid_points2 nx ny x0 y0 dx dy)) = (i1, Ok tt) /\
  (forall mem i j, (i < nx)%nat -> (j < ny)%nat ->
    interpolate Rops scp mem i1 (arr2 [(x0 + INR i * dx, y0 + INR j * dy)]) =
      (i1, Ok (arr2 [(u (i * ny + j)%nat, w (i * ny + j)%nat)]))) /\
  (forall u' w', evaluates_current scp method -> exists i2,
     update Rops scp i1 (samples2 (nx * ny) u' w') None = (i2, Ok tt) /\
     forall mem i j, (i < nx)%nat -> (j < ny)%nat ->
       interpolate Rops scp mem i2 (arr2 [(x0 + INR i * dx, y0 + INR j * dy)]) =
         (i2, Ok (arr2 [(u' (i + nx * j)%nat, w' (i + nx * j)%nat)]))).
Proof. exact struct2. Qed.
Print Assumptions C86_structured_2d_placement.
Example C86_case : forall u w, exists i0 i1,
  create_interpolator Rops node_scipy "Linear" (Some [3; 4]%nat) None = Ok i0 /\
  update Rops node_scipy i0 (samples2 (3 * 4) u w) (Some (grid_points2 3 4 0 1 (1 / 2) 2)) = (i1, Ok tt).
Proof.
  intros u w. destruct (C86_structured_2d_placement node_scipy 3 4 0 0 1 (1 / 2) 2 "Linear" "linear" None) with (u := u) (w := w) as (i0 & i1 & H0 & H1 & _);
    try lia; try lra; [split; [cbn; repeat split; (left; reflexivity) || (right; cbn; lia)|left; reflexivity]|apply node_scipy_nodes|]. exists i0, i1. split; assumption.
Qed.

(** It disagrees with 'grid' on the same data at the node (0, 1). *)
Theorem C86_structured_2d_disagrees_refuted : forall (scp : scipy R) name name' method m nx ny x0 y0 dx dy fn,
  structured_name name method -> case_variant name' "grid" -> reproduces_nodes scp method m ->
  (3 <= nx)%nat -> (3 <= ny)%nat -> (m <= nx)%nat -> (m <= ny)%nat -> 0 < dx -> 0 < dy ->
  (Z.of_nat nx <= INT_MAX)%Z -> (Z.of_nat ny <= INT_MAX)%Z ->
  exists i0 i1 j0 j1, let v := samples2 (nx * ny) INR INR in let p := grid_points2 nx ny x0 y0 dx dy in
    create_interpolator Rops scp name (Some [nx; ny]) fn = Ok i0 /\ update Rops scp i0 v (Some p) = (i1, Ok tt) /\
    create_interpolator Rops scp name' (Some [nx; ny]) fn = Ok j0 /\ update Rops scp j0 v (Some p) = (j1, Ok tt) /\
    forall mem,
      snd (interpolate Rops scp mem i1 (arr2 [(x0, y0 + dy)])) = Ok (arr2 [(1, 1)]) /\
      snd (interpolate Rops scp mem j1 (arr2 [(x0, y0 + dy)])) = Ok (arr2 [(INR nx, INR nx)]).
Proof. exact struct2_misplaced. Qed.
Print Assumptions C86_structured_2d_disagrees_refuted.

(** C87.  SciPy is asked about the samples and the queries as given, and its answers are the
    result: x component first, then y.  [arr2], [arr3]: one row per point; [cols2], [cols3]: one
    column per sample. *)
Theorem C87_cubic_2d : forall (T : Type) (O : ops T) (scp : scipy T) name fn ps vs t,
  case_variant name "cubic" -> length vs = length ps -> delaunay scp (arr2 ps) = Ok t ->
  exists i i1, create_interpolator O scp name None fn = Ok i /\
    update O scp i (cols2 vs) (Some (cols2 ps)) = (i1, Ok tt) /\
    forall mem pts uv, ct_eval scp t vs (arr2 pts) = Ok uv -> length uv = length pts ->
      interpolate O scp mem i1 (arr2 pts) = (i1, Ok (arr2 uv)).
Proof. exact @cubic_faithful. Qed.
Print Assumptions C87_cubic_2d.

Theorem C87_linear_2d : forall (T : Type) (O : ops T) (scp : scipy T) name fn ps vs t,
  case_variant name "linear" -> length vs = length ps -> delaunay scp (arr2 ps) = Ok t ->
  exists i i1, create_interpolator O scp name None fn = Ok i /\
    update O scp i (cols2 vs) (Some (cols2 ps)) = (i1, Ok tt) /\
    forall mem pts uv, lin_c scp t vs (arr2 pts) = Ok uv -> length uv = length pts -> length pts <> 3%nat ->
      interpolate O scp mem i1 (arr2 pts) = (i1, Ok (arr2 uv)).
Proof. exact @linear_faithful. Qed.
Print Assumptions C87_linear_2d.

Theorem C87_nearest_2d : forall (T : Type) (O : ops T) (scp : scipy T) name fn ps vs,
  case_variant name "nearest" -> length vs = length ps -> near_check scp (arr2 ps) = Ok tt ->
  exists i i1, create_interpolator O scp name None fn = Ok i /\
    update O scp i (cols2 vs) (Some (cols2 ps)) = (i1, Ok tt) /\
    forall mem pts uv, near_c scp (arr2 ps) vs (arr2 pts) = Ok uv -> length uv = length pts -> length pts <> 3%nat ->
      interpolate O scp mem i1 (arr2 pts) = (i1, Ok (arr2 uv)).
Proof. exact @nearest_faithful. Qed.
Print Assumptions C87_nearest_2d.

(** In 3-D the third component is right only for three points (C36). *)
Theorem C87_linear_3d : forall (T : Type) (O : ops T) (scp : scipy T) name fn ps vs t,
  case_variant name "linear" -> length vs = length ps -> delaunay scp (arr3 ps) = Ok t ->
  exists i i1, create_interpolator O scp name None fn = Ok i /\
    update O scp i (cols3 vs) (Some (cols3 ps)) = (i1, Ok tt) /\
    forall mem pts uv ws, lin_c scp t (map fst vs) (arr3 pts) = Ok uv -> length uv = length pts ->
      lin_r scp t (map snd vs) (arr3 pts) = Ok ws -> length ws = length pts ->
      interpolate O scp mem i1 (arr3 pts) =
        (i1, Ok (arr3 (if (length pts =? 3)%nat then combine uv ws else stale_third mem uv))).
Proof. exact @linear_faithful_3d. Qed.
Print Assumptions C87_linear_3d.

Theorem C87_nearest_3d : forall (T : Type) (O : ops T) (scp : scipy T) name fn ps vs,
  case_variant name "nearest" -> length vs = length ps -> near_check scp (arr3 ps) = Ok tt ->
  exists i i1, create_interpolator O scp name None fn = Ok i /\
    update O scp i (cols3 vs) (Some (cols3 ps)) = (i1, Ok tt) /\
    forall mem pts uv ws, near_c scp (arr3 ps) (map fst vs) (arr3 pts) = Ok uv -> length uv = length pts ->
      near_r scp (arr3 ps) (map snd vs) (arr3 pts) = Ok ws -> length ws = length pts ->
      interpolate O scp mem i1 (arr3 pts) =
        (i1, Ok (arr3 (if (length pts =? 3)%nat then combine uv ws else stale_third mem uv))).
Proof. exact @nearest_faithful_3d. Qed.
Print Assumptions C87_nearest_3d.

Theorem C87_cubic_rejects_3d : forall (T : Type) (O : ops T) (scp : scipy T) name fn v p i,
  case_variant name "cubic" -> create_interpolator O scp name None fn = Ok i ->
  nrows p = 3%nat -> snd (update O scp i v (Some p)) = Err ValueError.
Proof. exact @cubic_3d. Qed.
Print Assumptions C87_cubic_rejects_3d.

Example C87_case : case_variant "Linear" "linear" /\
  delaunay node_scipy (arr2 [(0, 0); (1, 0); (0, 1)]) = Ok (arr2 [(0, 0); (1, 0); (0, 1)]) /\
  exists uv, lin_c node_scipy (arr2 [(0, 0); (1, 0); (0, 1)]) [(5, 6); (7, 8); (9, 10)] (arr2 [(0, 0)]) = Ok uv /\
    length uv = length [(0, 0)].
Proof. split; [cbn; repeat split; (left; reflexivity) || (right; cbn; lia)|]. split; [reflexivity|]. eexists. split; reflexivity. Qed.

(** C88.  Structured SciPy interpolators in 3-D, first update: sample (i*ny + j)*nz + k belongs to
    node (i, j, k), i.e. x slowest and z fastest, all components in place.  (C34: later updates do
    the same for 'linear' and 'nearest'.) *)
Theorem C88_structured_3d_placement : forall (scp : scipy R) nx ny nz m x0 y0 z0 dx dy dz name method fn,
  (2 <= nx)%nat -> (2 <= ny)%nat -> (2 <= nz)%nat -> (m <= nx)%nat -> (m <= ny)%nat -> (m <= nz)%nat ->
  0 < dx -> 0 < dy -> 0 < dz -> structured_name name method -> reproduces_nodes scp method m ->
  forall u w t, exists i0 i1,
    create_interpolator Rops scp name (Some [nx; ny; nz]) fn = Ok i0 /\
    update Rops scp i0 (samples3 (nx * ny * nz) u w t) (Some (grid_points3 nx ny nz x0 y0 z0 dx dy dz)) = (i1, Ok tt) /\
    forall mem i j k, (i < nx)%nat -> (j < ny)%nat -> (k < nz)%nat ->
      let s := ((i * ny + j) * nz + k)%nat in
      interpolate Rops scp mem i1 (arr3 [(x0 + INR i * dx, y0 + INR j * dy, z0 + INR k * dz)]) =
        (i1, Ok (arr3 [(u s, w s, t s)])).
Proof. exact struct3. Qed.
Print Assumptions C88_structured_3d_placement.

Example C88_case : structured_name "Linear" "linear" /\ reproduces_nodes node_scipy "linear" 0.
Proof. split; [split; [cbn; repeat split; (left; reflexivity) || (right; cbn; lia)|left; reflexivity]|apply node_scipy_nodes]. Qed.
