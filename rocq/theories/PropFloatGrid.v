(** Property C106: the grid interpolator in binary64. *)
From Coq Require Import Reals Floats.
From Verif Require Import Base Num NdArray Integrate GridInterp Interpolate SpecSeeds SpecGrid SpecKernel SpecFloat64
  SpecFloatGrid SpecIntegrate FloatKernel FloatPlace FloatPlaceCases FloatGridMain.
Local Open Scope R_scope.

(** C106 fails at points just below the last grid line: all samples are 1, the point is strictly
    inside the grid, and the answer is 0. *)
Theorem C106_refuted : forall (lnF : PrimFloat.float -> PrimFloat.float) (scp : scipy PrimFloat.float) fn mem,
  exists (nx ny : nat) px py us x0 x1 y0 y1 i0 i1 i2 p q,
    spans px x0 x1 /\ spans py y0 y1 /\ sane_extent x0 x1 /\ sane_extent y0 y1 /\
    finite_samples us (nx * ny) (fun _ => 1) 1 /\
    create_interpolator (Fops lnF) scp "grid" (Some [nx; ny]) fn = Ok i0 /\
    update (Fops lnF) scp i0 (Mat (nx * ny) [us; us]) (Some (Mat (nx * ny) [px; py])) = (i1, Ok tt) /\
    stand2 p q /\ inside nx (position nx x0 x1 (fst q)) /\ inside ny (position ny y0 y1 (snd q)) /\
    interpolate (Fops lnF) scp mem i1 (arr2 [p]) = (i2, Ok (arr2 [(0, 0)%float])) /\
    forall r, sampled2 nx ny (lattice2 nx (fun _ => 1)) (position nx x0 x1 (fst q), position ny y0 y1 (snd q)) r -> r = 1.
Proof. exact inside_grid_zero. Qed.
Print Assumptions C106_refuted.

(** Below that margin the answer is the interpolant of the samples up to rounding. *)
Theorem C106_grid_2d_partial : forall (lnF : PrimFloat.float -> PrimFloat.float) (scp : scipy PrimFloat.float) name fn nx ny px py us ws U W M x0 x1 y0 y1,
  case_variant name "grid" -> (2 <= nx)%nat -> (2 <= ny)%nat -> (Z.of_nat nx <= INT_MAX)%Z -> (Z.of_nat ny <= INT_MAX)%Z ->
  length px = (nx * ny)%nat -> length py = (nx * ny)%nat -> spans px x0 x1 -> spans py y0 y1 ->
  sane_extent x0 x1 -> sane_extent y0 y1 ->
  finite_samples us (nx * ny) U M -> finite_samples ws (nx * ny) W M -> 0 <= M -> M <= 2 ^ 898 ->
  exists i0 i1, create_interpolator (Fops lnF) scp name (Some [nx; ny]) fn = Ok i0 /\
    update (Fops lnF) scp i0 (Mat (nx * ny) [us; ws]) (Some (Mat (nx * ny) [px; py])) = (i1, Ok tt) /\
    forall mem pts qs, Forall2 stand2 pts qs ->
      Forall (fun q => well_inside nx (position nx x0 x1 (fst q)) /\ well_inside ny (position ny y0 y1 (snd q))) qs ->
      exists i2 out, interpolate (Fops lnF) scp mem i1 (arr2 pts) = (i2, Ok (arr2 out)) /\
        Forall2 (fun q o =>
          (exists r, sampled2 nx ny (lattice2 nx U) (position nx x0 x1 (fst q), position ny y0 y1 (snd q)) r /\
             accurate (INR (nx + ny) * M) (fst o) r) /\
          (exists r, sampled2 nx ny (lattice2 nx W) (position nx x0 x1 (fst q), position ny y0 y1 (snd q)) r /\
             accurate (INR (nx + ny) * M) (snd o) r)) qs out.
Proof. exact grid2_F. Qed.
Print Assumptions C106_grid_2d_partial.

Example C106_grid_2d_case : spans edge_x 0 1 /\ spans edge_y 0 1 /\ sane_extent 0 1 /\
  finite_samples ones8 (4 * 2) (fun _ => 1) 1 /\
  well_inside 4 (position 4 0 1 (/ 2)) /\ well_inside 2 (position 2 0 1 (/ 2)) /\ stand2 (0x1p-1, 0x1p-1)%float (/ 2, / 2).
Proof. exact (conj spans_x (conj spans_y (conj unit_extent (conj samples_ones well_case)))). Qed.

(** Three dimensions; the interpolator reads its samples as a grid of shape (ny, nx, nz) (C32). *)
Theorem C106_grid_3d_partial : forall (lnF : PrimFloat.float -> PrimFloat.float) (scp : scipy PrimFloat.float) name fn nx ny nz px py pz us ws ts U W T M
    x0 x1 y0 y1 z0 z1,
  case_variant name "grid" -> (2 <= nx)%nat -> (2 <= ny)%nat -> (2 <= nz)%nat ->
  (Z.of_nat nx <= INT_MAX)%Z -> (Z.of_nat ny <= INT_MAX)%Z -> (Z.of_nat nz <= INT_MAX)%Z ->
  (Z.of_nat nx * Z.of_nat nz <= INT_MAX)%Z ->
  length px = (nx * ny * nz)%nat -> length py = (nx * ny * nz)%nat -> length pz = (nx * ny * nz)%nat ->
  spans px x0 x1 -> spans py y0 y1 -> spans pz z0 z1 -> sane_extent x0 x1 -> sane_extent y0 y1 -> sane_extent z0 z1 ->
  finite_samples us (nx * ny * nz) U M -> finite_samples ws (nx * ny * nz) W M -> finite_samples ts (nx * ny * nz) T M ->
  0 <= M -> M <= 2 ^ 898 ->
  exists i0 i1, create_interpolator (Fops lnF) scp name (Some [nx; ny; nz]) fn = Ok i0 /\
    update (Fops lnF) scp i0 (Mat (nx * ny * nz) [us; ws; ts]) (Some (Mat (nx * ny * nz) [px; py; pz])) = (i1, Ok tt) /\
    forall mem pts qs, Forall2 stand3 pts qs ->
      Forall (fun q => well_inside ny (position nx x0 x1 (fst (fst q))) /\ well_inside nx (position ny y0 y1 (snd (fst q))) /\
                       well_inside nz (position nz z0 z1 (snd q))) qs ->
      exists i2 out, interpolate (Fops lnF) scp mem i1 (arr3 pts) = (i2, Ok (arr3 out)) /\
        Forall2 (fun q o => let p := (position nx x0 x1 (fst (fst q)), position ny y0 y1 (snd (fst q)), position nz z0 z1 (snd q)) in
          (exists r, sampled3 ny nx nz (lattice3 ny nz U) p r /\ accurate (INR (ny + nx + nz) * M) (fst (fst o)) r) /\
          (exists r, sampled3 ny nx nz (lattice3 ny nz W) p r /\ accurate (INR (ny + nx + nz) * M) (snd (fst o)) r) /\
          (exists r, sampled3 ny nx nz (lattice3 ny nz T) p r /\ accurate (INR (ny + nx + nz) * M) (snd o) r)) qs out.
Proof. exact grid3_F. Qed.
Print Assumptions C106_grid_3d_partial.

Example C106_grid_3d_case : spans cube_x 0 1 /\ spans edge_y 0 1 /\ spans cube_z 0 1 /\ length cube_x = (2 * 2 * 2)%nat /\
  length edge_y = (2 * 2 * 2)%nat /\ length cube_z = (2 * 2 * 2)%nat /\ finite_samples ones8 (2 * 2 * 2) (fun _ => 1) 1 /\
  well_inside 2 (position 2 0 1 (/ 2)) /\ stand3 (0x1p-1, 0x1p-1, 0x1p-1)%float (/ 2, / 2, / 2).
Proof. exact cube_case. Qed.

(** The compiled kernels themselves, at all index coordinates: nothing is lost beyond rounding. *)
Theorem C106_kernel_2d : forall (lnF : PrimFloat.float -> PrimFloat.float) v sx sy V M pts qs out,
  stores2 v sx sy V M -> 0 <= M -> M <= 2 ^ 898 ->
  (Z.of_nat sx <= INT_MAX)%Z -> (Z.of_nat sy <= INT_MAX)%Z ->
  Forall2 stand2 pts qs -> Forall fits2 qs -> length out = length pts ->
  exists vals, interp2d_vec_inplace (Fops lnF) v (q2 pts) out = Ok vals /\
    Forall2 (fun q val => exists r, sampled2 sx sy V q r /\ accurate M val r) qs vals.
Proof. exact kernel2_accurate. Qed.
Print Assumptions C106_kernel_2d.

Theorem C106_kernel_3d : forall (lnF : PrimFloat.float -> PrimFloat.float) v sx sy sz V M pts qs out,
  stores3 v sx sy sz V M -> 0 <= M -> M <= 2 ^ 898 ->
  (Z.of_nat sx <= INT_MAX)%Z -> (Z.of_nat sy <= INT_MAX)%Z -> (Z.of_nat sz <= INT_MAX)%Z ->
  (Z.of_nat sy * Z.of_nat sz <= INT_MAX)%Z ->
  Forall2 stand3 pts qs -> Forall fits3 qs -> length out = length pts ->
  exists vals, interp3d_vec_inplace (Fops lnF) v (q3 pts) out = Ok vals /\
    Forall2 (fun q val => exists r, sampled3 sx sy sz V q r /\ accurate M val r) qs vals.
Proof. exact kernel3_accurate. Qed.
Print Assumptions C106_kernel_3d.

Example C106_kernel_case : stores2 (Nd [4; 2]%nat ones8) 4 2 (fun _ _ => 1) 1 /\
  stores3 (Nd [2; 2; 2]%nat ones8) 2 2 2 (fun _ _ _ => 1) 1 /\
  stand2 (0x1p-1, 0x1p-1)%float (/ 2, / 2) /\ fits2 (/ 2, / 2).
Proof. exact kernel_case. Qed.
