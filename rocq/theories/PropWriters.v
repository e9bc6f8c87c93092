(** Properties C72 to C76 and C89 to C92: output files, src/pyftle/file_writers.py. *)
From Coq Require Import Reals.
From Verif Require Import Base Num NdArray Writers SpecWriters SpecPlace PlaceFacts WriterFacts VtkFacts WriterMain WriterCases.

(** C72.  On a grid (nx, ny) or (nx, ny, nz) the MAT writer stores arrays of shape (nx, ny, nz) that hold
    at index (i, j, k) the value and the centroid of seed (i ny + j) nz + k; every seed is stored once.
    [ready]: the writer was not used before for centroids of another dimension (C76). *)
Theorem C72_mat_grid : forall (T : Type) (O : ops T) dir g nx ny nz N d st name f (c : mat T),
  (g = [nx; ny] /\ nz = 1 \/ g = [nx; ny; nz]) -> nx * ny * nz = N -> 2 <= d -> seeds N d f c -> ready st d ->
  let w := Writer Mat_format dir (Some g) in
  exists st' F X Y Z, write O w st name f c = (st', Ok tt) /\
    saved st st' (path_join dir (append name ".mat")) (MatFile F X Y Z) /\
    arrays_hold [nx; ny; nz] N d f c F X Y Z
      (fun ix => match ix with [i; j; k] => (i * ny + j) * nz + k | _ => 0 end).
Proof. exact @mat_grid. Qed.
Print Assumptions C72_mat_grid.

(** Without a grid the arrays hold the seeds in their order. *)
Theorem C72_mat_points : forall (T : Type) (O : ops T) dir g N d st name f (c : mat T),
  (g = None \/ g = Some []) -> 2 <= d -> seeds N d f c -> ready st d ->
  let w := Writer Mat_format dir g in
  exists st' F X Y Z, write O w st name f c = (st', Ok tt) /\
    saved st st' (path_join dir (append name ".mat")) (MatFile F X Y Z) /\
    arrays_hold [N] N d f c F X Y Z (fun ix => match ix with [r] => r | _ => 0 end).
Proof. exact @mat_points. Qed.
Print Assumptions C72_mat_points.

Example C72_case : 2 * 3 * 4 = 24 /\ seeds 24 3 (ramp 24) (ramp_rows 24 3) /\
  forall files : string -> option (content R), ready (WState None files) 3.
Proof. exact (conj eq_refl (conj (ramp_seeds 24 3) (fun files => fresh_ready files 3))). Qed.

(** C73.  On a grid (nx, ny) the .vts file has nx ny points; point q is the centroid of seed q (at height
    0), and the value attached to point q is that of seed q. *)
Theorem C73_vtk_grid_2d : forall (T : Type) (O : ops T) dir nx ny d st name f (c : mat T),
  2 <= d -> seeds (nx * ny) d f c -> ready st d ->
  exists st' points, write O (Writer Vtk_format dir (Some [nx; ny])) st name f c = (st', Ok tt) /\
    saved st st' (append (path_join dir name) ".vts") (VtsFile (nx, ny, 1) points true f) /\
    length points = nx * ny /\
    forall q, q < nx * ny -> exists x y, nth_error points q = Some (x, y, o_zero O) /\ coord_of c q 0 x /\ coord_of c q 1 y.
Proof. exact @vtk_grid2. Qed.
Print Assumptions C73_vtk_grid_2d.

(** Without a grid, point q of the .vtp file is the centroid of seed q with its value. *)
Theorem C73_vtk_points : forall (T : Type) (O : ops T) dir d st name f (c : mat T) N,
  d = 2 \/ d = 3 -> seeds N d f c -> ready st d ->
  exists st' points, write O (Writer Vtk_format dir None) st name f c = (st', Ok tt) /\
    saved st st' (append (path_join dir name) ".vtp") (VtpFile points f) /\ length points = N /\
    forall q, q < N -> exists x y z, nth_error points q = Some [x; y; z] /\ is_centroid O c q (x, y, z).
Proof. exact @vtk_points. Qed.
Print Assumptions C73_vtk_points.

Example C73_case : seeds (3 * 4) 2 (ramp (3 * 4)) (ramp_rows (3 * 4) 2).
Proof. exact (ramp_seeds (3 * 4) 2). Qed.

(** C74 is false for every grid with nx >= 2 and ny >= 2: point 1 of the .vts file is the centroid of
    seed ny nz, but the value attached to it is that of seed nz. *)
Theorem C74_vtk_grid_3d_refuted : forall (T : Type) (O : ops T) dir nx ny nz st name f (c : mat T),
  2 <= nx -> 2 <= ny -> 1 <= nz -> seeds (nx * ny * nz) 3 f c -> ready st 3 ->
  exists st' points values p v, write O (Writer Vtk_format dir (Some [nx; ny; nz])) st name f c = (st', Ok tt) /\
    saved st st' (append (path_join dir name) ".vts") (VtsFile (nx, ny, nz) points true values) /\
    nth_error points 1 = Some p /\ is_centroid O c (ny * nz) p /\
    nth_error values 1 = Some v /\ value_of f nz v /\ nz <> ny * nz.
Proof. exact @vtk_grid3_wrong. Qed.
Print Assumptions C74_vtk_grid_3d_refuted.

(** It holds for grids with nx = 1 or ny = 1. *)
Theorem C74_vtk_grid_3d_partial : forall (T : Type) (O : ops T) dir nx ny nz st name f (c : mat T),
  nx = 1 \/ ny = 1 -> seeds (nx * ny * nz) 3 f c -> ready st 3 ->
  exists st' points values seed, write O (Writer Vtk_format dir (Some [nx; ny; nz])) st name f c = (st', Ok tt) /\
    saved st st' (append (path_join dir name) ".vts") (VtsFile (nx, ny, nz) points true values) /\
    length points = nx * ny * nz /\
    numbers [nx * ny * nz] (nx * ny * nz) (fun ix => match ix with [q] => seed q | _ => 0 end) /\
    forall q, q < nx * ny * nz -> exists p v, nth_error points q = Some p /\ is_centroid O c (seed q) p /\
      nth_error values q = Some v /\ value_of f (seed q) v.
Proof. exact @vtk_grid3_thin. Qed.
Print Assumptions C74_vtk_grid_3d_partial.

(** What the file holds: the points are right, the values are stored as for a grid (ny, nx, nz). *)
Theorem C74_vtk_grid_3d_exact : forall (T : Type) (O : ops T) dir nx ny nz d st name f (c : mat T),
  3 <= d -> seeds (nx * ny * nz) d f c -> ready st d ->
  exists st' points values, write O (Writer Vtk_format dir (Some [nx; ny; nz])) st name f c = (st', Ok tt) /\
    saved st st' (append (path_join dir name) ".vts") (VtsFile (nx, ny, nz) points true values) /\
    length points = nx * ny * nz /\ length values = nx * ny * nz /\
    (forall i j k, i < nx -> j < ny -> k < nz -> exists x y z, nth_error points (i + nx * (j + ny * k)) = Some (x, y, z) /\
       let r := (i * ny + j) * nz + k in coord_of c r 0 x /\ coord_of c r 1 y /\ coord_of c r 2 z) /\
    (forall i j k, i < nx -> j < ny -> k < nz -> nth_error values (j + ny * (i + nx * k)) = nth_error f ((i * ny + j) * nz + k)).
Proof. exact @vtk_grid3. Qed.
Print Assumptions C74_vtk_grid_3d_exact.

Example C74_case : seeds (3 * 2 * 2) 3 (ramp (3 * 2 * 2)) (ramp_rows (3 * 2 * 2) 3) /\
  seeds (3 * 1 * 2) 3 (ramp (3 * 1 * 2)) (ramp_rows (3 * 1 * 2) 3).
Proof. exact (conj (ramp_seeds _ _) (ramp_seeds _ _)). Qed.

(** C75 for a writer that was not used for centroids of another dimension: a number of seeds other than
    the product of the grid shape raises ValueError and no file is changed. *)
Theorem C75_wrong_size_partial : forall (T : Type) (O : ops T) w st name f (c : mat T) N d nx ny nz,
  d = 2 \/ d = 3 -> seeds N d f c -> ready st d ->
  (wr_shape w = Some [nx; ny] /\ nz = 1 \/ wr_shape w = Some [nx; ny; nz]) -> nx * ny * nz <> N ->
  exists st', write O w st name f c = (st', Err ValueError) /\ nothing_saved st st'.
Proof. exact @wrong_size. Qed.
Print Assumptions C75_wrong_size_partial.

(** A grid shape with another number of entries is rejected, except the empty one by the MAT writer. *)
Theorem C75_wrong_rank_partial : forall (T : Type) (O : ops T) w st name f (c : mat T) g,
  wr_shape w = Some g -> length g <> 2 -> length g <> 3 -> (wr_format w = Mat_format -> g <> []) ->
  exists st', write O w st name f c = (st', Err ValueError) /\ nothing_saved st st'.
Proof. exact @wrong_rank. Qed.
Print Assumptions C75_wrong_rank_partial.

(** C75 is false: the MAT writer accepts the empty grid shape, ... *)
Theorem C75_empty_shape_refuted : forall (T : Type) (O : ops T) dir N d st name f (c : mat T),
  d = 2 \/ d = 3 -> seeds N d f c -> ready st d ->
  exists st' F X Y Z, write O (Writer Mat_format dir (Some [])) st name f c = (st', Ok tt) /\
    saved st st' (path_join dir (append name ".mat")) (MatFile F X Y Z).
Proof. exact @empty_shape. Qed.
Print Assumptions C75_empty_shape_refuted.

(** ... and the VTK writer for a 4 x 9 grid that was used for a plane field accepts 24 seeds in space:
    the 24 values become cell data of a grid with 36 points. *)
Theorem C75_reused_refuted : forall (T : Type) (O : ops T) dir st name f (c : mat T),
  seeds 24 3 f c -> w_dim st = Some 2 ->
  exists st' points, write O (Writer Vtk_format dir (Some [4; 9])) st name f c = (st', Ok tt) /\
    saved st st' (append (path_join dir name) ".vts") (VtsFile (4, 9, 1) points false f).
Proof. exact @cell_data. Qed.
Print Assumptions C75_reused_refuted.

(** The state [w_dim st = Some 2] is the one after a first write of a plane field. *)
Example C75_case : forall (T : Type) (O : ops T) w st name f (c : mat T) st' r,
  write O w st name f c = (st', r) -> w_dim st' = Some (match w_dim st with None => mcols c | Some d => d end).
Proof. exact @write_dim. Qed.

(** C76 is false: a writer used before for a plane field never stores the heights of N >= 1 seeds in
    space, whatever its format and grid: it raises an exception or stores a file without z. *)
Theorem C76_reuse_refuted : forall (T : Type) (O : ops T) w st name f (c : mat T) N st' r,
  seeds N 3 f c -> w_dim st = Some 2 -> 1 <= N ->
  match wr_shape w with None => True | Some g => size g = N end ->
  write O w st name f c = (st', r) ->
  (exists e, r = Err e /\ nothing_saved st st') \/
  (exists F X Y, r = Ok tt /\ saved st st' (output_path w name) (MatFile F X Y None)).
Proof. exact @z_lost. Qed.
Print Assumptions C76_reuse_refuted.

(** Reused for fields of the same dimension, a writer works as a new one. *)
Theorem C76_reuse_partial : forall (T : Type) (O : ops T) w st name f (c : mat T),
  w_dim st = Some (mcols c) -> write O w st name f c = write O w (WState None (w_files st)) name f c.
Proof. exact @reuse_same. Qed.
Print Assumptions C76_reuse_partial.

Example C76_case : seeds 5 3 (ramp 5) (ramp_rows 5 3).
Proof. exact (ramp_seeds 5 3). Qed.

(** C89 is false: for every grid (nx, ny) with nx, ny >= 2, the node (1, 0) carries the value of seed ny
    in the MAT file and that of seed 1 in the VTK file (whose node (i, j) is point i + nx j). *)
Theorem C89_formats_2d_refuted : forall (T : Type) (O : ops T) dir nx ny st st2 name f (c : mat T),
  2 <= nx -> 2 <= ny -> seeds (nx * ny) 2 f c -> ready st 2 -> ready st2 2 ->
  exists s1 s2 F X Y Z points, write O (Writer Mat_format dir (Some [nx; ny])) st name f c = (s1, Ok tt) /\
    saved st s1 (path_join dir (append name ".mat")) (MatFile F X Y Z) /\
    write O (Writer Vtk_format dir (Some [nx; ny])) st2 name f c = (s2, Ok tt) /\
    saved st2 s2 (append (path_join dir name) ".vts") (VtsFile (nx, ny, 1) points true f) /\
    (exists v, nd_get F [1; 0; 0] = Ok v /\ value_of f ny v) /\
    (exists v, nth_error f (1 + nx * 0) = Some v /\ value_of f 1 v) /\ ny <> 1.
Proof. exact @disagree. Qed.
Print Assumptions C89_formats_2d_refuted.

(** On grids in space both formats place every seed on the same node. *)
Theorem C89_formats_3d_partial : forall (T : Type) (O : ops T) dir nx ny nz st st2 name f (c : mat T),
  seeds (nx * ny * nz) 3 f c -> ready st 3 -> ready st2 3 ->
  exists s1 s2 F X Y Z points values, write O (Writer Mat_format dir (Some [nx; ny; nz])) st name f c = (s1, Ok tt) /\
    saved st s1 (path_join dir (append name ".mat")) (MatFile F X Y (Some Z)) /\
    write O (Writer Vtk_format dir (Some [nx; ny; nz])) st2 name f c = (s2, Ok tt) /\
    saved st2 s2 (append (path_join dir name) ".vts") (VtsFile (nx, ny, nz) points true values) /\
    forall i j k, i < nx -> j < ny -> k < nz -> exists x y z,
      nd_get X [i; j; k] = Ok x /\ nd_get Y [i; j; k] = Ok y /\ nd_get Z [i; j; k] = Ok z /\
      nth_error points (i + nx * (j + ny * k)) = Some (x, y, z).
Proof. exact @agree3. Qed.
Print Assumptions C89_formats_3d_partial.
Example C89_case : seeds (3 * 2 * 2) 3 (ramp (3 * 2 * 2)) (ramp_rows (3 * 2 * 2) 3) /\ seeds (3 * 2) 2 (ramp (3 * 2)) (ramp_rows (3 * 2) 2) /\
  forall files : string -> option (content R), ready (WState None files) 3 /\ ready (WState None files) 2.
Proof. exact (conj (ramp_seeds _ _) (conj (ramp_seeds _ _) (fun files => conj (fresh_ready files 3) (fresh_ready files 2)))). Qed.

(** C90 is false: seeds in space on a grid (nx, ny) lose their heights in the VTK file. *)
Theorem C90_flattened_refuted : forall (T : Type) (O : ops T) dir nx ny st name f (c : mat T) q z,
  seeds (nx * ny) 3 f c -> ready st 3 -> q < nx * ny -> coord_of c q 2 z -> z <> o_zero O ->
  exists st' points p, write O (Writer Vtk_format dir (Some [nx; ny])) st name f c = (st', Ok tt) /\
    saved st st' (append (path_join dir name) ".vts") (VtsFile (nx, ny, 1) points true f) /\
    nth_error points q = Some p /\ snd p = o_zero O /\ ~ is_centroid O c q p.
Proof. exact @flattened. Qed.
Print Assumptions C90_flattened_refuted.

Example C90_case : seeds (2 * 2) 3 (ramp (2 * 2)) (ramp_rows (2 * 2) 3) /\ coord_of (ramp_rows (2 * 2) 3) 1 2 (INR 1) /\
  INR 1 <> o_zero Rops.
Proof. exact (conj (ramp_seeds _ _) (conj (ex_intro _ _ (conj eq_refl eq_refl)) R1_neq_R0)). Qed.

(** C91.  Exactly the formats "mat" and "vtk" are accepted, every other one raises ValueError. *)
Theorem C91_create_writer : forall fmt dir g w, create_writer fmt dir g = Ok w <->
  wr_path w = dir /\ wr_shape w = g /\
  (fmt = "mat"%string /\ wr_format w = Mat_format \/ fmt = "vtk"%string /\ wr_format w = Vtk_format).
Proof. exact factory. Qed.
Print Assumptions C91_create_writer.

Theorem C91_other_formats : forall fmt dir g, fmt <> "mat"%string -> fmt <> "vtk"%string -> create_writer fmt dir g = Err ValueError.
Proof. exact factory_err. Qed.
Print Assumptions C91_other_formats.
Example C91_case : create_writer "vtk" "out" (Some [3; 4]) = Ok (Writer Vtk_format "out" (Some [3; 4])) /\ create_writer "MAT" "out" None = Err ValueError.
Proof. split; [apply C91_create_writer; auto|apply C91_other_formats; discriminate]. Qed.

(** C92.  A call of write either raises and changes no file, or succeeds and changes exactly one file,
    named after the given name; for every writer, history and data. *)
Theorem C92_one_file : forall (T : Type) (O : ops T) w st name f (c : mat T) st' r,
  write O w st name f c = (st', r) ->
  (exists e, r = Err e /\ nothing_saved st st') \/ (r = Ok tt /\ exists cs, saved st st' (output_path w name) cs).
Proof. exact @write_one. Qed.
Print Assumptions C92_one_file.

(** The file has the given name and the ending of its format, and lies in the directory of the writer. *)
Theorem C92_file_name : forall (w : writer) name, name <> EmptyString ->
  placed (wr_path w)
    (append name (match wr_format w, wr_shape w with Mat_format, _ => ".mat" | Vtk_format, Some _ => ".vts" | Vtk_format, None => ".vtp" end))
    (output_path w name).
Proof. exact output_placed. Qed.
Print Assumptions C92_file_name.

Example C92_file_name_case : placed "out" "ftle.vts" "out/ftle.vts" /\ output_path (Writer Vtk_format "out" (Some [2; 2])) "ftle" = "out/ftle.vts"%string /\
  output_path (Writer Mat_format "out/" None) "ftle" = "out/ftle.mat"%string.
Proof. split; [exact (join_placed "out" "ftle.vts" ltac:(discriminate))|]. split; reflexivity. Qed.
