(** Specification vocabulary for whole runs on gridded 3D data.  The grids have as many lines in x as in y: for others the
    compiled interpolator mixes the nodes up (C32). *)
From Coq Require Import Reals Floats.
From Verif Require Import Base Num NdArray Readers Jacobian SpecFtle SpecFiles SpecSeeds SpecOrder SpecConverge SpecFloat64 SpecRounding SpecGridRun.
Local Open Scope R_scope.

(** An array as np.meshgrid makes them: rows run in y, columns in x, layers in z; the element in column i, row j and layer k
    belongs to node (i, j, k) of the grid.  All elements are finite and their values satisfy [Q]. *)
Definition mesh3 (n nz : nat) (Q : nat -> nat -> nat -> R -> Prop) (a : nd PrimFloat.float) : Prop :=
  shape a = [n; n; nz] /\ wf_nd a /\
  forall i j k, (i < n)%nat -> (j < n)%nat -> (k < nz)%nat -> exists x X, nd_get a [j; i; k] = Ok x /\ represents x X /\ Q i j k X.

(** A MAT file with the coordinates of the nodes of a grid on [x0, x1] x [y0, y1] x [z0, z1]. *)
Definition holds_grid3 (n nz : nat) (x0 x1 y0 y1 z0 z1 : R) (data : matfile PrimFloat.float) : Prop :=
  exists a b c, data "coordinate_x"%string = Some a /\ data "coordinate_y"%string = Some b /\ data "coordinate_z"%string = Some c /\
    mesh3 n nz (fun i j k X => x0 <= X <= x1 /\ (i = 0%nat -> X = x0) /\ (i + 1 = n -> X = x1)%nat) a /\
    mesh3 n nz (fun i j k Y => y0 <= Y <= y1 /\ (j = 0%nat -> Y = y0) /\ (j + 1 = n -> Y = y1)%nat) b /\
    mesh3 n nz (fun i j k Z => z0 <= Z <= z1 /\ (k = 0%nat -> Z = z0) /\ (k + 1 = nz -> Z = z1)%nat) c.

(** A MAT file with samples of the velocity [v] at these nodes: each is at most [M] and off by at most [eps]. *)
Definition holds_velocity3 (n nz : nat) (x0 x1 y0 y1 z0 z1 M eps : R) (v : list R -> list R) (data : matfile PrimFloat.float) : Prop :=
  let sample c i j k X := Rabs X <= M /\ Rabs (X - coord c (v [line n x0 x1 i; line n y0 y1 j; line nz z0 z1 k])) <= eps in
  exists a b c, data "velocity_x"%string = Some a /\ data "velocity_y"%string = Some b /\ data "velocity_z"%string = Some c /\
    mesh3 n nz (sample 0%nat) a /\ mesh3 n nz (sample 1%nat) b /\ mesh3 n nz (sample 2%nat) c.

(** How far velocities interpolated from such samples are from the velocity that was sampled, if its gradient is at most
    [L]: the error of the samples, the error of interpolating between them, and rounding. *)
Definition sampling_error3 (n nz : nat) (x0 x1 y0 y1 z0 z1 L M eps : R) : R :=
  eps + L * Rmax (Rmax (spacing n x0 x1) (spacing n y0 y1)) (spacing nz z0 z1) + (/ 2 ^ 48 * (INR (n + n + nz) * M) + / 2 ^ 1071).

(** The k-th velocity file samples [v k], and the k-th coordinate file holds the grid. *)
Definition gridded3 (fs : filesystem PrimFloat.float) (n nz : nat) (x0 x1 y0 y1 z0 z1 M eps : R) (v : nat -> list R -> list R)
  (velocities coordinates : list string) : Prop :=
  forall k, (k < length velocities)%nat -> exists vf cf dv dc,
    nth_error velocities k = Some vf /\ nth_error coordinates k = Some cf /\ fs vf = Ok dv /\ fs cf = Ok dc /\
    holds_velocity3 n nz x0 x1 y0 y1 z0 z1 M eps (v k) dv /\ holds_grid3 n nz x0 x1 y0 y1 z0 z1 dc.

(** A MAT file with the neighbours of the seeds. *)
Definition holds_seeds3 {T} (gs : list (group3 T)) (data : matfile T) : Prop :=
  holds data "left" (arr3 (map h_left gs)) /\ holds data "right" (arr3 (map h_right gs)) /\
  holds data "top" (arr3 (map h_top gs)) /\ holds data "bottom" (arr3 (map h_bottom gs)) /\
  holds data "front" (arr3 (map h_front gs)) /\ holds data "back" (arr3 (map h_back gs)).

(** All neighbours of the seed are farther than [rho] from the faces of the box. *)
Definition clear_in (rho x0 x1 y0 y1 z0 z1 : R) (G : group3 R) : Prop :=
  Forall (fun p => clear_of rho x0 x1 (v0 p) /\ clear_of rho y0 y1 (v1 p) /\ clear_of rho z0 z1 (v2 p)) (corners3 G).
