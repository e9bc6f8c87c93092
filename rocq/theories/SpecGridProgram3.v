(** Specification vocabulary for runs of the command line program on gridded 3D data. *)
From Coq Require Import Reals Floats.
From Verif Require Import Base Num NdArray Text Particles Jacobian Readers Writers SpecSeeds SpecWriters SpecIntegrate SpecFloat64 SpecFloatJac SpecFloatRun3 SpecConverge SpecGridRun SpecGridRun3.
Local Open Scope R_scope.

(** In this order, the k-th velocity file samples [v] at time [t0 + k h] at the nodes of a grid; every coordinate file holds the grid. *)
Definition series3 (fs : filesystem PrimFloat.float) (n nz : nat) (x0 x1 y0 y1 z0 z1 M eps : R) (v : R -> list R -> list R) (t0 h : R)
  (velocities coordinates : list string) : Prop :=
  (forall k f, nth_error velocities k = Some f -> exists d, fs f = Ok d /\ holds_velocity3 n nz x0 x1 y0 y1 z0 z1 M eps (v (t0 + INR k * h)) d) /\
  (forall f, In f coordinates -> exists d, fs f = Ok d /\ holds_grid3 n nz x0 x1 y0 y1 z0 z1 d).

(** The particle file [f] holds the seeds with the six neighbours [gs], which are the points [Gs]; all are farther than [rho]
    from the faces of the box. *)
Definition seeded3 (fs : filesystem PrimFloat.float) (x0 x1 y0 y1 z0 z1 rho : R) (f : string) (gs : list (group3 PrimFloat.float)) (Gs : list (group3 R)) : Prop :=
  (exists d, fs f = Ok d /\ holds_seeds3 gs d) /\ Forall2 seated3 gs Gs /\ Forall spaced3 Gs /\ Forall (clear_in rho x0 x1 y0 y1 z0 z1) Gs.

(** The option for a grid of seeds is not given, or (px, py, pz) with [N] = px py pz. *)
Definition fits3 (option : option (list Z)) (N : nat) : Prop :=
  option = None \/ exists px py pz, option = Some [Z.of_nat px; Z.of_nat py; Z.of_nat pz] /\ (px * py * pz = N)%nat.

(** The shape of the arrays in a MAT file for [N] seeds, and the seed that belongs to an index: a list, or with the option
    for a grid of seeds (px, py, pz) that grid, the last index running fastest. *)
Definition output_layout3 (option : option (list Z)) (N : nat) (s : list nat) (seed : list nat -> nat) : Prop :=
  (option = None /\ s = [N] /\ seed = (fun ix => match ix with [r] => r | _ => 0%nat end)) \/
  (exists px py pz, option = Some [Z.of_nat px; Z.of_nat py; Z.of_nat pz] /\ (px * py * pz = N)%nat /\ s = [px; py; pz] /\
     seed = (fun ix => match ix with [i; j; k] => (i * py + j) * pz + k | _ => 0 end)%nat).

(** The file [x] of the output format [fmt] holds the values and the centroids of [N] seeds in space: a MAT file, or a VTK
    file of points, in which the q-th point and the q-th value are those of seed q, or with the option for a grid of seeds a
    structured VTK file.  In the latter the centroid of seed (i, j, k) is the point i + px (j + py k), but its value is
    stored at j + py (i + px k): unless px or py is 1, values belong to other points than their seeds (C74). *)
Definition field_file3 {T} (O : ops T) (fmt : string) (option : option (list Z)) (N : nat) (values : list (xval T)) (centroids : mat T) (x : content T) : Prop :=
  (fmt = "mat"%string /\ exists s seed F X Y Z, x = MatFile F X Y (Some Z) /\ output_layout3 option N s seed /\ arrays_hold s N 3 values centroids F X Y (Some Z) seed) \/
  (fmt = "vtk"%string /\ option = None /\ exists points, x = VtpFile points values /\ length values = N /\ length points = N /\
     forall q, (q < N)%nat -> exists a b c, nth_error points q = Some [a; b; c] /\ is_centroid O centroids q (a, b, c)) \/
  (fmt = "vtk"%string /\ exists px py pz points stored, option = Some [Z.of_nat px; Z.of_nat py; Z.of_nat pz] /\ x = VtsFile (px, py, pz) points true stored /\
     length stored = N /\ length points = N /\ forall i j k, (i < px)%nat -> (j < py)%nat -> (k < pz)%nat ->
       let r := ((i * py + j) * pz + k)%nat in
       (exists p, nth_error points (i + px * (j + py * k))%nat = Some p /\ is_centroid O centroids r p) /\
       nth_error stored (j + py * (i + px * k))%nat = nth_error values r).
