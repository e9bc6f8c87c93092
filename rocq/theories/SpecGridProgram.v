(** Specification vocabulary for runs of the command line program on gridded data. *)
From Coq Require Import Reals Floats.
From Verif Require Import Base Num NdArray Text Particles Jacobian Readers Integrate FileUtils Writers SpecSeeds SpecWriters SpecIntegrate SpecFloat64 SpecFloatJac SpecConverge SpecGridRun.
Local Open Scope R_scope.

(** The names of the integrators. *)
Definition method_name (m : method) : string := match m with MEuler => "euler" | MAB2 => "ab2" | MRK4 => "rk4" end.

(** The text file [name] lists the files [l]. *)
Definition listed (texts : string -> option string) (name : string) (l : list string) : Prop := get_files_list (texts name) = Ok (map Some l).

(** The order in which a run with time step [h] takes the files of a list. *)
Definition run_order {A} (h : R) (l : list A) : list A := if Rlt_dec h 0 then rev l else l.

(** In this order, the k-th velocity file samples [v] at time [t0 + k h] at the nodes of a grid; every coordinate file holds the grid. *)
Definition series (fs : filesystem PrimFloat.float) (nx ny : nat) (x0 x1 y0 y1 M eps : R) (v : R -> list R -> list R) (t0 h : R)
  (velocities coordinates : list string) : Prop :=
  (forall k f, nth_error velocities k = Some f -> exists d, fs f = Ok d /\ holds_velocity nx ny x0 x1 y0 y1 M eps (v (t0 + INR k * h)) d) /\
  (forall f, In f coordinates -> exists d, fs f = Ok d /\ holds_grid nx ny x0 x1 y0 y1 d).

(** The particle file [f] holds the seeds with the neighbours [gs], which are the points [Gs]; all are farther than [rho] from
    the border of the grid. *)
Definition seeded (fs : filesystem PrimFloat.float) (x0 x1 y0 y1 rho : R) (f : string) (gs : list (group2 PrimFloat.float)) (Gs : list (group2 R)) : Prop :=
  (exists d, fs f = Ok d /\ holds_seeds gs d) /\ Forall2 seated2 gs Gs /\ Forall spaced2 Gs /\
  Forall (fun G => Forall (fun x => clear_of rho x0 x1 (fst x) /\ clear_of rho y0 y1 (snd x)) (corners2 G)) Gs.

(** The option for a grid of seeds is not given, or (px, py) with [N] = px py. *)
Definition fits (option : option (list Z)) (N : nat) : Prop :=
  option = None \/ exists px py, option = Some [Z.of_nat px; Z.of_nat py] /\ (px * py = N)%nat.

(** The shape of the arrays in a MAT file for [N] seeds, and the seed that belongs to an index: a list, or with the option
    for a grid of seeds (px, py) that grid, row by row. *)
Definition output_layout (option : option (list Z)) (N : nat) (s : list nat) (seed : list nat -> nat) : Prop :=
  (option = None /\ s = [N] /\ seed = (fun ix => match ix with [r] => r | _ => 0%nat end)) \/
  (exists px py, option = Some [Z.of_nat px; Z.of_nat py] /\ (px * py = N)%nat /\ s = [px; py; 1%nat] /\
     seed = (fun ix => match ix with [i; j; k] => (i * py + j) * 1 + k | _ => 0 end)%nat).

(** The file [x] of the output format [fmt] holds the values and the centroids of [N] seeds in the plane: a MAT file, a VTK
    file of points or, with the option for a grid of seeds, a structured VTK file.  In VTK files the q-th point and the q-th
    value are those of seed q. *)
Definition field_file {T} (O : ops T) (fmt : string) (option : option (list Z)) (N : nat) (values : list (xval T)) (centroids : mat T) (x : content T) : Prop :=
  (fmt = "mat"%string /\ exists s seed F X Y Z, x = MatFile F X Y Z /\ output_layout option N s seed /\ arrays_hold s N 2 values centroids F X Y Z seed) \/
  (fmt = "vtk"%string /\ option = None /\ exists points, x = VtpFile points values /\ length values = N /\ length points = N /\
     forall q, (q < N)%nat -> exists a b c, nth_error points q = Some [a; b; c] /\ is_centroid O centroids q (a, b, c)) \/
  (fmt = "vtk"%string /\ exists px py points, option = Some [Z.of_nat px; Z.of_nat py] /\ x = VtsFile (px, py, 1%nat) points true values /\
     length values = N /\ length points = N /\ forall q, (q < N)%nat -> exists p, nth_error points q = Some p /\ is_centroid O centroids q p).

(** The ending of the names of output files. *)
Definition ending (fmt : string) (option : option (list Z)) : string :=
  if String.eqb fmt "mat" then ".mat" else match option with None => ".vtp" | Some _ => ".vts" end.

(** The file that a run of the experiment [name] writes for the window that begins with the velocity file [f]. *)
Definition result_file (name fmt : string) (option : option (list Z)) (f : string) : string :=
  append (path_join (path_join "outputs" name) (append "ftle_" (Text.stem f))) (ending fmt option).
