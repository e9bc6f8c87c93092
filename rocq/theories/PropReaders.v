(** Properties C68-C71: src/pyftle/file_readers.py. *)
From Coq Require Import Reals Lra Lia.
From Verif Require Import Base Num NdArray Particles Readers SpecSeeds SpecFiles ReaderFacts ReaderFacts2.
Local Open Scope R_scope.

(** C68.  [reads] (SpecFiles): ValueError iff a component is missing or the sizes differ; otherwise
    one row per component, each with the last index fastest. *)
Theorem C68_velocity : forall (T : Type) (data : matfile T), (forall k a, data k = Some a -> wf_nd a) ->
  reads data "velocity_x" "velocity_y" "velocity_z" (read_velocity data).
Proof. exact @read_velocity_spec. Qed.
Print Assumptions C68_velocity.

Theorem C68_coordinate : forall (T : Type) (data : matfile T), (forall k a, data k = Some a -> wf_nd a) ->
  reads data "coordinate_x" "coordinate_y" "coordinate_z" (read_coordinate data).
Proof. exact @read_coordinate_spec. Qed.
Print Assumptions C68_coordinate.

Example C68_case : wf_nd (Nd [2; 3]%nat [1; 2; 3; 4; 5; 6]) /\ flattened (Nd [2; 3]%nat [1; 2; 3; 4; 5; 6]) [1; 2; 3; 4; 5; 6].
Proof. split; [reflexivity|apply (flattened_ravel (Nd [2; 3]%nat [1; 2; 3; 4; 5; 6])); reflexivity]. Qed.

(** C69 is false: element (1, 0) of a 2 x 2 array is not at position 1. *)
Theorem C69_column_major_refuted : exists (data : matfile R) x m row,
  data "velocity_x"%string = Some x /\ wf_nd x /\ shape x = [2; 2]%nat /\
  read_velocity data = Ok m /\ nth_error (mrows m) 0 = Some row /\
  nd_get x [1; 0]%nat = Ok 3 /\ nth_error row (1 + 2 * 0) <> Some 3.
Proof. exact column_major_refuted. Qed.
Print Assumptions C69_column_major_refuted.

(** C70.  With C13: the i-th group of [p] is the i-th row of each array. *)
Theorem C70_seeds_2d : forall (T : Type) (O : ops T) (data : matfile T) gs,
  holds data "left" (arr2 (map g_left gs)) -> holds data "right" (arr2 (map g_right gs)) ->
  holds data "top" (arr2 (map g_top gs)) -> holds data "bottom" (arr2 (map g_bottom gs)) ->
  data "front"%string = None \/ data "back"%string = None ->
  exists p, read_seed_particles_coordinates O data = Ok p /\ mk_particles O (layout2 gs) = Ok p.
Proof. exact @seeds_2d. Qed.
Print Assumptions C70_seeds_2d.

Theorem C70_seeds_3d : forall (T : Type) (O : ops T) (data : matfile T) gs,
  holds data "left" (arr3 (map h_left gs)) -> holds data "right" (arr3 (map h_right gs)) ->
  holds data "top" (arr3 (map h_top gs)) -> holds data "bottom" (arr3 (map h_bottom gs)) ->
  holds data "front" (arr3 (map h_front gs)) -> holds data "back" (arr3 (map h_back gs)) ->
  exists p, read_seed_particles_coordinates O data = Ok p /\ mk_particles O (layout3 gs) = Ok p.
Proof. exact @seeds_3d. Qed.
Print Assumptions C70_seeds_3d.

Example C70_case :
  let gs := [Group2 (-1, 0) (1, 0) (0, 1) (0, -1); Group2 (2, 3) (5, 3) (4, 9) (4, 1)] in
  let data := file_of [("left", nd_of_mat (arr2 (map g_left gs))); ("right", nd_of_mat (arr2 (map g_right gs)));
                       ("top", nd_of_mat (arr2 (map g_top gs))); ("bottom", nd_of_mat (arr2 (map g_bottom gs)))]%string in
  holds data "left" (arr2 (map g_left gs)) /\ holds data "bottom" (arr2 (map g_bottom gs)) /\ data "back"%string = None.
Proof. repeat split. Qed.

(** C71 is false: a 3D file without 'back', and arrays of different lengths, are accepted. *)
Theorem C71_missing_back_refuted : exists (data : matfile R) l r t b f p,
  holds data "left" l /\ holds data "right" r /\ holds data "top" t /\ holds data "bottom" b /\ holds data "front" f /\
  data "back"%string = None /\ Forall (fun m => wf_mat m /\ mcols m = 3%nat /\ nrows m = 3%nat) [l; r; t; b; f] /\
  read_seed_particles_coordinates Rops data = Ok p.
Proof. exact missing_back_refuted. Qed.
Print Assumptions C71_missing_back_refuted.

Theorem C71_lengths_refuted : exists (data : matfile R) l r t b p,
  holds data "left" l /\ holds data "right" r /\ holds data "top" t /\ holds data "bottom" b /\
  data "front"%string = None /\ Forall (fun m => wf_mat m /\ mcols m = 2%nat) [l; r; t; b] /\
  nrows l <> nrows r /\ read_seed_particles_coordinates Rops data = Ok p.
Proof. exact lengths_refuted. Qed.
Print Assumptions C71_lengths_refuted.

(** Exactly which files without front and back are accepted: only the total number of rows matters. *)
Theorem C71_accepted_exact : forall (T : Type) (O : ops T) (data : matfile T) l r t b c, c = 2%nat \/ c = 3%nat ->
  holds data "left" l -> holds data "right" r -> holds data "top" t -> holds data "bottom" b ->
  data "front"%string = None \/ data "back"%string = None ->
  Forall (fun m => wf_mat m /\ mcols m = c) [l; r; t; b] ->
  let total := (nrows l + nrows r + nrows t + nrows b)%nat in
  ((exists p, read_seed_particles_coordinates O data = Ok p) <-> (total mod (2 * c) = 0)%nat) /\
  ((total mod (2 * c) <> 0)%nat -> read_seed_particles_coordinates O data = Err AssertionError \/
                             read_seed_particles_coordinates O data = Err ValueError).
Proof. exact @four_accepted. Qed.
Print Assumptions C71_accepted_exact.

(** With front and back: again only the total number of rows matters. *)
Theorem C71_accepted_six_exact : forall (T : Type) (O : ops T) (data : matfile T) l r t b f k c, c = 2%nat \/ c = 3%nat ->
  holds data "left" l -> holds data "right" r -> holds data "top" t -> holds data "bottom" b ->
  holds data "front" f -> holds data "back" k ->
  Forall (fun m => wf_mat m /\ mcols m = c) [l; r; t; b; f; k] ->
  let total := (nrows l + nrows r + nrows t + nrows b + nrows f + nrows k)%nat in
  ((exists p, read_seed_particles_coordinates O data = Ok p) <-> (total mod (2 * c) = 0)%nat) /\
  ((total mod (2 * c) <> 0)%nat -> read_seed_particles_coordinates O data = Err AssertionError \/
                             read_seed_particles_coordinates O data = Err ValueError).
Proof. exact @six_accepted. Qed.
Print Assumptions C71_accepted_six_exact.

(** What is always rejected: a file without left, right, top or bottom, ... *)
Theorem C71_missing_key_partial : forall (T : Type) (O : ops T) (data : matfile T) k, In k ["left"; "right"; "top"; "bottom"]%string ->
  data k = None -> read_seed_particles_coordinates O data = Err ValueError.
Proof. exact @missing_key. Qed.
Print Assumptions C71_missing_key_partial.

(** ... and arrays that differ in the number of coordinates. *)
Theorem C71_columns_four_partial : forall (T : Type) (O : ops T) (data : matfile T) l r t b,
  holds data "left" l -> holds data "right" r -> holds data "top" t -> holds data "bottom" b ->
  (exists x y, In x [l; r; t; b] /\ In y [l; r; t; b] /\ mcols x <> mcols y) ->
  data "front"%string = None \/ data "back"%string = None ->
  read_seed_particles_coordinates O data = Err ValueError.
Proof. exact @columns_differ. Qed.
Print Assumptions C71_columns_four_partial.
Theorem C71_columns_six_partial : forall (T : Type) (O : ops T) (data : matfile T) l r t b f k,
  holds data "left" l -> holds data "right" r -> holds data "top" t -> holds data "bottom" b -> holds data "front" f -> holds data "back" k ->
  (exists x y, In x [l; r; t; b; f; k] /\ In y [l; r; t; b; f; k] /\ mcols x <> mcols y) ->
  read_seed_particles_coordinates O data = Err ValueError.
Proof. exact @columns_differ6. Qed.
Print Assumptions C71_columns_six_partial.

(** The front array of a file with plane seeds; arrays of 2, 2, 2, 2, 3 and 1 seeds in space. *)
Example C71_six_case :
  mcols (zeros2 2) <> mcols (zeros3 2) /\
  let data := file_of [("left", nd_of_mat (zeros3 2)); ("right", nd_of_mat (zeros3 2)); ("top", nd_of_mat (zeros3 2)); ("bottom", nd_of_mat (zeros3 2));
                       ("front", nd_of_mat (zeros3 3)); ("back", nd_of_mat (zeros3 1))]%string in
  holds data "left" (zeros3 2) /\ holds data "front" (zeros3 3) /\ holds data "back" (zeros3 1) /\ ((2 + 2 + 2 + 2 + 3 + 1) mod (2 * 3) = 0)%nat /\
  exists p, read_seed_particles_coordinates Rops data = Ok p.
Proof. split; [discriminate|]. cbv zeta. split; [reflexivity|]. split; [reflexivity|]. split; [reflexivity|]. split; [reflexivity|]. eexists. reflexivity. Qed.
