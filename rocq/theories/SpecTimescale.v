(** Data sets with another scale of time (C121, C131).

    Times are measured in a unit [c] times smaller, or backwards if [c] is negative, so that a time step [h] becomes [c h] and a
    velocity [v] becomes [v / c]. *)
From Coq Require Import Reals.
From Verif Require Import Base Num NdArray Interpolate Readers DataSource Writers Jobs SpecUnits.

Definition retime (c : R) (v : R) : R := (v / c)%R.

(** The same .mat files with every velocity retimed. *)
Definition velocity_names : list string := ["velocity_x"; "velocity_y"; "velocity_z"]%string.
Definition retimed_file (c : R) (data : matfile R) : matfile R :=
  fun name => if in_dec string_dec name velocity_names then option_map (fun a => Nd (shape a) (map (retime c) (NdArray.data a))) (data name)
              else data name.
Definition retimed (c : R) (inputs : filesystem R) : filesystem R :=
  fun path => match inputs path with Ok data => Ok (retimed_file c data) | Err e => Err e end.

(** The same task with the time step retimed. *)
Definition retimed_task (c : R) (f : file_source R) : file_source R :=
  FileSource (snapshot_files f) (coordinate_files f) (particle_file f) (c * snapshot_timestep f)%R (flow_map_period f)
    (reuse_coordinates f) (file_id f).

(** What the values of the samples are divided by, SciPy's answers are divided by, and nothing else about the values matters to it. *)
Definition divided {A B} (g : A -> B) (r : res (list A)) : res (list B) := match r with Ok l => Ok (map g l) | Err e => Err e end.
Definition both {A B} (g : A -> B) (z : A * A) : B * B := (g (fst z), g (snd z)).
Definition nd_values {A B} (g : A -> B) (a : nd A) : nd B := Nd (shape a) (map g (NdArray.data a)).
Definition homogeneous (c : R) (scp : scipy R) : Prop :=
  (forall t z q, ct_eval scp t (map (both (retime c)) z) q = divided (both (retime c)) (ct_eval scp t z q)) /\
  (forall t z q, lin_c scp t (map (both (retime c)) z) q = divided (both (retime c)) (lin_c scp t z q)) /\
  (forall t z q, lin_r scp t (map (retime c) z) q = divided (retime c) (lin_r scp t z q)) /\
  (forall p z q, near_c scp p (map (both (retime c)) z) q = divided (both (retime c)) (near_c scp p z q)) /\
  (forall p z q, near_r scp p (map (retime c) z) q = divided (retime c) (near_r scp p z q)) /\
  (forall m axes v, rgi_check scp m axes (nd_values (retime c) v) = rgi_check scp m axes v) /\
  (forall m axes b v q, rgi_eval scp m axes (nd_values (retime c) b) (nd_values (retime c) v) q = divided (retime c) (rgi_eval scp m axes b v q)).

(** An output file with its rates in the new unit of time. *)
Definition retimed_output (c : R) (x : content R) : content R :=
  match x with
  | MatFile ftle x y z => MatFile (nd_values (rate c) ftle) x y z
  | VtsFile dims points on_points ftle => VtsFile dims points on_points (map (rate c) ftle)
  | VtpFile points ftle => VtpFile points (map (rate c) ftle)
  end.

(** The files on disk with all complete results in the new unit. *)
Definition retimed_results (c : R) (fs : files R) : files R :=
  fun p => option_map (fun e => match e with Whole x => Whole (retimed_output c x) | e => e end) (fs p).
