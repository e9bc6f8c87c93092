(** Specification vocabulary for C118: when the results of a run must not depend on the contents of freshly allocated memory. *)
From Verif Require Import Base Num NdArray Particles Integrate Interpolate Readers DataSource Manager.

(** The arrays in the .mat files have as many values as their shapes say, as all NumPy arrays do. *)
Definition whole_arrays {T} (inputs : filesystem T) : Prop :=
  forall name file key a, inputs name = Ok file -> file key = Some a -> length (data a) = size (shape a).

(** The seeds in this file have [d] coordinates. *)
Definition seeds_have {T} (d : nat) (inputs : filesystem T) (name : string) : Prop :=
  forall file a, inputs name = Ok file -> file "left"%string = Some a -> exists n, shape a = [n; d].

(** The run of manager [m] made from the options [a] is one of: interpolator "grid"; seeds in the plane; seeds in space, and velocities
    on a grid with three axes. *)
Definition not_scattered_in_space {T} {scp : scipy T} (inputs : filesystem T) (a : program_args T) (m : manager scp) : Prop :=
  interpolator_name a = Some "grid"%string \/
  (forall name, In name (m_particles m) -> seeds_have 2 inputs name) \/
  ((exists nx ny nz, flow_grid_shape a = Some [nx; ny; nz]) /\ forall name, In name (m_particles m) -> seeds_have 3 inputs name).
