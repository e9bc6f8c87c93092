(** Specification vocabulary for runs of the command line program on data at scattered points. *)
From Coq Require Import Reals Floats.
From Verif Require Import Base Num NdArray Particles Jacobian Interpolate Readers SpecSeeds SpecFloat64 SpecFloatJac SpecConverge SpecGridRun SpecScatter.
Local Open Scope R_scope.

(** In the order of the run, the j-th velocity file holds values at the points of the j-th coordinate file, where the list of
    coordinate files starts again at its end.  From them SciPy reproduces the velocity [v] at time [t0 + j h] in [D] up to [delta]. *)
Definition scatter_series (fs : filesystem PrimFloat.float) (scp : scipy PrimFloat.float) (k : scatter) (D : R * R -> Prop) (delta : R)
  (v : R -> list R -> list R) (t0 h : R) (velocities coordinates : list string) : Prop :=
  forall j f g, nth_error velocities j = Some f -> nth_error coordinates (j mod length coordinates) = Some g ->
  exists dv dc points values answer, fs f = Ok dv /\ fs g = Ok dc /\ holds_points points dc /\ holds_values values dv /\ length values = length points /\
    built_by scp k points values answer /\ reproduces D delta (v (t0 + INR j * h)) answer.

(** The particle file [f] holds the seeds with the neighbours [gs], which are the points [Gs]; around all of them a square of
    radius [rho] belongs to [D]. *)
Definition seeded_in (fs : filesystem PrimFloat.float) (rho : R) (D : R * R -> Prop) (f : string) (gs : list (group2 PrimFloat.float)) (Gs : list (group2 R)) : Prop :=
  (exists d, fs f = Ok d /\ holds_seeds gs d) /\ Forall2 seated2 gs Gs /\ Forall spaced2 Gs /\ Forall (fun G => Forall (clearance rho D) (corners2 G)) Gs.
