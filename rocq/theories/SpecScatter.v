(** Specification vocabulary for runs on data at scattered points, with the interpolators of SciPy. *)
From Coq Require Import Reals Floats.
From Verif Require Import Base Num NdArray Interpolate Readers SpecSeeds SpecFiles SpecInterp SpecGrid SpecOrder SpecFloat64 SpecFloatGrid.
Local Open Scope R_scope.

(** The ways to interpolate between scattered points, and the options that choose them. *)
Inductive scatter : Type := ByCubic | ByLinear | ByNearest.
Definition option_of (k : scatter) : string :=
  match k with ByCubic => "cubic" | ByLinear => "linear" | ByNearest => "nearest" end.

Notation couple := (PrimFloat.float * PrimFloat.float)%type.

(** [answer] is what the object of SciPy built for these points and values gives for an array of query points. *)
Definition built_by (scp : scipy PrimFloat.float) (k : scatter) (points values : list couple) (answer : mat PrimFloat.float -> res (list couple)) : Prop :=
  match k with
  | ByCubic => exists t, delaunay scp (arr2 points) = Ok t /\ answer = ct_eval scp t values
  | ByLinear => exists t, delaunay scp (arr2 points) = Ok t /\ answer = lin_c scp t values
  | ByNearest => near_check scp (arr2 points) = Ok tt /\ answer = near_c scp (arr2 points) values
  end.

(** At the points of the region [D], [answer] evaluates a function of one point, and this function is related to the query by [Q]. *)
Definition evaluates (D : R * R -> Prop) (answer : mat PrimFloat.float -> res (list couple)) (Q : R * R -> R * R -> Prop) : Prop :=
  exists g, (forall ps, Forall (fun p => exists q, stand2 p q /\ D q) ps -> answer (arr2 ps) = Ok (map g ps)) /\
    (forall p q, stand2 p q -> D q -> exists V, stand2 (g p) V /\ Q q V).

(** It is the velocity [v], up to [delta]. *)
Definition reproduces (D : R * R -> Prop) (delta : R) (v : list R -> list R) (answer : mat PrimFloat.float -> res (list couple)) : Prop :=
  evaluates D answer (fun q V => near delta (row2 V) (v (row2 q))).

(** MAT files with the coordinates of points, and with velocities at these points. *)
Definition holds_points (points : list couple) (m : matfile PrimFloat.float) : Prop :=
  exists a b, m "coordinate_x"%string = Some a /\ m "coordinate_y"%string = Some b /\ m "coordinate_z"%string = None /\
    data a = map fst points /\ data b = map snd points.
Definition holds_values (values : list couple) (m : matfile PrimFloat.float) : Prop :=
  exists a b, m "velocity_x"%string = Some a /\ m "velocity_y"%string = Some b /\ m "velocity_z"%string = None /\
    data a = map fst values /\ data b = map snd values.

(** The j-th coordinate file holds points and the j-th velocity file values at these points, with [Q j points values]. *)
Definition files_hold (fs : filesystem PrimFloat.float) (Q : nat -> list couple -> list couple -> Prop) (velocities coordinates : list string) : Prop :=
  forall j, (j < length velocities)%nat -> exists vf cf dv dc points values,
    nth_error velocities j = Some vf /\ nth_error coordinates j = Some cf /\ fs vf = Ok dv /\ fs cf = Ok dc /\
    holds_points points dc /\ holds_values values dv /\ length values = length points /\ Q j points values.

(** From the j-th pair of files, SciPy reproduces the velocity [v j] in [D] up to [delta]. *)
Definition scattered (fs : filesystem PrimFloat.float) (scp : scipy PrimFloat.float) (k : scatter) (D : R * R -> Prop) (delta : R)
  (v : nat -> list R -> list R) : list string -> list string -> Prop :=
  files_hold fs (fun j points values => exists answer, built_by scp k points values answer /\ reproduces D delta (v j) answer).

(** The whole square with radius [rho] around [c] belongs to [D]. *)
Definition clearance (rho : R) (D : R * R -> Prop) (c : R * R) : Prop :=
  forall p, Rabs (fst p - fst c) <= rho -> Rabs (snd p - snd c) <= rho -> D p.

(** Coordinates are at most [B] in [D]. *)
Definition bounded_by (B : R) (D : R * R -> Prop) : Prop := forall q, D q -> Rabs (fst q) <= B /\ Rabs (snd q) <= B.

(* ---- accuracy from the density of the points ---- *)
Definition apart (p q : R * R) : R := R_sqrt.sqrt ((fst p - fst q) ^ 2 + (snd p - snd q) ^ 2).

(** The values are those of [v] at the points, up to [eps]. *)
Definition samples_of (v : list R -> list R) (eps : R) (Ps Vs : list (R * R)) : Prop :=
  Forall2 (fun P V => near eps (row2 V) (v (row2 P))) Ps Vs.

(** Every point of [D] has a sample no farther than [r]. *)
Definition dense (r : R) (D : R * R -> Prop) (Ps : list (R * R)) : Prop := forall q, D q -> exists P, In P Ps /\ apart q P <= r.

(** [V] is, up to [eta], a weighted mean of values at points no farther than [r] from [q]. *)
Definition total (l : list R) : R := fold_right Rplus 0 l.
Definition weighted (ws xs : list R) : R := total (map (fun p => fst p * snd p) (combine ws xs)).
Definition mean_around (r eta : R) (Ps Vs : list (R * R)) (q V : R * R) : Prop :=
  exists ws, length ws = length Ps /\ Forall (fun w => 0 <= w) ws /\ total ws = 1 /\
    Forall2 (fun w P => w <> 0 -> apart q P <= r) ws Ps /\
    Rabs (fst V - weighted ws (map fst Vs)) <= eta /\ Rabs (snd V - weighted ws (map snd Vs)) <= eta.

(** What SciPy documents about nearest-neighbour interpolation: the value at a point that is closest, up to rounding. *)
Definition moderate (q : R * R) : Prop := Rabs (fst q) <= 2 ^ 400 /\ Rabs (snd q) <= 2 ^ 400.
Definition accurate_nearest (scp : scipy PrimFloat.float) : Prop :=
  forall points Ps values Vs, points <> [] -> Forall2 stand2 points Ps -> Forall moderate Ps -> Forall2 stand2 values Vs -> length values = length points ->
  near_check scp (arr2 points) = Ok tt /\
  evaluates moderate (near_c scp (arr2 points) values) (fun q V => exists i P, nth_error Ps i = Some P /\ nth_error Vs i = Some V /\
    forall P', In P' Ps -> apart q P <= (1 + / 2 ^ 40) * apart q P' + / 2 ^ 500).

(** The j-th pair of files samples [v j]. *)
Definition sampled_at (fs : filesystem PrimFloat.float) (r eps : R) (D : R * R -> Prop) (v : nat -> list R -> list R) : list string -> list string -> Prop :=
  files_hold fs (fun j points values => exists Ps Vs, Forall2 stand2 points Ps /\ Forall moderate Ps /\ Forall2 stand2 values Vs /\
    samples_of (v j) eps Ps Vs /\ dense r D Ps).
