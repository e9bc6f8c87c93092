(** Specification vocabulary for whole 3D FTLE runs in binary64. *)
From Coq Require Import Reals Floats.
From Verif Require Import Base Num Jacobian Integrate SpecFtle SpecSeeds SpecIntegrate SpecOrder SpecFloat64 SpecConverge SpecRounding SpecEigen.
Local Open Scope R_scope.

(** Entries of at most 2^199, some entry of at least 2^-199. *)
Definition well_scaled3 (Q : m33 R) : Prop :=
  Forall (fun x => Rabs x <= 2 ^ 199) (entries3 Q) /\ Exists (fun x => / 2 ^ 199 <= Rabs x) (entries3 Q).

(** The distance between opposite neighbours of a seed. *)
Definition side3 (G : group3 R) : R :=
  Rmin (Rmin (Rabs (v0 (h_right G) - v0 (h_left G))) (Rabs (v1 (h_top G) - v1 (h_bottom G)))) (Rabs (v2 (h_front G) - v2 (h_back G))).

(** The map [phi] carries the neighbours [G] of a seed to points that are not astronomically far away, with a gradient of
    norm [s], against which position errors of [E] are small.  Unlike in 2D, nothing is asked of the other singular values. *)
Definition resolved3 (E : R) (phi : vec3 -> vec3) (G : group3 R) (s : R) : Prop :=
  spectral_norm_3 (gradient3 G (image3 phi G)) s /\ / 2 ^ 190 <= s <= 2 ^ 190 /\ 2 ^ 6 * E <= s * side3 G /\
  Forall (fun p => Rabs (v0 (phi p)) <= 2 ^ 199 /\ Rabs (v1 (phi p)) <= 2 ^ 199 /\ Rabs (v2 (phi p)) <= 2 ^ 199) (corners3 G).

(** [x] is the FTLE [ln s / T] of a gradient of norm [s] up to the effect of position errors of [E] on neighbours a
    distance [a] apart, and the rounding of the FTLE formula itself. *)
Definition ftle_within3 (E a s T : R) (x : PrimFloat.float) : Prop :=
  exists r, represents x r /\ Rabs (r - ln s / T) <= (/ 2 ^ 34 + 12 * E / (s * a)) / T.

(** All neighbours of the seed lie within [B0]. *)
Definition within3 (B0 : R) (G : group3 R) : Prop := Forall (fun x => sized B0 (row3 x)) (corners3 G).

(** The flow of [v] takes the particle at [x] at time [a] to [phi x] at time [b] along a path that satisfies [C]. *)
Definition flow_along3 (C : (R -> list R) -> Prop) (v : R -> list R -> list R) (a b : R) (phi : vec3 -> vec3) (x : vec3) : Prop :=
  exists y, y a = row3 x /\ trajectory 3 v a b y /\ y b = row3 (phi x) /\ C y.
