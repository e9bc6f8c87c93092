(** Changes of units and origin (C121).  Independent of the code.

    Lengths are measured in a unit [s] times smaller and from an origin moved to [b], so that the
    point with coordinates [p] gets the coordinates [s p + b]; times are measured in a unit [c]
    times smaller, so that an interval [h] becomes [c h] and a velocity is multiplied by [s / c]. *)
From Coq Require Import Reals List.
From Verif Require Import Base Num.
Import ListNotations.
Open Scope R_scope.

Definition coords2 (s : R) (b p : R * R) : R * R := (s * fst p + fst b, s * snd p + snd b).
Definition coords3 (s : R) (b p : R * R * R) : R * R * R :=
  (s * fst (fst p) + fst (fst b), s * snd (fst p) + snd (fst b), s * snd p + snd b).

(** [v'] is the velocity field [v] in the new units. *)
Definition same_flow2 (s c : R) (b : R * R) (v v' : R * R -> R * R) : Prop :=
  forall p, v' (coords2 s b p) = (s / c * fst (v p), s / c * snd (v p)).
Definition same_flow3 (s c : R) (b : R * R * R) (v v' : R * R * R -> R * R * R) : Prop :=
  forall p, v' (coords3 s b p) =
    (s / c * fst (fst (v p)), s / c * snd (fst (v p)), s / c * snd (v p)).

(** A rate in the new unit of time.  Infinities and NaN stay as they are. *)
Definition rate (c : R) (x : xval R) : xval R :=
  match x with XVal r => XVal (r / Rabs c) | y => y end.
Definition rates (c : R) (r : res (option (list (xval R)))) : res (option (list (xval R))) :=
  match r with Ok (Some f) => Ok (Some (map (rate c) f)) | y => y end.
