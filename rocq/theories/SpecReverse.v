(** Specification vocabulary for reversing time in binary64. *)
From Coq Require Import Floats.
From Verif Require Import Base Num SpecIntegrate.

(** The same number: equal floats, or zeros of either sign. *)
Definition same_number (x y : float) : Prop :=
  x = y \/ (PrimFloat.is_zero x = true /\ PrimFloat.is_zero y = true).
Definition same_point (x y : list float) : Prop := Forall2 same_number x y.

(** Fields that do not tell 0 from -0. *)
Definition blind_to_sign (v : list float -> list float) : Prop :=
  forall x y, same_point x y -> same_point (v x) (v y).

(** The steps with every velocity and every time step negated. *)
Definition opposite (steps : list ((list float -> list float) * float)) :=
  map (fun a => ((fun x => map PrimFloat.opp (fst a x)), PrimFloat.opp (snd a))) steps.
