(** Specification vocabulary for flow-map Jacobians in binary64. *)
From Coq Require Import Reals Floats.
From Verif Require Import Base Num Jacobian SpecFtle SpecSeeds SpecFloat64 SpecFloatGrid SpecConverge.
Local Open Scope R_scope.

(** The binary64 neighbours [g] of a seed are finite and lie at [G]. *)
Definition seated2 (g : group2 PrimFloat.float) (G : group2 R) : Prop :=
  stand2 (g_left g) (g_left G) /\ stand2 (g_right g) (g_right G) /\
  stand2 (g_top g) (g_top G) /\ stand2 (g_bottom g) (g_bottom G).
Definition seated3 (g : group3 PrimFloat.float) (G : group3 R) : Prop :=
  stand3 (h_left g) (h_left G) /\ stand3 (h_right g) (h_right G) /\ stand3 (h_top g) (h_top G) /\
  stand3 (h_bottom g) (h_bottom G) /\ stand3 (h_front g) (h_front G) /\ stand3 (h_back g) (h_back G).

Definition ordinary (x : R) : Prop := / 2 ^ 200 <= Rabs x <= 2 ^ 200.

(** The neighbours of a seed are neither too close nor too far from each other along their axes. *)
Definition spaced2 (G : group2 R) : Prop :=
  ordinary (fst (g_right G) - fst (g_left G)) /\ ordinary (snd (g_top G) - snd (g_bottom G)).
Definition spaced3 (G : group3 R) : Prop :=
  ordinary (v0 (h_right G) - v0 (h_left G)) /\ ordinary (v1 (h_top G) - v1 (h_bottom G)) /\
  ordinary (v2 (h_front G) - v2 (h_back G)).

(** No coordinate is larger than 2^200. *)
Definition bounded2 (G : group2 R) : Prop :=
  Forall (fun p => Rabs (fst p) <= 2 ^ 200 /\ Rabs (snd p) <= 2 ^ 200) (corners2 G).
Definition bounded3 (G : group3 R) : Prop :=
  Forall (fun p => Rabs (v0 p) <= 2 ^ 200 /\ Rabs (v1 p) <= 2 ^ 200 /\ Rabs (v2 p) <= 2 ^ 200) (corners3 G).

(** [x] is finite and equals [q] up to a relative error of 2^-50 and an underflow of at most 2^-1074. *)
Definition rounds_to (x : PrimFloat.float) (q : R) : Prop :=
  exists r, represents x r /\ Rabs (r - q) <= / 2 ^ 50 * Rabs q + / 2 ^ 1074.

Definition matrix_rounds_2 (F : m22 PrimFloat.float) (Q : m22 R) : Prop :=
  rounds_to (a00 F) (a00 Q) /\ rounds_to (a01 F) (a01 Q) /\ rounds_to (a10 F) (a10 Q) /\ rounds_to (a11 F) (a11 Q).
Definition matrix_rounds_3 (F : m33 PrimFloat.float) (Q : m33 R) : Prop :=
  (rounds_to (b00 F) (b00 Q) /\ rounds_to (b01 F) (b01 Q) /\ rounds_to (b02 F) (b02 Q)) /\
  (rounds_to (b10 F) (b10 Q) /\ rounds_to (b11 F) (b11 Q) /\ rounds_to (b12 F) (b12 Q)) /\
  (rounds_to (b20 F) (b20 Q) /\ rounds_to (b21 F) (b21 Q) /\ rounds_to (b22 F) (b22 Q)).

(** Entries of at most 2^199, some entry of at least 2^-199. *)
Definition well_scaled (Q : m22 R) : Prop :=
  Forall (fun x => Rabs x <= 2 ^ 199) [a00 Q; a01 Q; a10 Q; a11 Q] /\
  Exists (fun x => / 2 ^ 199 <= Rabs x) [a00 Q; a01 Q; a10 Q; a11 Q].

(** The exact central differences of a list of seeds. *)
Definition gradients2 (Gs Gs' : list (group2 R)) : list (m22 R) := map (fun p => gradient2 (fst p) (snd p)) (combine Gs Gs').
Definition gradients3 (Gs Gs' : list (group3 R)) : list (m33 R) := map (fun p => gradient3 (fst p) (snd p)) (combine Gs Gs').
