(** Specification vocabulary for the limit of small stencils: the gradient of a flow map, and centred stencils. *)
From Coq Require Import Reals.
From Verif Require Import Base Num Jacobian SpecFtle SpecSeeds.
Local Open Scope R_scope.

(** [F] holds the partial derivatives of the map [f] at the point [c]. *)
Definition jacobian2 (f : R * R -> R * R) (c : R * R) (F : m22 R) : Prop :=
  derivable_pt_lim (fun x => fst (f (x, snd c))) (fst c) (a00 F) /\ derivable_pt_lim (fun y => fst (f (fst c, y))) (snd c) (a01 F) /\
  derivable_pt_lim (fun x => snd (f (x, snd c))) (fst c) (a10 F) /\ derivable_pt_lim (fun y => snd (f (fst c, y))) (snd c) (a11 F).

Definition jacobian3 (f : vec3 -> vec3) (c : vec3) (F : m33 R) : Prop :=
  (derivable_pt_lim (fun x => v0 (f (x, v1 c, v2 c))) (v0 c) (b00 F) /\
   derivable_pt_lim (fun y => v0 (f (v0 c, y, v2 c))) (v1 c) (b01 F) /\
   derivable_pt_lim (fun z => v0 (f (v0 c, v1 c, z))) (v2 c) (b02 F)) /\
  (derivable_pt_lim (fun x => v1 (f (x, v1 c, v2 c))) (v0 c) (b10 F) /\
   derivable_pt_lim (fun y => v1 (f (v0 c, y, v2 c))) (v1 c) (b11 F) /\
   derivable_pt_lim (fun z => v1 (f (v0 c, v1 c, z))) (v2 c) (b12 F)) /\
  (derivable_pt_lim (fun x => v2 (f (x, v1 c, v2 c))) (v0 c) (b20 F) /\
   derivable_pt_lim (fun y => v2 (f (v0 c, y, v2 c))) (v1 c) (b21 F) /\
   derivable_pt_lim (fun z => v2 (f (v0 c, v1 c, z))) (v2 c) (b22 F)).

(** [g] is a cross of particles around [c] whose arms are shorter than [delta]. *)
Definition stencil2 (delta : R) (c : R * R) (g : group2 R) : Prop := exists a b, 0 < a < delta /\ 0 < b < delta /\
  g = Group2 (fst c - a, snd c) (fst c + a, snd c) (fst c, snd c + b) (fst c, snd c - b).
Definition stencil3 (delta : R) (c : vec3) (g : group3 R) : Prop := exists a b d, 0 < a < delta /\ 0 < b < delta /\ 0 < d < delta /\
  g = Group3 (v0 c - a, v1 c, v2 c) (v0 c + a, v1 c, v2 c) (v0 c, v1 c + b, v2 c) (v0 c, v1 c - b, v2 c)
             (v0 c, v1 c, v2 c + d) (v0 c, v1 c, v2 c - d).

(** All coordinates of [x] differ from those of [c] by less than [r]. *)
Definition within2 (r : R) (c x : R * R) : Prop := Rabs (fst x - fst c) < r /\ Rabs (snd x - snd c) < r.
Definition within3 (r : R) (c x : vec3) : Prop := Rabs (v0 x - v0 c) < r /\ Rabs (v1 x - v1 c) < r /\ Rabs (v2 x - v2 c) < r.
