(** Specification vocabulary for the convergence of whole FTLE fields: the finite-difference gradient of a flow map and
    the flow map of a velocity field. *)
From Coq Require Import Reals.
From Verif Require Import Base Num Jacobian SpecFtle SpecSeeds SpecIntegrate SpecOrder.
Local Open Scope R_scope.

(** Central differences of a map that sends the neighbours [g] of a seed to [g']. *)
Definition gradient2 (g g' : group2 R) : m22 R :=
  let dx := fst (g_right g) - fst (g_left g) in
  let dy := snd (g_top g) - snd (g_bottom g) in
  M22 ((fst (g_right g') - fst (g_left g')) / dx) ((fst (g_top g') - fst (g_bottom g')) / dy)
      ((snd (g_right g') - snd (g_left g')) / dx) ((snd (g_top g') - snd (g_bottom g')) / dy).

Definition gradient3 (g g' : group3 R) : m33 R :=
  let dx := v0 (h_right g) - v0 (h_left g) in
  let dy := v1 (h_top g) - v1 (h_bottom g) in
  let dz := v2 (h_front g) - v2 (h_back g) in
  M33 ((v0 (h_right g') - v0 (h_left g')) / dx) ((v0 (h_top g') - v0 (h_bottom g')) / dy) ((v0 (h_front g') - v0 (h_back g')) / dz)
      ((v1 (h_right g') - v1 (h_left g')) / dx) ((v1 (h_top g') - v1 (h_bottom g')) / dy) ((v1 (h_front g') - v1 (h_back g')) / dz)
      ((v2 (h_right g') - v2 (h_left g')) / dx) ((v2 (h_top g') - v2 (h_bottom g')) / dy) ((v2 (h_front g') - v2 (h_back g')) / dz).

Definition corners2 (g : group2 R) : list (R * R) := [g_left g; g_right g; g_top g; g_bottom g].
Definition corners3 (g : group3 R) : list vec3 := [h_left g; h_right g; h_top g; h_bottom g; h_front g; h_back g].

(** [phi t x] is where the flow of [v] takes, by time [t], the particle that is at [x] at time [a]; its acceleration is
    bounded. *)
Definition carries2 (v : R -> list R -> list R) (a b : R) (phi : R -> R * R -> R * R) (x : R * R) : Prop :=
  phi a x = x /\ trajectory 2 v a b (fun t => row2 (phi t x)) /\ exists M, rate a b M (fun t => v t (row2 (phi t x))).
Definition carries3 (v : R -> list R -> list R) (a b : R) (phi : R -> vec3 -> vec3) (x : vec3) : Prop :=
  phi a x = x /\ trajectory 3 v a b (fun t => row3 (phi t x)) /\ exists M, rate a b M (fun t => v t (row3 (phi t x))).
