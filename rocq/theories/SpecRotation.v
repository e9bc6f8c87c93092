(** Vocabulary of C139. *)
From Coq Require Import Reals.
From Verif Require Import Base Num Jacobian.
Local Open Scope R_scope.

(** The velocity gradient of a solid-body rotation with angular velocity w. *)
Definition spin (w : R) : m22 R := M22 0 (- w) w 0.

(** The velocity gradient of a rotation with angular velocity (p, q, r): x -> (p, q, r) x x, in three dimensions. *)
Definition spin3 (p q r : R) : m33 R := M33 0 (- r) q r 0 (- p) (- q) p 0.
