(** Specification vocabulary for C137: by how much a step can spread particles.  [z] is the step times the Lipschitz constant of the velocity
    (for a smooth field, the largest row sum of the velocity gradient). *)
From Coq Require Import Reals.
From Verif Require Import Base Num SpecIntegrate.
Local Open Scope R_scope.

(** The rate at which n steps of size h can spread particles; 2 for the Adams-Bashforth method, which weighs two velocities by 3/2 and -1/2. *)
Definition weight (m : method) : R := match m with MAB2 => 2 | _ => 1 end.

(** The largest FTLE that n steps of size h can show in d dimensions, the elapsed time being counted as (n - 1) |h|. *)
Definition strain_bound (d : nat) (m : method) (L h : R) (n : nat) : R :=
  (ln (INR d) + weight m * (INR n * (Rabs h * L))) / ((INR n - 1) * Rabs h).

(** At most [b]; a seed whose neighbours have met has the value minus infinity. *)
Definition at_most (b : R) (x : xval R) : Prop :=
  match x with XVal r => r <= b | XNegInf => True | _ => False end.

(** A number that is at least [b]. *)
Definition at_least (b : R) (x : xval R) : Prop := exists r, x = XVal r /\ b <= r.

(** The smallest FTLE that n steps of size h can show when the steps are short for the strain. *)
Definition contraction_bound (L : R) (n : nat) : R := - (5 * (INR n / (INR n - 1) * L)).
