(** Specification vocabulary for the number of output files. *)
From Verif Require Import Base Writers Executor Jobs.

(** From [fs] to [fs'], exactly [k] different files were written, and completely; all others are as before. *)
Definition new_files {T} (k : nat) (fs fs' : files T) : Prop :=
  exists names, length names = k /\ NoDup names /\ (forall q, In q names -> exists x, fs' q = Some (Whole x)) /\
    forall q, ~ In q names -> fs' q = fs q.
