(** Longer series of snapshots (C122). *)
From Coq Require Import String List Arith.
Import ListNotations.

(** The list of coordinate or particle files [l] that was used with [n] velocity files becomes [l'] when velocity files are
    added at the end: it stays as it is, or it had a file for each velocity file and files are added to it too. *)
Definition grown (n : nat) (l l' : list string) : Prop :=
  l' = l \/ (n <= length l /\ exists more, l' = l ++ more).

(** The same for a run backward in time, when [k] velocity files are added: a list that stays as it is has a length that
    divides [k] (for instance 1), and to the other lists [k] files are added. *)
Definition grown_back (n k : nat) (l l' : list string) : Prop :=
  (l' = l /\ k mod length l = 0) \/ (n <= length l /\ exists more, length more = k /\ l' = l ++ more).
