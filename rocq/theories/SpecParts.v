(** The windows of a run (C132, C133). *)
From Coq Require Import String List Arith.
From Verif Require Import Base Num.
Import ListNotations.

(** Files in the order in which a run with time step [h] uses them. *)
Definition in_order {T} (O : ops T) (h : T) (l : list string) : list string := if o_ltb O h (o_zero O) then rev l else l.

(** Window [i] of [p] snapshots: its velocity files, the coordinate file of each of them, and its particle file.  The last two lists
    are used again from the start when they are shorter. *)
Definition window (vs cs ps : list string) (p i : nat) : list string * list string * string :=
  (firstn p (skipn i vs), map (fun k => nth ((i + k) mod length cs) cs ""%string) (seq 0 p), nth (i mod length ps) ps ""%string).
Definition window_files (w : list string * list string * string) : list string := fst (fst w) ++ snd (fst w) ++ [snd w].

(** A part of a series: [before] velocity files are left out in front of it and [after] behind it.  The list [l] of coordinate or particle
    files becomes [l'] for the part: one file for all, or the same part of a list with one file for each velocity file. *)
Definition part_of (before n after : nat) (l l' : list string) : Prop :=
  (l' = l /\ length l = 1) \/
  (exists front back, l = front ++ l' ++ back /\ length front = before /\ length l' = n /\ length back = after).
