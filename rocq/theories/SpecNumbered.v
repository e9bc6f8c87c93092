(** Vocabulary of the statements about files that carry the number of their snapshot.  No proofs here. *)
From Verif Require Import Base.
Local Open Scope string_scope.

(** [s] consists of decimal digits and stands for the number [n]; leading zeros are allowed. *)
Inductive decimal : string -> nat -> Prop :=
| decimal_none : decimal "" 0
| decimal_digit d s n : d < 10 -> decimal s n -> decimal (String (ascii_of_nat (48 + d)) s) (d * 10 ^ String.length s + n).

(** [path] is that of the snapshot number [n] in a series of files "before<number>after". *)
Definition numbered (before after path : string) (n : nat) : Prop :=
  exists s, path = append before (append s after) /\ s <> "" /\ decimal s n.

(** The number is written with [w] digits. *)
Definition numbered_width (w : nat) (before after path : string) : Prop :=
  exists s n, path = append before (append s after) /\ String.length s = w /\ decimal s n.

(** The files of [l] are in the order of their numbers. *)
Definition in_time_order (before after : string) (l : list string) : Prop :=
  forall i j a b m n, i < j -> nth_error l i = Some a -> nth_error l j = Some b ->
    numbered before after a m -> numbered before after b n -> m < n.
