(** Vocabulary for direct calls of the compiled interpolation kernels. *)
From Coq Require Import Reals.
From Verif Require Import Base Num GridInterp.

(** The index coordinate is finite and its cell fits a C int. *)
Definition c_fits {T} (O : ops T) (p : option T) : Prop :=
  exists x z, p = Some x /\ o_floor O x = Some z /\ (INT_MIN <= z < INT_MAX)%Z.

(** Points of a query, given by finite index coordinates. *)
Definition q2 {T} (pts : list (T * T)) : mat (option T) := Mat 2 (map (fun p => [Some (fst p); Some (snd p)]) pts).
Definition q3 {T} (pts : list (T * T * T)) : mat (option T) :=
  Mat 3 (map (fun p => [Some (fst (fst p)); Some (snd (fst p)); Some (snd p)]) pts).
