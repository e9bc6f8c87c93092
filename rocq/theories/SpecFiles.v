(** Specification vocabulary for input files. *)
From Verif Require Import Base Num NdArray Readers.

(** [row] lists the elements of [a] with the last index fastest: element [ix] of an array of shape
    [s] is at position [c_ravel s ix] (for shape [p; q], element (i, j) at i * q + j). *)
Definition flattened {T} (a : nd T) (row : list T) : Prop :=
  length row = size (shape a) /\
  forall ix v, nd_get a ix = Ok v -> nth_error row (c_ravel (shape a) ix) = Some v.

(** [r] is what a reader of the components [kx], [ky] and, if present, [kz] must return. *)
Definition reads {T} (data : matfile T) (kx ky kz : string) (r : res (mat T)) : Prop :=
  match data kx, data ky with
  | Some x, Some y =>
      let comps := x :: y :: match data kz with Some z => [z] | None => [] end in
      let same := Forall (fun a => size (shape a) = size (shape x)) comps in
      (same -> exists m, r = Ok m /\ mcols m = size (shape x) /\ Forall2 flattened comps (mrows m)) /\
      (~ same -> r = Err ValueError)
  | _, _ => r = Err ValueError
  end.

(** The file holds the 2-D array [m] under the name [k]. *)
Definition holds {T} (data : matfile T) (k : string) (m : mat T) : Prop := data k = Some (nd_of_mat m).
