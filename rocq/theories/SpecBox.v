(** Vocabulary for gridded data on points that need not be equally spaced. *)
From Coq Require Import Reals.
From Verif Require Import Base.
Local Open Scope R_scope.

(** All numbers of the list lie between [a] and [b]. *)
Definition between_all (a b : R) (r : list R) : Prop := forall x, In x r -> a <= x <= b.

(** Two arrays of points (one row for each coordinate, one column for each point) of the same shape
    with the same bounding box: whatever interval holds a coordinate of all points of one holds it
    for the other. *)
Definition same_box (p q : mat R) : Prop :=
  wf_mat p /\ wf_mat q /\ mcols p = mcols q /\
  Forall2 (fun r s => forall a b, between_all a b r <-> between_all a b s) (mrows p) (mrows q).

(** The points of the rectangular grid with the lines [xs] and [ys], x fastest. *)
Definition mesh2 (xs ys : list R) : mat R :=
  let nx := length xs in let n := (nx * length ys)%nat in
  Mat n [map (fun k => nth (k mod nx) xs 0) (seq 0 n); map (fun k => nth (k / nx) ys 0) (seq 0 n)].

(** The distance between neighbouring lines if [length xs] lines between the first and the last were equally spaced. *)
Definition spacing (xs : list R) : R := (nth (length xs - 1) xs 0 - nth 0 xs 0) / (INR (length xs) - 1).
Definition equally_spaced (xs : list R) : Prop := forall k, (k < length xs)%nat -> nth k xs 0 = nth 0 xs 0 + INR k * spacing xs.
