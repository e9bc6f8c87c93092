(** Exchanged and reversed coordinate axes (C126).  Independent of the code. *)
From Coq Require Import Reals.
From Verif Require Import Base Num SpecSeeds.
Open Scope R_scope.

(** ** The plane *)

(** Which axes to take: exchange x and y first?  Then reverse the new x axis?  The new y axis? *)
Record axes2 : Type := Axes2 { exchange : bool; reverse_x : bool; reverse_y : bool }.

Definition signed (b : bool) (x : R) : R := if b then - x else x.
(** [(a, b)] or [(b, a)]. *)
Definition swapped {A} (b : bool) (p : A * A) : A * A := if b then (snd p, fst p) else p.

(** The coordinates of the point with the coordinates [p], or of a vector, along the other axes. *)
Definition turn2 (a : axes2) (p : R * R) : R * R :=
  (signed (reverse_x a) (fst (swapped (exchange a) p)), signed (reverse_y a) (snd (swapped (exchange a) p))).

(** The neighbours of a seed, in the new coordinates: they are the same four points, and the left one is the one on the low side of the new
    x axis, and so on. *)
Definition turn_group2 (a : axes2) (g : group2 R) : group2 R :=
  let along := swapped (exchange a) ((g_left g, g_right g), (g_bottom g, g_top g)) in
  let x := swapped (reverse_x a) (fst along) in
  let y := swapped (reverse_y a) (snd along) in
  image2 (turn2 a) (Group2 (fst x) (snd x) (snd y) (fst y)).

(** [v'] is the velocity field [v] in the new coordinates. *)
Definition turned2 (a : axes2) (v v' : R * R -> R * R) : Prop := forall p, v' (turn2 a p) = turn2 a (v p).

(** ** Space *)

(** Which old axes become the new x, y and z axes; then, which of the new ones are reversed. *)
Inductive order3 : Type := XYZ | XZY | YXZ | YZX | ZXY | ZYX.
Record axes3 : Type := Axes3 { order : order3; flip_x : bool; flip_y : bool; flip_z : bool }.

Definition pick {A} (o : order3) (x y z : A) : A * A * A :=
  match o with
  | XYZ => (x, y, z) | XZY => (x, z, y) | YXZ => (y, x, z) | YZX => (y, z, x) | ZXY => (z, x, y) | ZYX => (z, y, x)
  end.

Definition turn3 (a : axes3) (p : R * R * R) : R * R * R :=
  let q := pick (order a) (fst (fst p)) (snd (fst p)) (snd p) in
  (signed (flip_x a) (fst (fst q)), signed (flip_y a) (snd (fst q)), signed (flip_z a) (snd q)).

Definition turn_group3 (a : axes3) (g : group3 R) : group3 R :=
  let along := pick (order a) (h_left g, h_right g) (h_bottom g, h_top g) (h_back g, h_front g) in
  let x := swapped (flip_x a) (fst (fst along)) in
  let y := swapped (flip_y a) (snd (fst along)) in
  let z := swapped (flip_z a) (snd along) in
  image3 (turn3 a) (Group3 (fst x) (snd x) (snd y) (fst y) (snd z) (fst z)).

Definition turned3 (a : axes3) (v v' : R * R * R -> R * R * R) : Prop := forall p, v' (turn3 a p) = turn3 a (v p).

(** ** Exchanged axes in any arithmetic *)
Definition exchange2 {T} (p : T * T) : T * T := (snd p, fst p).
Definition exchange_group2 {T} (g : group2 T) : group2 T :=
  image2 exchange2 (Group2 (g_bottom g) (g_top g) (g_right g) (g_left g)).
Definition exchanged2 {T} (v v' : T * T -> T * T) : Prop := forall p, v' (exchange2 p) = exchange2 (v p).
(** Sums and products do not depend on the order of two operands. *)
Definition commutative {T} (O : ops T) : Prop := (forall a b, o_add O a b = o_add O b a) /\ (forall a b, o_mul O a b = o_mul O b a).
