(** Specification vocabulary for the seed recipes of the notebooks (C123).  Independent of the code. *)
From Coq Require Import Reals List.
From Verif Require Import Base Num NdArray Jacobian SpecSeeds.
Import ListNotations.
Local Open Scope R_scope.

(** The neighbours of a point at distance [s]. *)
Definition around2 (s : R) (x y : R) : group2 R := Group2 (x - s, y) (x + s, y) (x, y + s) (x, y - s).
Definition around3 (s : R) (x y z : R) : group3 R :=
  Group3 (x - s, y, z) (x + s, y, z) (x, y + s, z) (x, y - s, z) (x, y, z + s) (x, y, z - s).

(** The gradient of a map by central differences. *)
Definition central2 (phi : R * R -> R * R) (s x y : R) : m22 R :=
  let dx c := (c (phi (x + s, y)) - c (phi (x - s, y))) / (2 * s) in
  let dy c := (c (phi (x, y + s)) - c (phi (x, y - s))) / (2 * s) in
  M22 (dx fst) (dy fst) (dx snd) (dy snd).
Definition central3 (phi : R * R * R -> R * R * R) (s x y z : R) : m33 R :=
  let dx c := (c (phi (x + s, y, z)) - c (phi (x - s, y, z))) / (2 * s) in
  let dy c := (c (phi (x, y + s, z)) - c (phi (x, y - s, z))) / (2 * s) in
  let dz c := (c (phi (x, y, z + s)) - c (phi (x, y, z - s))) / (2 * s) in
  let c0 p := fst (fst p) in let c1 p := snd (fst p) in let c2 p := snd p in
  M33 (dx c0) (dy c0) (dz c0) (dx c1) (dy c1) (dz c1) (dx c2) (dy c2) (dz c2).
