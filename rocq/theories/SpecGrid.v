(** Specification vocabulary for gridded data: multilinear functions and interpolation on a
    unit lattice.  Independent of the model of the interpolators. *)
From Coq Require Import Reals.
From Verif Require Import Base.
Local Open Scope R_scope.

(** Polynomials of degree at most one in each variable. *)
Definition multilinear2 (f : R -> R -> R) : Prop :=
  exists a b c d, forall x y, f x y = a + b * x + c * y + d * x * y.

Definition multilinear3 (f : R -> R -> R -> R) : Prop :=
  exists a b c d e g h k, forall x y z,
    f x y z = a + b * x + c * y + d * z + e * x * y + g * x * z + h * y * z + k * x * y * z.

(** [val] is the bilinear interpolant at (x, y) of the lattice data [V] : it is the value there of
    every multilinear function that agrees with [V] at the four corners of the cell
    [i, i+1) x [j, j+1) containing (x, y). *)
Definition bilinear_at (V : nat -> nat -> R) (x y val : R) : Prop :=
  forall i j f, multilinear2 f ->
    INR i <= x < INR i + 1 -> INR j <= y < INR j + 1 ->
    (forall di dj, (di <= 1)%nat -> (dj <= 1)%nat ->
       f (INR (i + di)) (INR (j + dj)) = V (i + di)%nat (j + dj)%nat) ->
    val = f x y.

Definition trilinear_at (V : nat -> nat -> nat -> R) (x y z val : R) : Prop :=
  forall i j k f, multilinear3 f ->
    INR i <= x < INR i + 1 -> INR j <= y < INR j + 1 -> INR k <= z < INR k + 1 ->
    (forall di dj dk, (di <= 1)%nat -> (dj <= 1)%nat -> (dk <= 1)%nat ->
       f (INR (i + di)) (INR (j + dj)) (INR (k + dk)) = V (i + di)%nat (j + dj)%nat (k + dk)%nat) ->
    val = f x y z.

(** [val] lies between the smallest and the largest corner value of the cell. *)
Definition between2 (V : nat -> nat -> R) (x y val : R) : Prop :=
  forall i j lo hi, INR i <= x < INR i + 1 -> INR j <= y < INR j + 1 ->
    (forall di dj, (di <= 1)%nat -> (dj <= 1)%nat -> lo <= V (i + di)%nat (j + dj)%nat <= hi) ->
    lo <= val <= hi.

Definition between3 (V : nat -> nat -> nat -> R) (x y z val : R) : Prop :=
  forall i j k lo hi, INR i <= x < INR i + 1 -> INR j <= y < INR j + 1 -> INR k <= z < INR k + 1 ->
    (forall di dj dk, (di <= 1)%nat -> (dj <= 1)%nat -> (dk <= 1)%nat ->
       lo <= V (i + di)%nat (j + dj)%nat (k + dk)%nat <= hi) ->
    lo <= val <= hi.

(** A coordinate strictly below the last of [n] lattice lines, and one off the lattice. *)
Definition inside (n : nat) (x : R) : Prop := 0 <= x < INR n - 1.
Definition outside (n : nat) (x : R) : Prop := x < 0 \/ INR n - 1 < x.

(** A coordinate whose cell fits a C int. *)
Definition fits (x : R) : Prop := -2147483648 <= x < 2147483647.

(** Nodes of a uniform grid in the order of numpy's meshgrid (default indexing 'xy'), flattened:
    sample number k of an nx x ny grid is node (k mod nx, k / nx) : x varies fastest. *)
Definition node2 (nx k : nat) : nat * nat := (k mod nx, k / nx)%nat.
(** In three dimensions meshgrid lists y slowest, then x, then z. *)
Definition node3 (nx nz k : nat) : nat * nat * nat :=
  ((k / nz) mod nx, k / nz / nx, k mod nz)%nat.

(** Number of the sample at a node: the inverses. *)
Definition sample2 (nx i j : nat) : nat := (i + nx * j)%nat.
Definition sample3 (nx nz i j k : nat) : nat := ((j * nx + i) * nz + k)%nat.

(** Coordinates of the samples of a uniform grid with first node (x0, y0) and spacings dx, dy. *)
Definition grid_points2 (nx ny : nat) (x0 y0 dx dy : R) : mat R :=
  Mat (nx * ny)
    [map (fun k => x0 + INR (fst (node2 nx k)) * dx) (seq 0 (nx * ny));
     map (fun k => y0 + INR (snd (node2 nx k)) * dy) (seq 0 (nx * ny))].

Definition grid_points3 (nx ny nz : nat) (x0 y0 z0 dx dy dz : R) : mat R :=
  Mat (nx * ny * nz)
    [map (fun k => x0 + INR (fst (fst (node3 nx nz k))) * dx) (seq 0 (nx * ny * nz));
     map (fun k => y0 + INR (snd (fst (node3 nx nz k))) * dy) (seq 0 (nx * ny * nz));
     map (fun k => z0 + INR (snd (node3 nx nz k)) * dz) (seq 0 (nx * ny * nz))].

(** Velocity samples, one column per sample. *)
Definition samples2 {A} (n : nat) (u v : nat -> A) : mat A := Mat n [map u (seq 0 n); map v (seq 0 n)].
Definition samples3 {A} (n : nat) (u v w : nat -> A) : mat A :=
  Mat n [map u (seq 0 n); map v (seq 0 n); map w (seq 0 n)].

(** Index coordinates of a point: its position counted in grid spacings from the first node. *)
Definition index2 (x0 y0 dx dy : R) (p : R * R) : R * R := ((fst p - x0) / dx, (snd p - y0) / dy).
Definition index3 (x0 y0 z0 dx dy dz : R) (p : R * R * R) : R * R * R :=
  ((fst (fst p) - x0) / dx, (snd (fst p) - y0) / dy, (snd p - z0) / dz).

(** Index coordinates on or beyond the last line, or below the first. *)
Definition beyond (n : nat) (x : R) : Prop := x < 0 \/ INR n - 1 <= x.

(** What an ideal sampler of lattice data [V] on an nx x ny grid (with the last lines excluded)
    answers at index coordinates (x, y). *)
Definition sampled2 (nx ny : nat) (V : nat -> nat -> R) (q : R * R) (val : R) : Prop :=
  (inside nx (fst q) /\ inside ny (snd q) -> bilinear_at V (fst q) (snd q) val /\ between2 V (fst q) (snd q) val) /\
  (beyond nx (fst q) \/ beyond ny (snd q) -> val = 0) /\
  (forall i j, (i + 1 < nx)%nat -> (j + 1 < ny)%nat -> q = (INR i, INR j) -> val = V i j).

Definition sampled3 (nx ny nz : nat) (V : nat -> nat -> nat -> R) (q : R * R * R) (val : R) : Prop :=
  (inside nx (fst (fst q)) /\ inside ny (snd (fst q)) /\ inside nz (snd q) ->
     trilinear_at V (fst (fst q)) (snd (fst q)) (snd q) val /\ between3 V (fst (fst q)) (snd (fst q)) (snd q) val) /\
  (beyond nx (fst (fst q)) \/ beyond ny (snd (fst q)) \/ beyond nz (snd q) -> val = 0) /\
  (forall i j k, (i + 1 < nx)%nat -> (j + 1 < ny)%nat -> (k + 1 < nz)%nat ->
     q = (INR i, INR j, INR k) -> val = V i j k).

(** Both (all) components of a sampled field at one point given by its index coordinates. *)
Definition field2 (nx ny : nat) (U W : nat -> nat -> R) (q o : R * R) : Prop :=
  sampled2 nx ny U q (fst o) /\ sampled2 nx ny W q (snd o).
Definition field3 (nx ny nz : nat) (U W Q : nat -> nat -> nat -> R) (q o : R * R * R) : Prop :=
  sampled3 nx ny nz U q (fst (fst o)) /\ sampled3 nx ny nz W q (snd (fst o)) /\ sampled3 nx ny nz Q q (snd o).

Definition fits2 (q : R * R) : Prop := fits (fst q) /\ fits (snd q).
Definition fits3 (q : R * R * R) : Prop := fits (fst (fst q)) /\ fits (snd (fst q)) /\ fits (snd q).

(** The lattice data of samples listed in meshgrid order. *)
Definition lattice2 (nx : nat) (u : nat -> R) : nat -> nat -> R := fun i j => u (sample2 nx i j).
Definition lattice3 (nx nz : nat) (u : nat -> R) : nat -> nat -> nat -> R := fun i j k => u (sample3 nx nz i j k).
