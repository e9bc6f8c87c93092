(** Specification vocabulary for whole runs of AnalyticalSolver in binary64. *)
From Coq Require Import Reals Floats.
From Verif Require Import Base Num NdArray Text Particles Jacobian Integrate AnalyticalRun Writers SpecSeeds SpecWriters SpecIntegrate SpecOrder SpecFloat64 SpecConverge SpecFloatJac
  SpecFtle SpecRounding SpecFloatRun SpecEigen SpecFloatRun3.
Local Open Scope R_scope.

(** The velocity function evaluates [g] at each position, at any time. *)
Definition steady_fn {T} (fn : T -> mat T -> res (mat T)) (g : list T -> list T) : Prop :=
  forall t q, fn t q = Ok (Mat (mcols q) (map g (mrows q))).

(** f"{x:06f}" in Python: the sign of [x], and its exact value rounded to six decimals, ties to even. *)
Definition six_decimals (format : PrimFloat.float -> string) : Prop :=
  forall x r, represents x r -> format x = fixed6 (PrimFloat.get_sign x) (Z.to_nat (round_half_even (Rabs r * IZR (10 ^ 6)))).

(** [x] is the time [i h] up to rounding. *)
Definition about (h : R) (i : nat) (x : PrimFloat.float) : Prop :=
  exists r, represents x r /\ Rabs (r - INR i * h) <= (INR i + 1) * (Rabs h / 2 ^ 50).

(** The file [x] of the output format [fmt] holds the values and centroids of [N] seeds in order. *)
Definition point_file {T} (O : ops T) (fmt : string) (N d : nat) (values : list (xval T)) (centroids : mat T) (x : content T) : Prop :=
  (fmt = "mat"%string /\ exists F X Y Z, x = MatFile F X Y Z /\
     arrays_hold [N] N d values centroids F X Y Z (fun ix => match ix with [r] => r | _ => 0%nat end)) \/
  (fmt = "vtk"%string /\ exists points, x = VtpFile points values /\ length values = N /\ length points = N /\
     forall q, (q < N)%nat -> exists a b c, nth_error points q = Some [a; b; c] /\ is_centroid O centroids q (a, b, c)).

(** A steady flow [v] in the plane, evaluated by [g], and seeds [gs] standing for [Gs]: [n] steps of size [h] with the
    method [m] resolve the flow maps [phi i] from the times [i h], up to position errors of [E] (see C109). *)
Definition resolves2 (m : method) (n : nat) (h : R) (g : list PrimFloat.float -> list PrimFloat.float) (v : list R -> list R)
  (gs : list (group2 PrimFloat.float)) (Gs : list (group2 R)) (phi : nat -> R * R -> R * R) (E : R) : Prop :=
  exists B B0 M delta L K J V,
  tame m B B0 M delta L n h /\ lipschitz_field 2 L (fun _ => v) /\ evaluates 2 B delta g v /\ speed 2 B M v /\
  (forall x, length x = 2%nat -> length (g x) = 2%nat) /\
  Forall2 seated2 gs Gs /\ Forall spaced2 Gs /\ Forall (within2 B0) Gs /\ 0 <= K /\ 0 <= J /\ 0 <= V /\
  E = rounding_bound n h delta B L + truncation m n h L K J V /\ E <= 2 ^ 199 /\
  forall i, let t := INR i * h in
    (forall G x, In G Gs -> In x (corners2 G) ->
       flow_along (regular m (fun _ => v) t (t + INR n * h) K J V) (fun _ => v) t (t + INR n * h) (phi i) x) /\
    Forall (fun G => exists s, resolved2 E (phi i) G s) Gs.

(** The same in space (C110). *)
Definition resolves3 (m : method) (n : nat) (h : R) (g : list PrimFloat.float -> list PrimFloat.float) (v : list R -> list R)
  (gs : list (group3 PrimFloat.float)) (Gs : list (group3 R)) (phi : nat -> vec3 -> vec3) (E : R) : Prop :=
  exists B B0 M delta L K J V,
  tame m B B0 M delta L n h /\ lipschitz_field 3 L (fun _ => v) /\ evaluates 3 B delta g v /\ speed 3 B M v /\
  (forall x, length x = 3%nat -> length (g x) = 3%nat) /\
  Forall2 seated3 gs Gs /\ Forall spaced3 Gs /\ Forall (within3 B0) Gs /\ 0 <= K /\ 0 <= J /\ 0 <= V /\
  E = rounding_bound n h delta B L + truncation m n h L K J V /\ E <= 2 ^ 199 /\
  forall i, let t := INR i * h in
    (forall G x, In G Gs -> In x (corners3 G) ->
       flow_along3 (regular m (fun _ => v) t (t + INR n * h) K J V) (fun _ => v) t (t + INR n * h) (phi i) x) /\
    Forall (fun G => exists s, resolved3 E (phi i) G s) Gs.

(** The FTLE field of [phi] at the seeds, over [n] steps of size [h], up to position errors of [E]. *)
Definition ftle_field2 (E : R) (phi : R * R -> R * R) (n : nat) (h : R) (Gs : list (group2 R)) (f : list (xval PrimFloat.float)) : Prop :=
  exists xs, f = map XVal xs /\
    Forall2 (fun G x => exists s, spectral_norm_2 (gradient2 G (image2 phi G)) s /\ ftle_within E (side2 G) s ((INR n - 1) * Rabs h) x) Gs xs.
Definition ftle_field3 (E : R) (phi : vec3 -> vec3) (n : nat) (h : R) (Gs : list (group3 R)) (f : list (xval PrimFloat.float)) : Prop :=
  exists xs, f = map XVal xs /\
    Forall2 (fun G x => exists s, spectral_norm_3 (gradient3 G (image3 phi G)) s /\ ftle_within3 E (side3 G) s ((INR n - 1) * Rabs h) x) Gs xs.
