(** Specification vocabulary for whole runs on gridded data. *)
From Coq Require Import Reals Floats.
From Verif Require Import Base Num NdArray Readers Jacobian Integrate SpecGrid SpecFiles SpecSeeds SpecIntegrate SpecOrder SpecConverge SpecFloat64 SpecFloatGrid SpecRounding.

Section Queries.
  Context {T : Type} (O : ops T) (D : list T -> Prop).

  (** The points at which a step from [x] asks for the velocity all satisfy [D]. *)
  Definition rk4_asks (v : list T -> list T) (h : T) (x : list T) : Prop :=
    let hh := o_mul O (o_half O) h in
    let k1 := v x in
    let k2 := v (vadd O x (vscale O hh k1)) in
    let k3 := v (vadd O x (vscale O hh k2)) in
    D x /\ D (vadd O x (vscale O hh k1)) /\ D (vadd O x (vscale O hh k2)) /\ D (vadd O x (vscale O h k3)).

  (** The same for all steps of a path. *)
  Fixpoint euler_asks (steps : list ((list T -> list T) * T)) (x : list T) : Prop :=
    match steps with
    | [] => True
    | (v, h) :: steps' => D x /\ euler_asks steps' (textbook_euler O v h x)
    end.
  Fixpoint ab2_asks (steps : list ((list T -> list T) * T)) (vp : option (list T)) (x : list T) : Prop :=
    match steps with
    | [] => True
    | (v, h) :: steps' => D x /\ ab2_asks steps' (Some (v x))
        (match vp with None => textbook_euler O v h x | Some w => textbook_ab2 O v h w x end)
    end.
  Fixpoint rk4_path_asks (steps : list ((list T -> list T) * T)) (x : list T) : Prop :=
    match steps with
    | [] => True
    | (v, h) :: steps' => rk4_asks v h x /\ rk4_path_asks steps' (textbook_rk4 O v h x)
    end.
  Definition asks (m : method) (steps : list ((list T -> list T) * T)) (x : list T) : Prop :=
    match m with
    | MEuler => euler_asks steps x
    | MAB2 => ab2_asks steps None x
    | MRK4 => rk4_path_asks steps x
    end.
End Queries.

(** [s] answers queries at [n] points of [D] with the field [v], now and later. *)
Definition samples_within {T S} (n d : nat) (D : list T -> Prop) (interpolate : S -> mat T -> S * res (mat T))
  (I : (list T -> list T) -> S -> Prop) : Prop :=
  forall v s m, I v s -> length (mrows m) = n -> mcols m = d -> Forall D (mrows m) ->
    exists s', interpolate s m = (s', Ok (Mat d (map v (mrows m)))) /\ I v s'.


Local Open Scope R_scope.

(** The i-th of [n] equidistant lines from [lo] to [hi], and their distance. *)
Definition spacing (n : nat) (lo hi : R) : R := (hi - lo) / (INR n - 1).
Definition line (n : nat) (lo hi : R) (i : nat) : R := lo + INR i * spacing n lo hi.

(** An array as np.meshgrid makes them: the element of the i-th column and j-th row belongs to node (i, j) of the grid.
    All elements are finite and their values satisfy [Q]. *)
Definition mesh (nx ny : nat) (Q : nat -> nat -> R -> Prop) (a : nd PrimFloat.float) : Prop :=
  shape a = [ny; nx] /\ wf_nd a /\
  forall i j, (i < nx)%nat -> (j < ny)%nat -> exists x X, nd_get a [j; i] = Ok x /\ represents x X /\ Q i j X.

(** A MAT file with the coordinates of the nodes of a grid on [x0, x1] x [y0, y1]. *)
Definition holds_grid (nx ny : nat) (x0 x1 y0 y1 : R) (data : matfile PrimFloat.float) : Prop :=
  exists a b, data "coordinate_x"%string = Some a /\ data "coordinate_y"%string = Some b /\ data "coordinate_z"%string = None /\
    mesh nx ny (fun i j X => x0 <= X <= x1 /\ (i = 0%nat -> X = x0) /\ (i + 1 = nx -> X = x1)%nat) a /\
    mesh nx ny (fun i j Y => y0 <= Y <= y1 /\ (j = 0%nat -> Y = y0) /\ (j + 1 = ny -> Y = y1)%nat) b.

(** A MAT file with samples of the velocity [v] at these nodes: each is at most [M] and off by at most [eps]. *)
Definition holds_velocity (nx ny : nat) (x0 x1 y0 y1 M eps : R) (v : list R -> list R) (data : matfile PrimFloat.float) : Prop :=
  let sample c i j X := Rabs X <= M /\ Rabs (X - coord c (v [line nx x0 x1 i; line ny y0 y1 j])) <= eps in
  exists a b, data "velocity_x"%string = Some a /\ data "velocity_y"%string = Some b /\ data "velocity_z"%string = None /\
    mesh nx ny (sample 0%nat) a /\ mesh nx ny (sample 1%nat) b.

(** How far velocities interpolated from such samples are from the velocity that was sampled, if its gradient is at most
    [L]: the error of the samples, the error of interpolating between them, and rounding. *)
Definition sampling_error (nx ny : nat) (x0 x1 y0 y1 L M eps : R) : R :=
  eps + L * Rmax (spacing nx x0 x1) (spacing ny y0 y1) + (/ 2 ^ 48 * (INR (nx + ny) * M) + / 2 ^ 1071).

(** The k-th velocity file samples [v k], and the k-th coordinate file holds the grid. *)
Definition gridded (fs : filesystem PrimFloat.float) (nx ny : nat) (x0 x1 y0 y1 M eps : R) (v : nat -> list R -> list R)
  (velocities coordinates : list string) : Prop :=
  forall k, (k < length velocities)%nat -> exists vf cf dv dc,
    nth_error velocities k = Some vf /\ nth_error coordinates k = Some cf /\ fs vf = Ok dv /\ fs cf = Ok dc /\
    holds_velocity nx ny x0 x1 y0 y1 M eps (v k) dv /\ holds_grid nx ny x0 x1 y0 y1 dc.

(** A MAT file with the neighbours of the seeds. *)
Definition holds_seeds {T} (gs : list (group2 T)) (data : matfile T) : Prop :=
  holds data "left" (arr2 (map g_left gs)) /\ holds data "right" (arr2 (map g_right gs)) /\
  holds data "top" (arr2 (map g_top gs)) /\ holds data "bottom" (arr2 (map g_bottom gs)) /\
  (data "front"%string = None \/ data "back"%string = None).

(** [c] is farther than [rho] from both ends of the interval, and a little farther from the upper one. *)
Definition clear_of (rho lo hi c : R) : Prop := lo + rho <= c /\ c + rho + (hi - lo) / 2 ^ 49 <= hi.

(** The magnitudes in a run of [n] steps of size [h] through velocities of at most [M], known up to [delta], on a grid whose
    coordinates are at most [B]: none is astronomically large or small, particles travel no farther than [rho], and RK4
    steps resolve the velocity gradient [L]. *)
Definition tame_on_grid (m : method) (B M delta L rho : R) (n : nat) (h : R) : Prop :=
  / 2 ^ 100 <= B <= 2 ^ 800 /\ / 2 ^ 500 <= M <= 2 ^ 799 /\ 0 <= delta <= 2 ^ 799 /\ 0 <= L /\
  (2 <= n)%nat /\ INR n <= 2 ^ 47 /\ / 2 ^ 199 <= (INR n - 1) * Rabs h <= 2 ^ 199 /\
  6 * (Rabs h * (M + delta)) <= B /\ INR n * (2 * (Rabs h * (M + delta)) + B / 2 ^ 51) <= rho /\ (m = MRK4 -> Rabs h * L <= 1).
