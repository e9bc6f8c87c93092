(** Model of src/pyftle/particles.py. *)
From Verif Require Import Base Num.

(** particles.py:9-70, class NeighboringParticles (dataclass fields). In 2D
    [initial_delta_front_back] is [np.zeros(0)], represented by an array without rows. *)
Record particles (T : Type) : Type := Particles {
  positions : mat T;
  initial_delta_top_bottom : mat T;
  initial_delta_right_left : mat T;
  initial_delta_front_back : mat T;
  initial_centroid : mat T;
  num_neighbors : nat
}.
Arguments Particles {T}.
Arguments positions {T} p.
Arguments initial_delta_top_bottom {T} p.
Arguments initial_delta_right_left {T} p.
Arguments initial_delta_front_back {T} p.
Arguments initial_centroid {T} p.
Arguments num_neighbors {T} p.

Section Particles.
  Context {T : Type} (O : ops T).

  (** Array subtraction [a - b] (particles.py:153-214). *)
  Definition mat_sub (a b : mat T) : res (mat T) := mat_map2 (o_sub O) a b.

  (** particles.py:153-171.  [left, right, *_ = np.split(...)]: fewer than two
      parts is a ValueError of the unpacking. *)
  Definition compute_delta_right_left (pos : mat T) (nn : nat) : res (mat T) :=
    let* parts := np_split pos nn in
    match parts with
    | lft :: rgt :: _ => mat_sub rgt lft
    | _ => Err ValueError
    end.

  (** particles.py:174-192.  [_, _, top, bottom, *_ = np.split(...)]. *)
  Definition compute_delta_top_bottom (pos : mat T) (nn : nat) : res (mat T) :=
    let* parts := np_split pos nn in
    match parts with
    | _ :: _ :: top :: bottom :: _ => mat_sub top bottom
    | _ => Err ValueError
    end.

  (** particles.py:195-213.  [*_, front, back = np.split(...)]: the last two parts. *)
  Definition compute_delta_front_back (pos : mat T) (nn : nat) : res (mat T) :=
    let* parts := np_split pos nn in
    match rev parts with
    | back :: front :: _ => mat_sub front back
    | _ => Err ValueError
    end.

  (** np.mean(parts, axis=0): sum of the parts, first to last, divided by their
      number.  numpy array division by a non-zero count (particles.py:236-237). *)
  Fixpoint mat_sum (acc : mat T) (l : list (mat T)) : res (mat T) :=
    match l with
    | [] => Ok acc
    | m :: l' => let* acc' := mat_map2 (o_add O) acc m in mat_sum acc' l'
    end.

  (** np.mean(parts, axis=0) at particles.py:216-238. *)
  Definition mean_parts (parts : list (mat T)) : res (mat T) :=
    match parts with
    | [] => Err ValueError
    | p0 :: ps =>
        let* s := mat_sum p0 ps in
        Ok (mat_map (fun x => o_div O x (o_ofZ O (Z.of_nat (length parts)))) s)
    end.

  (** particles.py:216-237. *)
  Definition compute_centroid (pos : mat T) (nn : nat) : res (mat T) :=
    let* parts := np_split pos nn in
    mean_parts parts.

  (** particles.py:72-93, __post_init__ (the constructor of the dataclass). *)
  Definition mk_particles (pos : mat T) : res (particles T) :=
    if (nrows pos mod 4 =? 0) || (nrows pos mod 6 =? 0) then
      let nn := mcols pos * 2 in
      let* itb := compute_delta_top_bottom pos nn in
      let* irl := compute_delta_right_left pos nn in
      let* ifb := (if mcols pos =? 3 then compute_delta_front_back pos nn
                   else Ok (Mat 0 [])) in
      let* ic := compute_centroid pos nn in
      Ok (Particles pos itb irl ifb ic nn)
    else Err AssertionError.

  (** particles.py:95-97, __len__. *)
  Definition particles_len (p : particles T) : nat :=
    nrows (positions p) / num_neighbors p.

  (** particles.py:99-150, the properties computed from the current positions. *)
  Definition delta_top_bottom (p : particles T) : res (mat T) :=
    compute_delta_top_bottom (positions p) (num_neighbors p).
  (** particles.py:112-123. *)
  Definition delta_right_left (p : particles T) : res (mat T) :=
    compute_delta_right_left (positions p) (num_neighbors p).
  (** particles.py:125-137. *)
  Definition delta_front_back (p : particles T) : res (mat T) :=
    compute_delta_front_back (positions p) (num_neighbors p).
  (** particles.py:139-150. *)
  Definition centroid (p : particles T) : res (mat T) :=
    compute_centroid (positions p) (num_neighbors p).

  (** Assignment [particles.positions[...] = m] made in place by the integrators:
      every other field keeps its value (integrate.py:184-330). *)
  Definition set_positions (p : particles T) (m : mat T) : particles T :=
    Particles m (initial_delta_top_bottom p) (initial_delta_right_left p)
      (initial_delta_front_back p) (initial_centroid p) (num_neighbors p).
End Particles.
