(** Specification vocabulary for seed particles: groups of neighbours and the
    block layout of the positions array.  Independent of the model of particles.py. *)
From Verif Require Import Base Num.

Section Seeds.
  Context {T : Type}.

  (** One seed in 2D: its four neighbours. *)
  Record group2 : Type := Group2 { g_left : T * T; g_right : T * T; g_top : T * T; g_bottom : T * T }.
  (** One seed in 3D: its six neighbours. *)
  Record group3 : Type := Group3 {
    h_left : T * T * T; h_right : T * T * T; h_top : T * T * T; h_bottom : T * T * T;
    h_front : T * T * T; h_back : T * T * T }.

  Definition row2 (p : T * T) : list T := match p with (x, y) => [x; y] end.
  Definition row3 (p : T * T * T) : list T := match p with (x, y, z) => [x; y; z] end.

  (** An array with one row per point. *)
  Definition arr2 (l : list (T * T)) : mat T := Mat 2 (map row2 l).
  Definition arr3 (l : list (T * T * T)) : mat T := Mat 3 (map row3 l).

  (** Positions array: all left rows, then all right, top, bottom (front, back) rows. *)
  Definition layout2 (gs : list group2) : mat T :=
    arr2 (map g_left gs ++ map g_right gs ++ map g_top gs ++ map g_bottom gs).
  Definition layout3 (gs : list group3) : mat T :=
    arr3 (map h_left gs ++ map h_right gs ++ map h_top gs ++ map h_bottom gs
          ++ map h_front gs ++ map h_back gs).

  (** Pointwise operations on points. *)
  Definition pt2 (f : T -> T -> T) (p q : T * T) : T * T := (f (fst p) (fst q), f (snd p) (snd q)).
  Definition pt3 (f : T -> T -> T) (p q : T * T * T) : T * T * T :=
    (f (fst (fst p)) (fst (fst q)), f (snd (fst p)) (snd (fst q)), f (snd p) (snd q)).

  (** The image of a group under a map of the plane / space. *)
  Definition image2 (phi : T * T -> T * T) (g : group2) : group2 :=
    Group2 (phi (g_left g)) (phi (g_right g)) (phi (g_top g)) (phi (g_bottom g)).
  Definition image3 (phi : T * T * T -> T * T * T) (g : group3) : group3 :=
    Group3 (phi (h_left g)) (phi (h_right g)) (phi (h_top g)) (phi (h_bottom g))
      (phi (h_front g)) (phi (h_back g)).
End Seeds.
Arguments group2 T : clear implicits.
Arguments group3 T : clear implicits.
Arguments Group2 {T}.
Arguments Group3 {T}.

(** Displacements across a group and the mean of its members. *)
Section Geometry.
  Context {T : Type} (O : ops T).
  Definition rl2 (g : group2 T) := pt2 (o_sub O) (g_right g) (g_left g).
  Definition tb2 (g : group2 T) := pt2 (o_sub O) (g_top g) (g_bottom g).
  Definition mean2 (g : group2 T) : T * T :=
    let m := fun c => o_div O (o_add O (o_add O (o_add O (c (g_left g)) (c (g_right g))) (c (g_top g)))
                                 (c (g_bottom g))) (o_ofZ O 4) in
    (m fst, m snd).
  Definition rl3 (g : group3 T) := pt3 (o_sub O) (h_right g) (h_left g).
  Definition tb3 (g : group3 T) := pt3 (o_sub O) (h_top g) (h_bottom g).
  Definition fb3 (g : group3 T) := pt3 (o_sub O) (h_front g) (h_back g).
  Definition mean3 (g : group3 T) : T * T * T :=
    let m := fun c : T * T * T -> T =>
      o_div O (o_add O (o_add O (o_add O (o_add O (o_add O (c (h_left g)) (c (h_right g))) (c (h_top g)))
                 (c (h_bottom g))) (c (h_front g))) (c (h_back g))) (o_ofZ O 6) in
    (m (fun p => fst (fst p)), m (fun p => snd (fst p)), m snd).
End Geometry.
