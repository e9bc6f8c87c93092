(** Model of src/pyftle/grid_interp/GridInterp.cpp and grid_interp.py.  No proofs here. *)
From Verif Require Import Base Num NdArray.

(** The smallest int of GridInterp.cpp (32 bits). *)
Definition INT_MIN : Z := (-2147483648)%Z.
(** The largest int of GridInterp.cpp (32 bits). *)
Definition INT_MAX : Z := 2147483647%Z.
(** The conversions static_cast<int> of GridInterp.cpp:28-49, 105-119 are defined for these values. *)
Definition fits_int (z : Z) : bool := ((INT_MIN <=? z) && (z <=? INT_MAX))%Z.

(** Result of signed [int] arithmetic: overflow is undefined behaviour (GridInterp.cpp:37-62, 116-130). *)
Definition c_int (z : Z) : res Z := if fits_int z then Ok z else Err UndefinedBehaviour.

(** static_cast<int>(ssize_t): reduction modulo 2^32 (what gcc, clang and MSVC do) (GridInterp.cpp:28-30, 105-106). *)
Definition int_of_ssize (z : Z) : Z := ((z + 2147483648) mod 4294967296 - 2147483648)%Z.

(** Read [ptr[k]] where the block holds the elements [l]: outside it is undefined behaviour (GridInterp.cpp:64-71, 131-134). *)
Definition ptr_get {A} (l : list A) (k : Z) : res A :=
  if (k <? 0)%Z then Err UndefinedBehaviour else cget l (Z.to_nat k).

Section GridInterp.
  Context {T : Type} (O : ops T).

  (** GridInterp.cpp:44-46, 116-117: static_cast<int>(std::floor(p)).  [None] is a NaN or
      infinite coordinate.  A value that does not fit an int is undefined behaviour. *)
  Definition floor_int (p : option T) : res Z :=
    match p with
    | None => Err UndefinedBehaviour
    | Some x => match o_floor O x with
                | None => Err UndefinedBehaviour
                | Some z => c_int z
                end
    end.

  (** px - x0: the int is converted to double.  Only reached for a finite [p] (GridInterp.cpp:44-58, 116-126). *)
  Definition frac (p : option T) (x0 : Z) : res T :=
    match p with
    | None => Err UndefinedBehaviour
    | Some x => Ok (o_sub O x (o_ofZ O x0))
    end.

  (** a * (1.0 - d) + b * d (GridInterp.cpp:73-84). *)
  Definition lerp (a b d : T) : T :=
    o_add O (o_mul O a (o_sub O (o_one O) d)) (o_mul O b d).

  (** GridInterp.cpp:39-90, body of the 3-D loop for one point. *)
  Definition interp3d_point (v : list T) (X Y Z YZ : Z) (px py pz : option T) : res T :=
    let* x0 := floor_int px in
    let* y0 := floor_int py in
    let* z0 := floor_int pz in
    let* x1 := c_int (x0 + 1) in
    let* y1 := c_int (y0 + 1) in
    let* z1 := c_int (z0 + 1) in
    let* xd := frac px x0 in
    let* yd := frac py y0 in
    let* zd := frac pz z0 in
    if ((0 <=? x0) && (x1 <? X) && (0 <=? y0) && (y1 <? Y) && (0 <=? z0) && (z1 <? Z))%Z then
      let idx := fun xi yi zi => (xi * YZ + yi * Z + zi)%Z in
      let* v000 := ptr_get v (idx x0 y0 z0) in
      let* v100 := ptr_get v (idx x1 y0 z0) in
      let* v001 := ptr_get v (idx x0 y0 z1) in
      let* v101 := ptr_get v (idx x1 y0 z1) in
      let* v010 := ptr_get v (idx x0 y1 z0) in
      let* v110 := ptr_get v (idx x1 y1 z0) in
      let* v011 := ptr_get v (idx x0 y1 z1) in
      let* v111 := ptr_get v (idx x1 y1 z1) in
      let c00 := lerp v000 v100 xd in
      let c01 := lerp v001 v101 xd in
      let c10 := lerp v010 v110 xd in
      let c11 := lerp v011 v111 xd in
      let c0 := lerp c00 c10 yd in
      let c1 := lerp c01 c11 yd in
      Ok (lerp c0 c1 zd)
    else Ok (o_zero O).

  (** GridInterp.cpp:112-141, body of the 2-D loop for one point. *)
  Definition interp2d_point (v : list T) (nx ny : Z) (px py : option T) : res T :=
    let* x0 := floor_int px in
    let* y0 := floor_int py in
    let* x1 := c_int (x0 + 1) in
    let* y1 := c_int (y0 + 1) in
    let* xd := frac px x0 in
    let* yd := frac py y0 in
    if ((0 <=? x0) && (x1 <? nx) && (0 <=? y0) && (y1 <? ny))%Z then
      let idx := fun xi yi => (xi * ny + yi)%Z in
      let* v00 := ptr_get v (idx x0 y0) in
      let* v10 := ptr_get v (idx x1 y0) in
      let* v01 := ptr_get v (idx x0 y1) in
      let* v11 := ptr_get v (idx x1 y1) in
      let one := o_one O in
      let m := o_mul O in
      let s := o_sub O in
      let a := o_add O in
      Ok (a (a (a (m (m v00 (s one xd)) (s one yd)) (m (m v10 xd) (s one yd)))
               (m (m v01 (s one xd)) yd)) (m (m v11 xd) yd))
    else Ok (o_zero O).

  (** GridInterp.cpp:15-91, interp3d_vec_inplace.  [out] is the buffer that is overwritten:
      the result is its new contents.  The order of the loop is the order of the points. *)
  Definition interp3d_vec_inplace (v : nd T) (points : mat (option T)) (out : list T)
    : res (list T) :=
    match shape v with
    | [sx; sy; sz] =>
        if negb (mcols points =? 3) then Err RuntimeError
        else if negb (length out =? nrows points) then Err RuntimeError
        else
          let X := int_of_ssize (Z.of_nat sx) in
          let Y := int_of_ssize (Z.of_nat sy) in
          let Z := int_of_ssize (Z.of_nat sz) in
          let* YZ := c_int (Y * Z) in
          mapr (fun p => let* px := cget p 0 in let* py := cget p 1 in let* pz := cget p 2 in
                         interp3d_point (data v) X Y Z YZ px py pz) (mrows points)
    | _ => Err RuntimeError
    end.

  (** GridInterp.cpp:93-142, interp2d_vec_inplace. *)
  Definition interp2d_vec_inplace (v : nd T) (points : mat (option T)) (out : list T)
    : res (list T) :=
    match shape v with
    | [sx; sy] =>
        if negb (mcols points =? 2) then Err RuntimeError
        else if negb (length out =? nrows points) then Err RuntimeError
        else
          let nx := int_of_ssize (Z.of_nat sx) in
          let ny := int_of_ssize (Z.of_nat sy) in
          mapr (fun p => let* px := cget p 0 in let* py := cget p 1 in
                         interp2d_point (data v) nx ny px py) (mrows points)
    | _ => Err RuntimeError
    end.

  (** One axis of grid_interp.py:32-35, 114-119: first and last coordinate and the
      spacing (max - min) / (n - 1); [None] is a NaN or infinite spacing (n = 1). *)
  Record axis : Type := Axis { a_min : T; a_max : T; a_delta : option T }.

  (** grid_interp.py:32-35, 114-119 for one axis. *)
  Definition mk_axis (x : list T) : res axis :=
    let* first := get x 0 in
    let* last := get x (length x - 1) in
    Ok (Axis first last
          (np_div O (o_sub O last first) (o_ofZ O (Z.of_nat (length x) - 1)))).

  (** (arr[:, c] - min) / delta, elementwise (grid_interp.py:78-79, 164-168). *)
  Definition to_grid (a : axis) (x : T) : option T :=
    match a_delta a with
    | None => None
    | Some d => np_div O (o_sub O x (a_min a)) d
    end.

  (** grid_interp.py:6-38: Interp2D objects. *)
  Record interp2d : Type := Interp2D {
    i2_v : nd T; i2_x : axis; i2_y : axis; i2_buffer : option (mat (option T)) }.

  (** grid_interp.py:88-121: Interp3D objects. *)
  Record interp3d : Type := Interp3D {
    i3_v : nd T; i3_x : axis; i3_y : axis; i3_z : axis; i3_buffer : option (mat (option T)) }.

  (** grid_interp.py:30-38, Interp2D.__init__. *)
  Definition mk_interp2d (v : nd T) (x y : list T) : res interp2d :=
    let* ax := mk_axis x in
    let* ay := mk_axis y in
    Ok (Interp2D v ax ay None).

  (** grid_interp.py:112-121, Interp3D.__init__. *)
  Definition mk_interp3d (v : nd T) (x y z : list T) : res interp3d :=
    let* ax := mk_axis x in
    let* ay := mk_axis y in
    let* az := mk_axis z in
    Ok (Interp3D v ax ay az None).

  (** grid_interp.py:71-72, 156-157: reuse the index buffer if it has as many rows as the
      query (its number of columns is not compared), else allocate one like the query. *)
  Definition grid_buffer (junk : nat -> nat -> option T) (b : option (mat (option T)))
    (t : mat T) : mat (option T) :=
    match b with
    | Some m => if nrows m =? nrows t then m else junk_mat junk (nrows t) (mcols t)
    | None => junk_mat junk (nrows t) (mcols t)
    end.

  (** points[:, c] = (arr[:, c] - min) / delta (grid_interp.py:78-79, 164-168). *)
  Definition fill_col (a : axis) (c : nat) (t : mat T) (buf : mat (option T))
    : res (mat (option T)) :=
    let* xs := get_col t c in set_col buf c (map (to_grid a) xs).

  (** grid_interp.py:40-85, Interp2D.__call__(t, out): the new object (its buffer) and the new
      contents of [out].  When a column assignment fails the columns already written are
      not recorded: they are overwritten before being read. *)
  Definition call2d (junk : nat -> nat -> option T) (o : interp2d) (t : mat T) (out : list T)
    : interp2d * res (list T) :=
    let buf := grid_buffer junk (i2_buffer o) t in
    let with_buffer b := Interp2D (i2_v o) (i2_x o) (i2_y o) (Some b) in
    match (let* b0 := fill_col (i2_x o) 0 t buf in fill_col (i2_y o) 1 t b0) with
    | Err e => (with_buffer buf, Err e)
    | Ok b => (with_buffer b, interp2d_vec_inplace (i2_v o) b out)
    end.

  (** grid_interp.py:123-172, Interp3D.__call__. *)
  Definition call3d (junk : nat -> nat -> option T) (o : interp3d) (t : mat T) (out : list T)
    : interp3d * res (list T) :=
    let buf := grid_buffer junk (i3_buffer o) t in
    let with_buffer b := Interp3D (i3_v o) (i3_x o) (i3_y o) (i3_z o) (Some b) in
    match (let* b0 := fill_col (i3_x o) 0 t buf in
           let* b1 := fill_col (i3_y o) 1 t b0 in
           fill_col (i3_z o) 2 t b1) with
    | Err e => (with_buffer buf, Err e)
    | Ok b => (with_buffer b, interp3d_vec_inplace (i3_v o) b out)
    end.
End GridInterp.
Arguments Axis {T} a_min a_max a_delta.
Arguments a_min {T} a. Arguments a_max {T} a. Arguments a_delta {T} a.
Arguments Interp2D {T}.
Arguments i2_v {T}. Arguments i2_x {T}. Arguments i2_y {T}. Arguments i2_buffer {T}.
Arguments Interp3D {T}.
Arguments i3_v {T}. Arguments i3_x {T}. Arguments i3_y {T}. Arguments i3_z {T}. Arguments i3_buffer {T}.
Arguments axis T : clear implicits.
Arguments interp2d T : clear implicits.
Arguments interp3d T : clear implicits.
