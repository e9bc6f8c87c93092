(** Model of src/pyftle/interpolate.py.  No proofs here. *)
From Verif Require Import Base Num NdArray Integrate GridInterp.

(** SciPy, as far as interpolate.py uses it: arbitrary functions, over which every theorem
    quantifies.  Points and queries are arrays with one row per point.  Complex values are
    pairs (real part, imaginary part). *)
Record scipy (T : Type) : Type := Scipy {
  tri : Type;                                              (* scipy.spatial.Delaunay *)
  delaunay : mat T -> res tri;
  ct_eval : tri -> list (T * T) -> mat T -> res (list (T * T));   (* CloughTocher2DInterpolator *)
  lin_c : tri -> list (T * T) -> mat T -> res (list (T * T));     (* LinearNDInterpolator *)
  lin_r : tri -> list T -> mat T -> res (list T);
  near_check : mat T -> res unit;                          (* NearestNDInterpolator(points, _) *)
  near_c : mat T -> list (T * T) -> mat T -> res (list (T * T));
  near_r : mat T -> list T -> mat T -> res (list T);
  (* RegularGridInterpolator(axes, values, method): the check of the constructor, and the
     evaluation, which may depend on the values given to the constructor (spline methods
     fit them there) and on the current attribute [.values] *)
  rgi_check : string -> list (list T) -> nd T -> res unit;
  rgi_eval : string -> list (list T) -> nd T -> nd T -> mat T -> res (list T)
}.
Arguments tri {T} s. Arguments delaunay {T} s. Arguments ct_eval {T} s.
Arguments lin_c {T} s. Arguments lin_r {T} s. Arguments near_check {T} s.
Arguments near_c {T} s. Arguments near_r {T} s.
Arguments rgi_check {T} s. Arguments rgi_eval {T} s.

Section Interpolate.
  Context {T : Type} (O : ops T) (scp : scipy T).

  (** np.min / np.max of an array: ValueError if it is empty (interpolate.py:366-399, 637-660). *)
  Definition np_min (l : list T) : res T :=
    match l with [] => Err ValueError | x :: l' => Ok (fold_left (o_min O) l' x) end.
  (** np.max, in interpolate.py:366-399 and 637-660. *)
  Definition np_max (l : list T) : res T :=
    match l with [] => Err ValueError | x :: l' => Ok (fold_left (o_max O) l' x) end.

  (** np.linspace(a, b, n): [n] values [a + i * step] with the last one replaced by [b] (interpolate.py:365-401, 637-660). *)
  Definition linspace (a b : T) (n : nat) : list T :=
    match n with
    | 0 => []
    | 1 => [a]
    | _ => let step := o_div O (o_sub O b a) (o_ofZ O (Z.of_nat n - 1)) in
           map (fun i => o_add O (o_mul O (o_ofZ O (Z.of_nat i)) step) a) (seq 0 (n - 1)) ++ [b]
    end.

  (** np.linspace(min, max, n) of one coordinate (interpolate.py:365-401, 637-660). *)
  Definition grid_axis (coords : list T) (n : nat) : res (list T) :=
    let* a := np_min coords in
    let* b := np_max coords in
    Ok (linspace a b n).

  (** velocities[0] + 1j * velocities[1].  Simplification: the real part is exactly
      velocities[0] (IEEE: it is NaN where velocities[1] is infinite or NaN) (interpolate.py:136-155, 210-229, 266-277). *)
  Definition to_complex (v : mat T) : res (list (T * T)) :=
    let* u := get (mrows v) 0 in
    let* w := get (mrows v) 1 in
    Ok (combine u w).

  (** "different number of values and points", checked by every unstructured interpolator (interpolate.py:150-155, 216-229, 272-277). *)
  Definition check_values {A} (points : mat T) (values : list A) : res unit :=
    if mcols points =? length values then Ok tt else Err ValueError.

  (** interpolate.py:31-44, 132-134, 206-208 and NearestNeighborInterpolator: attributes of
      the unstructured interpolators ([points] has one row per coordinate).  For the nearest
      interpolator [u_tri] stays empty. *)
  Record unstructured (Obj : Type) : Type := Unstr {
    u_velocities : option (mat T);
    u_points : option (mat T);
    u_tri : option (tri scp);
    u_interp : option (Obj * list (T * T));
    u_interp_z : option (Obj * list T) }.
  Arguments Unstr {Obj}.
  Arguments u_velocities {Obj} u. Arguments u_points {Obj} u. Arguments u_tri {Obj} u.
  Arguments u_interp {Obj} u. Arguments u_interp_z {Obj} u.

  (** interpolate.py:31-44: all attributes are None. *)
  Definition unstructured_new {Obj} : unstructured Obj := Unstr None None None None None.

  (** interpolate.py:136-155, CubicInterpolator._initialize_interpolator.  The guard
      [self.tri is None or self.points is not None] is always true here, since
      [self.points] was tested before: the branch reusing the triangulation is dead. *)
  Definition cubic_init (o : unstructured (tri scp)) : unstructured (tri scp) * res unit :=
    match u_velocities o, u_points o with
    | Some v, Some p =>
        if nrows p =? 3 then (o, Err ValueError)
        else match (let* c := to_complex v in
                    let* pt := transpose2 p in
                    let* _ := check_values p c in
                    let* t := delaunay scp pt in Ok (t, c)) with
             | Err e => (o, Err e)
             | Ok (t, c) =>
                 (Unstr (u_velocities o) (u_points o) (Some t) (Some (t, c)) (u_interp_z o), Ok tt)
             end
    | _, _ => (o, Err ValueError)
    end.

  (** interpolate.py:210-229, LinearInterpolator._initialize_interpolator (same dead branch). *)
  Definition linear_init (o : unstructured (tri scp)) : unstructured (tri scp) * res unit :=
    match u_velocities o, u_points o with
    | Some v, Some p =>
        match (let* c := to_complex v in
               let* pt := transpose2 p in
               let* _ := check_values p c in
               let* t := delaunay scp pt in Ok (t, c)) with
        | Err e => (o, Err e)
        | Ok (t, c) =>
            let o1 := Unstr (u_velocities o) (u_points o) (Some t) (Some (t, c)) (u_interp_z o) in
            if nrows p =? 3 then
              match (let* w := get (mrows v) 2 in let* _ := check_values p w in Ok w) with
              | Err e => (o1, Err e)
              | Ok w => (Unstr (u_velocities o) (u_points o) (Some t) (Some (t, c)) (Some (t, w)), Ok tt)
              end
            else (o1, Ok tt)
        end
    | _, _ => (o, Err ValueError)
    end.

  (** interpolate.py:266-277, NearestNeighborInterpolator._initialize_interpolator. *)
  Definition nearest_init (o : unstructured (mat T)) : unstructured (mat T) * res unit :=
    match u_velocities o, u_points o with
    | Some v, Some p =>
        match (let* c := to_complex v in
               let* pt := transpose2 p in
               let* _ := check_values p c in
               let* _ := near_check scp pt in Ok (pt, c)) with
        | Err e => (o, Err e)
        | Ok (t, c) =>
            let o1 := Unstr (u_velocities o) (u_points o) None (Some (t, c)) (u_interp_z o) in
            if nrows p =? 3 then
              match (let* w := get (mrows v) 2 in let* _ := check_values p w in Ok w) with
              | Err e => (o1, Err e)
              | Ok w => (Unstr (u_velocities o) (u_points o) None (Some (t, c)) (Some (t, w)), Ok tt)
              end
            else (o1, Ok tt)
        end
    | _, _ => (o, Err ValueError)
    end.

  (** interpolate.py:70-91, Interpolator.update. *)
  Definition base_update {Obj} (init : unstructured Obj -> unstructured Obj * res unit)
    (o : unstructured Obj) (v : mat T) (p : option (mat T)) : unstructured Obj * res unit :=
    init (Unstr (Some v) (match p with Some _ => p | None => u_points o end)
            (u_tri o) (u_interp o) (u_interp_z o)).

  (** out[:, 0] = z.real; out[:, 1] = z.imag (interpolate.py:180-184, 241-242, 289-290). *)
  Definition set_complex (out : mat T) (z : list (T * T)) : res (mat T) :=
    let* o1 := set_col out 0 (map fst z) in set_col o1 1 (map snd z).

  (** interpolate.py:157-185, CubicInterpolator.interpolate.  [junk] is the contents of the
      array allocated by np.empty_like.  Calling [None] raises TypeError. *)
  Definition cubic_interpolate (junk : nat -> nat -> T) (o : unstructured (tri scp)) (q : mat T)
    : res (mat T) :=
    match u_interp o with
    | None => Err TypeError
    | Some (t, c) => let* z := ct_eval scp t c q in set_complex (empty_like junk q) z
    end.

  (** interpolate.py:231-246, LinearInterpolator.interpolate.  [len(new_points)] is the number
      of query points.  The attribute [interpolator_z] only exists after a 3-D initialisation. *)
  Definition linear_interpolate (junk : nat -> nat -> T) (o : unstructured (tri scp)) (q : mat T)
    : res (mat T) :=
    match u_interp o with
    | None => Err TypeError
    | Some (t, c) =>
        let* z := lin_c scp t c q in
        let* out := set_complex (empty_like junk q) z in
        if nrows q =? 3 then
          match u_interp_z o with
          | None => Err AttributeError
          | Some (tz, w) => let* zz := lin_r scp tz w q in set_col out 2 zz
          end
        else Ok out
    end.

  (** interpolate.py:279-294, NearestNeighborInterpolator.interpolate. *)
  Definition nearest_interpolate (junk : nat -> nat -> T) (o : unstructured (mat T)) (q : mat T)
    : res (mat T) :=
    match u_interp o with
    | None => Err TypeError
    | Some (t, c) =>
        let* z := near_c scp t c q in
        let* out := set_complex (empty_like junk q) z in
        if nrows q =? 3 then
          match u_interp_z o with
          | None => Err AttributeError
          | Some (tz, w) => let* zz := near_r scp tz w q in set_col out 2 zz
          end
        else Ok out
    end.

  (* -------------------------------------------------------------- *)
  (** interpolate.py:297-339, HighPerfInterpolator.  The component interpolators are 2-D or
      3-D objects. *)
  Inductive component : Type := C2 (o : interp2d T) | C3 (o : interp3d T).

  (** interpolate.py:327-339, the attributes. *)
  Record highperf : Type := HighPerf {
    h_shape : list nat;
    h_velocities : option (mat T);
    h_points : option (mat T);
    h_u : option (list T); h_v : option (list T); h_w : option (list T);
    h_x : option component; h_y : option component; h_z : option component }.

  (** interpolate.py:327-339, the constructor. *)
  Definition highperf_new (grid_shape : list nat) : highperf :=
    HighPerf grid_shape None None None None None None None None.

  (** coordinates = self.points.reshape((dim, *grid_shape)), then one linspace per axis (interpolate.py:359-401). *)
  Definition coordinate_axis (coordinates : nd T) (grid_shape : list nat) (a : nat) : res (list T) :=
    let* c := subarray coordinates a in
    let* n := get grid_shape a in
    grid_axis (data c) n.

  (** interpolate.py:342-424, HighPerfInterpolator._initialize_interpolator.  The three
      components are built before any is stored; in the code a failure cannot come between
      the assignments because the axes and [velocities] exist by then (IndexError of an empty
      axis comes from the first construction). *)
  Definition highperf_init (o : highperf) : highperf * res unit :=
    match h_velocities o, h_points o with
    | Some v, Some p =>
        let gs := h_shape o in
        let dim := length gs in
        let set x y z := HighPerf gs (h_velocities o) (h_points o) (h_u o) (h_v o) (h_w o)
                           (Some x) (Some y) z in
        match (let* coordinates := reshape_c (nd_of_mat p) (dim :: gs) in
               match gs with
               | [_; _] =>
                   let* vel := reshape_f (nd_of_mat v) (dim :: gs) in
                   let* gx := coordinate_axis coordinates gs 0 in
                   let* gy := coordinate_axis coordinates gs 1 in
                   let* v0 := subarray vel 0 in
                   let* ix := mk_interp2d O v0 gx gy in
                   let* v1 := subarray vel 1 in
                   let* iy := mk_interp2d O v1 gx gy in
                   Ok (set (C2 ix) (C2 iy) None)
               | [_; _; _] =>
                   let* vel0 := reshape_c (nd_of_mat v) (dim :: gs) in
                   let* vel := transpose_0213 vel0 in
                   let* gx := coordinate_axis coordinates gs 0 in
                   let* gy := coordinate_axis coordinates gs 1 in
                   let* gz := coordinate_axis coordinates gs 2 in
                   let* v0 := subarray vel 0 in
                   let* ix := mk_interp3d O v0 gx gy gz in
                   let* v1 := subarray vel 1 in
                   let* iy := mk_interp3d O v1 gx gy gz in
                   let* v2 := subarray vel 2 in
                   let* iz := mk_interp3d O v2 gx gy gz in
                   Ok (set (C3 ix) (C3 iy) (Some (C3 iz)))
               | _ => Err ValueError
               end) with
        | Ok o' => (o', Ok tt)
        | Err e => (o, Err e)
        end
    | _, _ => (o, Err ValueError)
    end.

  (** interpolator.v = row (interpolate.py:446-472). *)
  Definition set_field (row : list T) (c : component) : component :=
    match c with
    | C2 i => C2 (Interp2D (nd_of_list row) (i2_x i) (i2_y i) (i2_buffer i))
    | C3 i => C3 (Interp3D (nd_of_list row) (i3_x i) (i3_y i) (i3_z i) (i3_buffer i))
    end.

  (** interpolate.py:446-472, HighPerfInterpolator.update. *)
  Definition highperf_update (o : highperf) (v : mat T) (p : option (mat T)) : highperf * res unit :=
    match p with
    | Some _ =>
        highperf_init (HighPerf (h_shape o) (Some v) p (h_u o) (h_v o) (h_w o) (h_x o) (h_y o) (h_z o))
    | None =>
        let put x y z := HighPerf (h_shape o) (Some v) (h_points o) (h_u o) (h_v o) (h_w o) x y z in
        match h_x o, h_y o with
        | Some cx, Some cy =>
            match get (mrows v) 0 with
            | Err e => (put (h_x o) (h_y o) (h_z o), Err e)
            | Ok r0 =>
                let cx' := Some (set_field r0 cx) in
                match get (mrows v) 1 with
                | Err e => (put cx' (h_y o) (h_z o), Err e)
                | Ok r1 =>
                    let cy' := Some (set_field r1 cy) in
                    match h_z o with
                    | None => (put cx' cy' None, Ok tt)
                    | Some cz =>
                        match get (mrows v) 2 with
                        | Err e => (put cx' cy' (h_z o), Err e)
                        | Ok r2 => (put cx' cy' (Some (set_field r2 cz)), Ok tt)
                        end
                    end
                end
            end
        | _, _ =>                  (* [h_z] is only ever set together with [h_x] and [h_y] *)
            (put (h_x o) (h_y o) (h_z o), Ok tt)
        end
    end.

  (** interpolate.py:427-443, _ensure_buffers. *)
  Definition junk_list (junk : nat -> T) (n : nat) : list T := map junk (seq 0 n).

  (** interpolate.py:427-443: buffers of another size are replaced by fresh memory. *)
  Definition ensure_buffers (mem : memory) (o : highperf) (n dim : nat) : highperf :=
    let fresh := HighPerf (h_shape o) (h_velocities o) (h_points o)
        (Some (junk_list (mem 1 0) n)) (Some (junk_list (mem 2 0) n))
        (if dim =? 3 then Some (junk_list (mem 3 0) n) else h_w o) (h_x o) (h_y o) (h_z o) in
    match h_u o with
    | None => fresh
    | Some b => if length b =? n then o else fresh
    end.

  (** interpolator_x(new_points, out=buffer).  A buffer that is [None] is converted by
      pybind11 to a 0-dimensional array, which the kernel rejects with RuntimeError (unless
      the coordinate conversion before it fails first) (interpolate.py:475-543). *)
  Definition call_component (junk : nat -> nat -> option T) (c : component) (t : mat T)
    (out : option (list T)) : component * res (list T) :=
    match c with
    | C2 i =>
        match out with
        | Some b => let (i', r) := call2d O junk i t b in (C2 i', r)
        | None => let (i', r) := call2d O junk i t [] in
                  (C2 i', match r with Err e => Err e | Ok _ => Err RuntimeError end)
        end
    | C3 i =>
        match out with
        | Some b => let (i', r) := call3d O junk i t b in (C3 i', r)
        | None => let (i', r) := call3d O junk i t [] in
                  (C3 i', match r with Err e => Err e | Ok _ => Err RuntimeError end)
        end
    end.

  (** Index buffers of the components: their initial contents (grid_interp.py:72-74, 159-161). *)
  Definition index_junk (mem : memory) (k : nat) : nat -> nat -> option T :=
    fun i j => Some (mem k i j).

  (** interpolate.py:475-543: the first component object and its output buffer change. *)
  Definition with_u (o : highperf) c b :=
    HighPerf (h_shape o) (h_velocities o) (h_points o) (Some b) (h_v o) (h_w o) (Some c) (h_y o) (h_z o).
  (** The same for the second one (interpolate.py:475-543). *)
  Definition with_v (o : highperf) c b :=
    HighPerf (h_shape o) (h_velocities o) (h_points o) (h_u o) (Some b) (h_w o) (h_x o) (Some c) (h_z o).
  (** The same for the third one (interpolate.py:475-543). *)
  Definition with_w (o : highperf) c b :=
    HighPerf (h_shape o) (h_velocities o) (h_points o) (h_u o) (h_v o) (Some b) (h_x o) (h_y o) (Some c).
  (** interpolate.py:475-543: only the first component object changes. *)
  Definition set_x (o : highperf) c :=
    HighPerf (h_shape o) (h_velocities o) (h_points o) (h_u o) (h_v o) (h_w o) (Some c) (h_y o) (h_z o).
  (** The same for the second one (interpolate.py:475-543). *)
  Definition set_y (o : highperf) c :=
    HighPerf (h_shape o) (h_velocities o) (h_points o) (h_u o) (h_v o) (h_w o) (h_x o) (Some c) (h_z o).
  (** The same for the third one (interpolate.py:475-543). *)
  Definition set_z (o : highperf) c :=
    HighPerf (h_shape o) (h_velocities o) (h_points o) (h_u o) (h_v o) (h_w o) (h_x o) (h_y o) (Some c).

  (** Run one component and store its output buffer (interpolate.py:475-543). *)
  Definition run_x (mem : memory) (o : highperf) (c : component) (q : mat T) : highperf * res (list T) :=
    match call_component (index_junk mem 4) c q (h_u o) with
    | (c', Ok b) => (with_u o c' b, Ok b)
    | (c', Err e) => (set_x o c', Err e)
    end.
  (** The same for the second component (interpolate.py:475-543). *)
  Definition run_y (mem : memory) (o : highperf) (c : component) (q : mat T) : highperf * res (list T) :=
    match call_component (index_junk mem 5) c q (h_v o) with
    | (c', Ok b) => (with_v o c' b, Ok b)
    | (c', Err e) => (set_y o c', Err e)
    end.
  (** The same for the third component (interpolate.py:475-543). *)
  Definition run_z (mem : memory) (o : highperf) (c : component) (q : mat T) : highperf * res (list T) :=
    match call_component (index_junk mem 6) c q (h_w o) with
    | (c', Ok b) => (with_w o c' b, Ok b)
    | (c', Err e) => (set_z o c', Err e)
    end.

  (** interpolate.py:475-543, HighPerfInterpolator.interpolate (called without [out]). *)
  Definition highperf_interpolate (mem : memory) (o : highperf) (q : mat T)
    : highperf * res (mat T) :=
    let out := empty_like (mem 0) q in
    let o0 := ensure_buffers mem o (nrows q) (mcols q) in
    match mcols q with
    | 2 =>
        match h_x o0, h_y o0 with
        | Some cx, Some cy =>
            match run_x mem o0 cx q with
            | (o1, Err e) => (o1, Err e)
            | (o1, Ok bu) =>
                match run_y mem o1 cy q with
                | (o2, Err e) => (o2, Err e)
                | (o2, Ok bv) =>
                    (o2, let* out1 := set_col out 0 bu in set_col out1 1 bv)
                end
            end
        | _, _ => (o0, Err AssertionError)
        end
    | 3 =>
        match h_x o0, h_y o0, h_z o0 with
        | Some cx, Some cy, Some cz =>
            match run_x mem o0 cx q with
            | (o1, Err e) => (o1, Err e)
            | (o1, Ok bu) =>
                match run_y mem o1 cy q with
                | (o2, Err e) => (o2, Err e)
                | (o2, Ok bv) =>
                    match run_z mem o2 cz q with
                    | (o3, Err e) => (o3, Err e)
                    | (o3, Ok bw) =>
                        (o3, let* out1 := set_col out 0 bu in
                             let* out2 := set_col out1 1 bv in
                             set_col out2 2 bw)
                    end
                end
            end
        | _, _, _ => (o0, Err AssertionError)
        end
    | _ => (o0, Err ValueError)
    end.

  (* -------------------------------------------------------------- *)
  (** interpolate.py:546-600, GridInterpolator.  A RegularGridInterpolator: its axes, the
      values given to its constructor and its current attribute [.values]. *)
  Record rgi : Type := Rgi { r_axes : list (list T); r_built : nd T; r_values : nd T }.

  (** interpolate.py:584-600, the attributes of GridInterpolator. *)
  Record gridinterp : Type := GridI {
    g_method : string;
    g_shape : list nat;
    g_velocities : option (mat T);
    g_points : option (mat T);
    g_ndim : option nat;
    g_x : option rgi; g_y : option rgi; g_z : option rgi }.

  (** interpolate.py:584-600, the constructor. *)
  Definition gridinterp_new (grid_shape : list nat) (method : string) : res gridinterp :=
    if existsb (String.eqb method) ["linear"; "nearest"; "slinear"; "cubic"; "quintic"]%string
    then Ok (GridI method grid_shape None None None None None None)
    else Err ValueError.

  (** RegularGridInterpolator(axes, velocities[c].reshape(shape), method=...) (interpolate.py:637-686). *)
  Definition mk_rgi (method : string) (axes : list (list T)) (v : mat T) (c : nat) (s : list nat)
    : res rgi :=
    let* row := get (mrows v) c in
    let* vals := reshape_c (nd_of_list row) s in
    let* _ := rgi_check scp method axes vals in
    Ok (Rgi axes vals vals).

  (** self.points[a].min(), .max(), linspace (interpolate.py:637-660). *)
  Definition points_axis (p : mat T) (a n : nat) : res (list T) :=
    let* row := get (mrows p) a in grid_axis row n.

  (** interpolate.py:602-687, GridInterpolator._initialize_interpolator. *)
  Definition gridinterp_init (o : gridinterp) : gridinterp * res unit :=
    match g_velocities o, g_points o with
    | Some v, Some p =>
        let nd_ := nrows p in
        let mk x y z := GridI (g_method o) (g_shape o) (g_velocities o) (g_points o) (Some nd_) x y z in
        let fail x y e := (mk x y (g_z o), Err e) in
        let gs := g_shape o in
        if negb (size gs =? mcols p) then fail (g_x o) (g_y o) ValueError
        else if negb ((nd_ =? 2) || (nd_ =? 3)) then fail (g_x o) (g_y o) ValueError
        else
          match (if nd_ =? 2 then
                   match gs with
                   | [nx; ny] =>
                       let* x := points_axis p 0 nx in
                       let* y := points_axis p 1 ny in Ok [x; y]
                   | _ => Err ValueError
                   end
                 else
                   match gs with
                   | [nx; ny; nz] =>
                       let* x := points_axis p 0 nx in
                       let* y := points_axis p 1 ny in
                       let* z := points_axis p 2 nz in Ok [x; y; z]
                   | _ => Err ValueError
                   end) with
          | Err e => fail (g_x o) (g_y o) e
          | Ok axes =>
              match mk_rgi (g_method o) axes v 0 gs with
              | Err e => fail (g_x o) (g_y o) e
              | Ok rx =>
                  match mk_rgi (g_method o) axes v 1 gs with
                  | Err e => fail (Some rx) (g_y o) e
                  | Ok ry =>
                      if nd_ =? 2 then (mk (Some rx) (Some ry) (g_z o), Ok tt)
                      else match mk_rgi (g_method o) axes v 2 gs with
                           | Err e => fail (Some rx) (Some ry) e
                           | Ok rz => (mk (Some rx) (Some ry) (Some rz), Ok tt)
                           end
                  end
              end
          end
    | _, _ => (o, Err ValueError)
    end.

  (** interpolator.values = field[c]; [None] has no attribute to assign (interpolate.py:723-762). *)
  Definition set_values (r : option rgi) (field : nd T) (c : nat) : res rgi :=
    let* vals := subarray field c in
    match r with
    | None => Err AttributeError
    | Some r => Ok (Rgi (r_axes r) (r_built r) vals)
    end.

  (** interpolate.py:723-762, GridInterpolator.update. *)
  Definition gridinterp_update (o : gridinterp) (v : mat T) (p : option (mat T))
    : gridinterp * res unit :=
    match g_x o, p, g_ndim o with
    | Some rx, None, Some ndim =>
        let put x y z := GridI (g_method o) (g_shape o) (g_velocities o) (g_points o) (g_ndim o) x y z in
        match (if ndim =? 2 then reshape_f (nd_of_mat v) (ndim :: g_shape o)
               else reshape_c (nd_of_mat v) (ndim :: g_shape o)) with
        | Err e => (o, Err e)
        | Ok field =>
            match set_values (Some rx) field 0 with
            | Err e => (o, Err e)
            | Ok rx' =>
                match set_values (g_y o) field 1 with
                | Err e => (put (Some rx') (g_y o) (g_z o), Err e)
                | Ok ry' =>
                    if ndim =? 2 then (put (Some rx') (Some ry') (g_z o), Ok tt)
                    else match set_values (g_z o) field 2 with
                         | Err e => (put (Some rx') (Some ry') (g_z o), Err e)
                         | Ok rz' => (put (Some rx') (Some ry') (Some rz'), Ok tt)
                         end
                end
            end
        end
    | _, _, _ =>
        gridinterp_init (GridI (g_method o) (g_shape o) (Some v)
                           (match p with Some _ => p | None => g_points o end)
                           (g_ndim o) (g_x o) (g_y o) (g_z o))
    end.

  (** RegularGridInterpolator.__call__ (interpolate.py:689-720). *)
  Definition rgi_call (method : string) (r : option rgi) (q : mat T) : res (list T) :=
    match r with
    | None => Err TypeError
    | Some r => rgi_eval scp method (r_axes r) (r_built r) (r_values r) q
    end.

  (** interpolate.py:689-721, GridInterpolator.interpolate. *)
  Definition gridinterp_interpolate (junk : nat -> nat -> T) (o : gridinterp) (q : mat T)
    : res (mat T) :=
    match g_x o, g_ndim o with
    | Some rx, Some ndim =>
        let out := empty_like junk q in
        let* xs := rgi_call (g_method o) (Some rx) q in
        let* out0 := set_col out 0 xs in
        let* ys := rgi_call (g_method o) (g_y o) q in
        let* out1 := set_col out0 1 ys in
        if ndim =? 3 then
          let* zs := rgi_call (g_method o) (g_z o) q in set_col out1 2 zs
        else Ok out1
    | _, _ => Err ValueError
    end.

  (* -------------------------------------------------------------- *)
  (** interpolate.py:765-829, AnalyticalInterpolator: the user's function and the attribute
      [time], which nothing assigns after the constructor. *)
  Record analytical : Type := Analytical { velocity_fn : T -> mat T -> res (mat T); a_time : T }.

  (** The interpolator objects, and dynamic dispatch of [update] and [interpolate] (interpolate.py:832-895). *)
  Inductive interp : Type :=
  | ICubic (o : unstructured (tri scp))
  | ILinear (o : unstructured (tri scp))
  | INearest (o : unstructured (mat T))
  | IGrid (o : gridinterp)
  | IHigh (o : highperf)
  | IAnalytical (o : analytical).

  (** update of each class: interpolate.py:70-91, 446-472, 723-762, 814-829. *)
  Definition update (i : interp) (v : mat T) (p : option (mat T)) : interp * res unit :=
    match i with
    | ICubic o => let (o', r) := base_update cubic_init o v p in (ICubic o', r)
    | ILinear o => let (o', r) := base_update linear_init o v p in (ILinear o', r)
    | INearest o => let (o', r) := base_update nearest_init o v p in (INearest o', r)
    | IGrid o => let (o', r) := gridinterp_update o v p in (IGrid o', r)
    | IHigh o => let (o', r) := highperf_update o v p in (IHigh o', r)
    | IAnalytical o => (IAnalytical o, Ok tt)               (* interpolate.py:814-829 *)
    end.

  (** interpolate of each class: interpolate.py:157-185, 231-246, 279-294, 475-543, 689-720, 790-811. *)
  Definition interpolate (mem : memory) (i : interp) (q : mat T) : interp * res (mat T) :=
    match i with
    | ICubic o => (i, cubic_interpolate (mem 0) o q)
    | ILinear o => (i, linear_interpolate (mem 0) o q)
    | INearest o => (i, nearest_interpolate (mem 0) o q)
    | IGrid o => (i, gridinterp_interpolate (mem 0) o q)
    | IHigh o => let (o', r) := highperf_interpolate mem o q in (IHigh o', r)
    | IAnalytical o => (i, velocity_fn o (a_time o) q)      (* interpolate.py:790-812 *)
    end.

  (** interpolate.py:832-901, create_interpolator.  [None] as [velocity_fn] is a value that
      cannot be called. *)
  Definition create_interpolator (name : string) (grid_shape : option (list nat))
    (fn : option (T -> mat T -> res (mat T))) : res interp :=
    let n := lower name in
    if negb (existsb (String.eqb n) ["cubic"; "linear"; "nearest"; "analytical"; "grid"]%string)
    then Err ValueError
    else if String.eqb n "analytical" then
      match fn with
      | None => Err ExecutableNotFoundError
      | Some f => Ok (IAnalytical (Analytical f (o_zero O)))
      end
    else match grid_shape with
         | Some gs =>
             if String.eqb n "grid" then Ok (IHigh (highperf_new gs))
             else let* g := gridinterp_new gs n in Ok (IGrid g)
         | None =>
             if String.eqb n "cubic" then Ok (ICubic unstructured_new)
             else if String.eqb n "linear" then Ok (ILinear unstructured_new)
             else if String.eqb n "nearest" then Ok (INearest unstructured_new)
             else Err TypeError             (* HighPerfInterpolator() without grid_shape *)
         end.
End Interpolate.
Arguments Unstr {T scp Obj}.
Arguments u_velocities {T scp Obj} u. Arguments u_points {T scp Obj} u. Arguments u_tri {T scp Obj} u.
Arguments u_interp {T scp Obj} u. Arguments u_interp_z {T scp Obj} u.
Arguments unstructured_new {T scp Obj}.
Arguments C2 {T} o. Arguments C3 {T} o.
Arguments component T : clear implicits.
Arguments HighPerf {T}. Arguments h_shape {T} h.
Arguments h_velocities {T} h. Arguments h_points {T} h.
Arguments h_u {T} h. Arguments h_v {T} h. Arguments h_w {T} h.
Arguments h_x {T} h. Arguments h_y {T} h. Arguments h_z {T} h.
Arguments highperf T : clear implicits.
Arguments highperf_new {T} grid_shape.
Arguments Rgi {T}. Arguments r_axes {T} r. Arguments r_built {T} r. Arguments r_values {T} r.
Arguments rgi T : clear implicits.
Arguments GridI {T}. Arguments g_method {T} g. Arguments g_shape {T} g.
Arguments g_velocities {T} g. Arguments g_points {T} g. Arguments g_ndim {T} g.
Arguments g_x {T} g. Arguments g_y {T} g. Arguments g_z {T} g.
Arguments gridinterp T : clear implicits.
Arguments gridinterp_new {T} grid_shape method.
Arguments Analytical {T}. Arguments velocity_fn {T} a. Arguments a_time {T} a.
Arguments analytical T : clear implicits.
Arguments ICubic {T scp} o. Arguments ILinear {T scp} o. Arguments INearest {T scp} o.
Arguments IGrid {T scp} o. Arguments IHigh {T scp} o. Arguments IAnalytical {T scp} o.
Arguments interp {T} scp.
