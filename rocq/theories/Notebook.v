(** Model of the seed recipes of the example notebooks: examples/01_Closed-form_velocity.ipynb (cells "Spacing for
    neighboring particles" and below), examples/01_Closed-form_velocity_helical.ipynb (the same in space) and
    examples/02_File-based_IO.ipynb (the particle file).  The cells are part of the repository's documentation, and users copy
    them.  No proofs here. *)
From Verif Require Import Base Num NdArray Readers Particles.

Section Notebook.
  Context {T : Type} (O : ops T).

  (** [np.meshgrid(x, y)]: two arrays of shape (len(y), len(x)) (the cells of the example notebooks that set up the seeds and show the field). *)
  Definition meshgrid_xy (x y : list T) : nd T * nd T :=
    (Nd [length y; length x] (flat_map (fun _ => x) y),
     Nd [length y; length x] (flat_map (fun b => map (fun _ => b) x) y)).

  (** [np.meshgrid(x, y, z, indexing="ij")]: three arrays of shape (len(x), len(y), len(z)) (the cells of the example notebooks that set up the seeds and show the field). *)
  Definition meshgrid_ij (x y z : list T) : nd T * nd T * nd T :=
    let s := [length x; length y; length z] in
    (Nd s (flat_map (fun a => flat_map (fun _ => map (fun _ => a) z) y) x),
     Nd s (flat_map (fun _ => flat_map (fun b => map (fun _ => b) z) y) x),
     Nd s (flat_map (fun _ => flat_map (fun _ => z) y) x)).

  (** [np.column_stack] of two or three one-dimensional arrays (the cells of the example notebooks that set up the seeds and show the field). *)
  Definition column_stack2 (a b : list T) : res (mat T) :=
    if length a =? length b then Ok (Mat 2 (zip_with (fun u v => [u; v]) a b)) else Err ValueError.
  (** The same with three arrays (the cells of the example notebooks that set up the seeds and show the field). *)
  Definition column_stack3 (a b c : list T) : res (mat T) :=
    if (length a =? length b) && (length b =? length c)
    then Ok (Mat 3 (zip_with (fun uv w => [fst uv; snd uv; w]) (combine a b) c)) else Err ValueError.

  (** [m + np.array(d)] and [m - np.array(d)] for an array with one row per point.  Simplification: a [d] of another length
      than the number of columns is an error (numpy would repeat a single number) (the cells of the example notebooks that set up the seeds and show the field). *)
  Definition shift (f : T -> T -> T) (m : mat T) (d : list T) : res (mat T) :=
    if mcols m =? length d then Ok (Mat (mcols m) (map (fun r => zip_with f r d) (mrows m))) else Err ValueError.

  (** [a + x] and [a - x] for an array and a number (the cells of the example notebooks that set up the seeds and show the field). *)
  Definition nd_shift (f : T -> T -> T) (a : nd T) (x : T) : nd T := Nd (shape a) (map (fun v => f v x) (data a)).

  (** [np.stack(arrays, axis=1)] of two-dimensional arrays (the cells of the example notebooks that set up the seeds and show the field). *)
  Definition stack_axis1 (l : list (mat T)) : res (nd T) :=
    match l with
    | [] => Err ValueError
    | a :: _ =>
        if forallb (fun m => (nrows m =? nrows a) && (mcols m =? mcols a)) l
        then nd_build [nrows a; length l; mcols a]
               (fun ix => match ix with
                          | [i; k; c] => let* m := get l k in let* r := get (mrows m) i in get r c
                          | _ => Err IndexError
                          end)
        else Err ValueError
    end.

  (** [a.reshape(-1, d, order="F")] (the cells of the example notebooks that set up the seeds and show the field). *)
  Definition reshape_rows (a : nd T) (d : nat) : res (mat T) :=
    let* b := reshape_f a [size (shape a) / d; d] in
    match mat_of_nd b with Some m => Ok m | None => Err ValueError end.

  (** 01_Closed-form_velocity.ipynb: [central_locations] and the four arrays of neighbours (the cells of the example notebooks that set up the seeds and show the field). *)
  Definition neighbors_2d (central_x central_y : list T) (spacing : T) : res (mat T * mat T * mat T * mat T) :=
    let '(Xc, Yc) := meshgrid_xy central_x central_y in
    let* central := column_stack2 (ravel_c Xc) (ravel_c Yc) in
    let* top := shift (o_add O) central [o_zero O; spacing] in
    let* bottom := shift (o_sub O) central [o_zero O; spacing] in
    let* lft := shift (o_sub O) central [spacing; o_zero O] in
    let* rgt := shift (o_add O) central [spacing; o_zero O] in
    Ok (lft, rgt, top, bottom).

  (** The same notebook: [positions], to be given to NeighboringParticles (the cells of the example notebooks that set up the seeds and show the field). *)
  Definition positions_2d (central_x central_y : list T) (spacing : T) : res (mat T) :=
    let* nb := neighbors_2d central_x central_y spacing in
    let '(lft, rgt, top, bottom) := nb in
    let* a := stack_axis1 [lft; rgt; top; bottom] in
    reshape_rows a 2.

  (** 02_File-based_IO.ipynb: the particle file.  [savemat] followed by [loadmat] returns two-dimensional arrays unchanged (the cells of the example notebooks that set up the seeds and show the field). *)
  Definition particle_file_2d (central_x central_y : list T) (gap : T) : res (matfile T) :=
    let* nb := neighbors_2d central_x central_y gap in
    let '(lft, rgt, top, bottom) := nb in
    Ok (fun key => if String.eqb key "top" then Some (nd_of_mat top) else
                   if String.eqb key "bottom" then Some (nd_of_mat bottom) else
                   if String.eqb key "left" then Some (nd_of_mat lft) else
                   if String.eqb key "right" then Some (nd_of_mat rgt) else None).

  (** 01_Closed-form_velocity_helical.ipynb: the six arrays of neighbours and [positions] (the cells of the example notebooks that set up the seeds and show the field). *)
  Definition positions_3d (xp yp zp : list T) (delta : T) : res (mat T) :=
    let '(Xc, Yc, Zc) := meshgrid_ij xp yp zp in
    let* top := column_stack3 (ravel_c Xc) (ravel_c (nd_shift (o_add O) Yc delta)) (ravel_c Zc) in
    let* bottom := column_stack3 (ravel_c Xc) (ravel_c (nd_shift (o_sub O) Yc delta)) (ravel_c Zc) in
    let* lft := column_stack3 (ravel_c (nd_shift (o_sub O) Xc delta)) (ravel_c Yc) (ravel_c Zc) in
    let* rgt := column_stack3 (ravel_c (nd_shift (o_add O) Xc delta)) (ravel_c Yc) (ravel_c Zc) in
    let* front := column_stack3 (ravel_c Xc) (ravel_c Yc) (ravel_c (nd_shift (o_add O) Zc delta)) in
    let* back := column_stack3 (ravel_c Xc) (ravel_c Yc) (ravel_c (nd_shift (o_sub O) Zc delta)) in
    let* a := stack_axis1 [lft; rgt; top; bottom; front; back] in
    reshape_rows a 3.

  (** [ftle_field.reshape(Xc.shape)]: the image that is shown (the cells of the example notebooks that set up the seeds and show the field). *)
  Definition image_2d {A} (central_x central_y : list T) (field : list A) : res (nd A) :=
    reshape_c (nd_of_list field) (shape (fst (meshgrid_xy central_x central_y))).
  (** The image in 3-D (no notebook shows one; the recipe is that of the 2-D cell). *)
  Definition image_3d {A} (xp yp zp : list T) (field : list A) : res (nd A) :=
    reshape_c (nd_of_list field) (shape (fst (fst (meshgrid_ij xp yp zp)))).
End Notebook.
