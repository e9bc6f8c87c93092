(** Model of src/pyftle/file_writers.py.  No proofs here. *)
From Verif Require Import Base Num NdArray.

(** Contents of the files.  A .mat file holds the arrays given to savemat (which stores a
    one-dimensional array as one row).  A .vts file holds the dimensions of the structured grid, its
    points in VTK order (first index fastest) and the array "ftle", attached to the points or to the
    cells; a .vtp file holds points and the array "ftle". *)
Inductive content (T : Type) : Type :=
| MatFile (ftle : nd (xval T)) (x y : nd T) (z : option (nd T))
| VtsFile (dims : nat * nat * nat) (points : list (T * T * T)) (on_points : bool) (ftle : list (xval T))
| VtpFile (points : list (list T)) (ftle : list (xval T)).
Arguments MatFile {T}. Arguments VtsFile {T}. Arguments VtpFile {T}.

(** file_writers.py:269-310: the two formats. *)
Inductive format : Type := Mat_format | Vtk_format.

(** file_writers.py:32-44, attributes of a writer.  Simplification: os.makedirs only prints its errors,
    and saving a file succeeds. *)
Record writer : Type := Writer {
  wr_format : format;
  wr_path : string;
  wr_shape : option (list nat)
}.

(** os.path.join(a, b) on POSIX (file_writers.py:122-266). *)
Fixpoint ends_with_slash (s : string) : bool :=
  match s with
  | EmptyString => false
  | String c EmptyString => Ascii.eqb c "/"
  | String _ s' => ends_with_slash s'
  end.
(** os.path.join(a, b), called at file_writers.py:122, 221, 239, 256, 266. *)
Definition path_join (a b : string) : string :=
  match b with
  | String c _ => if Ascii.eqb c "/" then b
                  else if String.eqb a "" || ends_with_slash a then append a b else append a (append "/" b)
  | EmptyString => if String.eqb a "" || ends_with_slash a then a else append a "/"
  end.

Section Writers.
  Context {T : Type} (O : ops T).

  (** What writing changes: the attribute [dim] and the files (file_writers.py:32-44). *)
  Record wstate : Type := WState {
    w_dim : option nat;
    w_files : string -> option (content T)
  }.
  (** Saving the file [path] replaces its contents (file_writers.py:122-164, 221-266). *)
  Definition put (files : string -> option (content T)) (path : string) (c : content T)
    : string -> option (content T) := fun p => if String.eqb p path then Some c else files p.

  (** a[..., c] (file_writers.py:139-245). *)
  Definition last_axis {A} (a : nd A) (c : nat) : res (nd A) :=
    match rev (shape a) with
    | n :: s => let s := rev s in
                if c <? n then nd_build s (fun ix => nd_get a (ix ++ [c])) else Err IndexError
    | [] => Err IndexError
    end.

  (** "nx, ny[, nz] = grid_shape" (file_writers.py:124-136, 222-240). *)
  Definition grid3 (s : list nat) : res (nat * nat * nat) :=
    match s with
    | [nx; ny] => Ok (nx, ny, 1)
    | [nx; ny; nz] => Ok (nx, ny, nz)
    | _ => Err ValueError
    end.

  (** file_writers.py:118-164, MatWriter.write: what is saved. *)
  Definition mat_content (grid_shape : option (list nat)) (dim : nat) (ftle : list (xval T)) (centroid : mat T)
    : res (content T) :=
    match grid_shape with
    | Some (n :: s) =>                                  (* "if self.grid_shape": not None, not empty *)
        let* g := grid3 (n :: s) in
        match g with
        | (nx, ny, nz) =>
            let* f := reshape_c (nd_of_list ftle) [nx; ny; nz] in
            let* c := reshape_c (nd_of_mat centroid) [nx; ny; nz; dim] in
            let* x := last_axis c 0 in
            let* y := last_axis c 1 in
            if dim =? 3 then let* z := last_axis c 2 in Ok (MatFile f x y (Some z))
            else Ok (MatFile f x y None)
        end
    | _ =>
        let* x := get_col centroid 0 in
        let* y := get_col centroid 1 in
        if dim =? 3 then
          let* z := get_col centroid 2 in
          Ok (MatFile (nd_of_list ftle) (nd_of_list x) (nd_of_list y) (Some (nd_of_list z)))
        else Ok (MatFile (nd_of_list ftle) (nd_of_list x) (nd_of_list y) None)
    end.

  (** pv.StructuredGrid(x, y, z): the points in VTK order (file_writers.py:228-246). *)
  Definition grid_points (x y z : nd T) : res (list (T * T * T)) :=
    let* xs := ravel_f x in
    let* ys := ravel_f y in
    let* zs := ravel_f z in
    Ok (combine (combine xs ys) zs).

  (** Number of cells of a structured grid. *)
  Definition cells (nx ny nz : nat) : nat := Nat.max 1 (nx - 1) * Nat.max 1 (ny - 1) * Nat.max 1 (nz - 1).

  (** grid["ftle"] = values: point data if there is one value per point, else cell data if there is one
      per cell, else ValueError.  Simplification: an empty grid has no cells and no points. *)
  Definition attach (nx ny nz : nat) (points : list (T * T * T)) (values : list (xval T)) : res (content T) :=
    if length values =? length points then Ok (VtsFile (nx, ny, nz) points true values)
    else if (length values =? cells nx ny nz) && negb (nx * ny * nz =? 0)
    then Ok (VtsFile (nx, ny, nz) points false values)
    else Err ValueError.

  (** file_writers.py:217-266, VTKWriter.write: what is saved.  pv.PolyData raises ValueError unless the
      points have three columns, and its cells are its points. *)
  Definition vtk_content (grid_shape : option (list nat)) (dim : nat) (ftle : list (xval T)) (centroid : mat T)
    : res (content T) :=
    match grid_shape with
    | Some [nx; ny] =>
        let* c := reshape_f (nd_of_mat centroid) [nx; ny; 1; dim] in
        let* x := last_axis c 0 in
        let* y := last_axis c 1 in
        let z := Nd (shape x) (map (fun _ => o_zero O) (data x)) in
        let* points := grid_points x y z in
        attach nx ny 1 points ftle                      (* ravel(order="F") of a 1-D array *)
    | Some [nx; ny; nz] =>
        let* c := reshape_c (nd_of_mat centroid) [nx; ny; nz; dim] in
        let* x := last_axis c 0 in
        let* y := last_axis c 1 in
        let* z := last_axis c 2 in
        let* points := grid_points x y z in
        let* m := reshape_c (nd_of_list ftle) [nx; ny; nz] in
        let* t := transpose_102 m in
        let* values := ravel_f t in
        attach nx ny nz points values
    | Some _ => Err ValueError
    | None =>
        let points := if dim =? 2 then Mat (mcols centroid + 1) (map (fun r => r ++ [o_zero O]) (mrows centroid))
                      else centroid in
        if negb (mcols points =? 3) then Err ValueError
        else if length ftle =? nrows points then Ok (VtpFile (mrows points) ftle)
        else Err ValueError
    end.

  (** The name of the file: file_writers.py:122, 221, 239, 256, 266. *)
  Definition extension (w : writer) : string :=
    match wr_format w, wr_shape w with
    | Mat_format, _ => ".mat"
    | Vtk_format, Some _ => ".vts"
    | Vtk_format, None => ".vtp"
    end.
  (** The path under which a result is saved (file_writers.py:122, 221, 239, 256, 266). *)
  Definition output_path (w : writer) (filename : string) : string :=
    match wr_format w with
    | Mat_format => path_join (wr_path w) (append filename (extension w))
    | Vtk_format => append (path_join (wr_path w) filename) (extension w)
    end.

  (** MatWriter.write and VTKWriter.write (file_writers.py:92-164, 191-266). *)
  Definition write (w : writer) (st : wstate) (filename : string) (ftle : list (xval T)) (centroid : mat T)
    : wstate * res unit :=
    let dim := match w_dim st with None => mcols centroid | Some d => d end in
    match (match wr_format w with
           | Mat_format => mat_content (wr_shape w) dim ftle centroid
           | Vtk_format => vtk_content (wr_shape w) dim ftle centroid
           end) with
    | Err e => (WState (Some dim) (w_files st), Err e)
    | Ok c => (WState (Some dim) (put (w_files st) (output_path w filename) c), Ok tt)
    end.

  (** file_writers.py:269-302, create_writer. *)
  Definition create_writer (output_format directory : string) (grid_shape : option (list nat)) : res writer :=
    if String.eqb output_format "mat" then Ok (Writer Mat_format directory grid_shape)
    else if String.eqb output_format "vtk" then Ok (Writer Vtk_format directory grid_shape)
    else Err ValueError.
End Writers.
