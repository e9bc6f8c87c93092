(** n-dimensional numpy arrays: a shape and the elements in row-major (C) order.
    Simplification: values only.  Views, strides and dtypes are not represented, so
    [reshape], [transpose] and [ascontiguousarray] return new arrays.  No proofs here. *)
From Verif Require Import Base.

(** A numpy array (interpolate.py:359-386, file_writers.py:131-250). *)
Record nd (A : Type) : Type := Nd { shape : list nat; data : list A }.
Arguments Nd {A} shape data.
Arguments shape {A} n.
Arguments data {A} n.

(** Number of elements of an array of this shape (np.prod) (interpolate.py:359-386, file_writers.py:131-250). *)
Fixpoint size (s : list nat) : nat :=
  match s with [] => 1 | n :: s' => n * size s' end.

(** The data fit the shape: what makes the record an array (interpolate.py:359-386, file_writers.py:131-250). *)
Definition wf_nd {A} (a : nd A) : Prop := length (data a) = size (shape a).

(** [ix] is a valid index of an array of shape [s] (interpolate.py:359-386, file_writers.py:131-250). *)
Fixpoint in_bounds (s ix : list nat) : bool :=
  match s, ix with
  | [], [] => true
  | n :: s', i :: ix' => (i <? n) && in_bounds s' ix'
  | _, _ => false
  end.

(** Flat position of an index: last axis fastest (C) or first axis fastest (Fortran) (interpolate.py:359-386, file_writers.py:131-250). *)
Fixpoint c_ravel (s ix : list nat) : nat :=
  match s, ix with
  | _ :: s', i :: ix' => i * size s' + c_ravel s' ix'
  | _, _ => 0
  end.

(** The same with the first axis fastest (interpolate.py:359-386, file_writers.py:131-250). *)
Fixpoint f_ravel (s ix : list nat) : nat :=
  match s, ix with
  | n :: s', i :: ix' => i + n * f_ravel s' ix'
  | _, _ => 0
  end.

(** Index of a flat position in Fortran order (inverse of [f_ravel]) (interpolate.py:359-386, file_writers.py:131-250). *)
Fixpoint f_unravel (s : list nat) (k : nat) : list nat :=
  match s with
  | [] => []
  | n :: s' => k mod n :: f_unravel s' (k / n)
  end.

(** All indices of a shape, in row-major order (interpolate.py:359-386, file_writers.py:131-250). *)
Fixpoint indices (s : list nat) : list (list nat) :=
  match s with
  | [] => [[]]
  | n :: s' => flat_map (fun i => map (cons i) (indices s')) (seq 0 n)
  end.

(** [a[i, j, ...]] with non-negative indices (interpolate.py:359-386, file_writers.py:131-250). *)
Definition nd_get {A} (a : nd A) (ix : list nat) : res A :=
  if in_bounds (shape a) ix then get (data a) (c_ravel (shape a) ix) else Err IndexError.

(** The array of shape [s] whose element at [ix] is [f ix] (interpolate.py:359-386, file_writers.py:131-250). *)
Definition nd_build {A} (s : list nat) (f : list nat -> res A) : res (nd A) :=
  let* d := mapr f (indices s) in Ok (Nd s d).

(** np.reshape: the elements are read and placed in C order (default) or in Fortran
    order; another number of elements raises ValueError (interpolate.py:359-386, file_writers.py:131-250). *)
Definition reshape_c {A} (a : nd A) (s : list nat) : res (nd A) :=
  if size (shape a) =? size s then Ok (Nd s (data a)) else Err ValueError.

(** np.reshape(a, s, order=F) (interpolate.py:363, 750; file_writers.py:227). *)
Definition reshape_f {A} (a : nd A) (s : list nat) : res (nd A) :=
  if size (shape a) =? size s
  then nd_build s (fun ix => nd_get a (f_unravel (shape a) (f_ravel s ix)))
  else Err ValueError.

(** np.ravel(order="C" / "F") (file_readers.py:60-118, file_writers.py:235). *)
Definition ravel_c {A} (a : nd A) : list A := data a.
(** np.ravel(a, order=F) (file_writers.py:235, 250). *)
Definition ravel_f {A} (a : nd A) : res (list A) :=
  mapr (fun k => nd_get a (f_unravel (shape a) k)) (seq 0 (size (shape a))).

(** np.transpose(a, axes=(1, 0, 2)) and (0, 2, 1, 3): swap two axes.  Another number of
    axes raises ValueError (file_writers.py:249, interpolate.py:383). *)
Definition transpose_102 {A} (a : nd A) : res (nd A) :=
  match shape a with
  | [p; q; r] => nd_build [q; p; r]
      (fun ix => match ix with [i; j; k] => nd_get a [j; i; k] | _ => Err IndexError end)
  | _ => Err ValueError
  end.

(** np.transpose(a, axes=(0, 2, 1, 3)) (interpolate.py:383). *)
Definition transpose_0213 {A} (a : nd A) : res (nd A) :=
  match shape a with
  | [c; p; q; r] => nd_build [c; q; p; r]
      (fun ix => match ix with [d; i; j; k] => nd_get a [d; j; i; k] | _ => Err IndexError end)
  | _ => Err ValueError
  end.

(** [a[i]]: the i-th subarray along the first axis (interpolate.py:366-399). *)
Definition subarray {A} (a : nd A) (i : nat) : res (nd A) :=
  match shape a with
  | [] => Err IndexError
  | n :: s' => if i <? n then Ok (Nd s' (firstn (size s') (skipn (i * size s') (data a))))
               else Err IndexError
  end.

(** A 2-D array given by rows, as an n-dimensional one (interpolate.py:359-386, file_writers.py:131-250). *)
Definition nd_of_mat {A} (m : mat A) : nd A := Nd [nrows m; mcols m] (concat (mrows m)).

(** A 1-D array (interpolate.py:359-386, file_writers.py:131-250). *)
Definition nd_of_list {A} (l : list A) : nd A := Nd [length l] l.

(** [m[:, j] = vals] on a 2-D array: IndexError if there is no column [j], ValueError if
    the lengths differ.  Simplification: no broadcasting of a single value (interpolate.py:180-184, 241-244). *)
Fixpoint set_nth {A} (j : nat) (v : A) (r : list A) : list A :=
  match r, j with
  | [], _ => []
  | _ :: r', O => v :: r'
  | x :: r', S j' => x :: set_nth j' v r'
  end.

(** The assignment to a column, as in the interpolate methods of interpolate.py. *)
Definition set_col {A} (m : mat A) (j : nat) (vals : list A) : res (mat A) :=
  if negb (j <? mcols m) then Err IndexError
  else if negb (nrows m =? length vals) then Err ValueError
  else Ok (Mat (mcols m) (zip_with (fun r v => set_nth j v r) (mrows m) vals)).

(** [m[:, j]] (interpolate.py:475-543). *)
Definition get_col {A} (m : mat A) (j : nat) : res (list A) :=
  if j <? mcols m then mapr (fun r => get r j) (mrows m) else Err IndexError.

(** [m.T] for a 2-D array (interpolate.py:151). *)
Definition transpose2 {A} (m : mat A) : res (mat A) :=
  let* cols := mapr (get_col m) (seq 0 (mcols m)) in Ok (Mat (nrows m) cols).
