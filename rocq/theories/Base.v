(** Base vocabulary of the model: exceptions as values, Python list slices,
    2-D arrays as lists of rows.  No proofs here. *)
From Coq Require Export String Ascii.
From Coq Require Export Arith ZArith Bool List.
Export ListNotations.
Open Scope list_scope.

(** Exceptions that the modelled code raises.  [UndefinedBehaviour] stands for
    C/C++ undefined behaviour (out-of-range float->int casts, unchecked array
    accesses of numba code); [External n] for an exception of user code or of a
    third-party library (file_readers.py:63-162, interpolate.py:62-890, hyperparameters.py:135-139, parallel.py:269, api.py:217). *)
Inductive exn : Type :=
| ValueError | AssertionError | IndexError | KeyError | TypeError
| AttributeError | ZeroDivisionError | FileNotFoundError | RuntimeError
| OverflowError | NotImplementedError | ExecutableNotFoundError
| EmptyDataError | ParserError | UndefinedBehaviour
| BrokenProcessPool
| SystemExit
| External (n : nat).

(** Python's [except Exception] does not catch SystemExit (parallel.py:236). *)
Definition is_exception (e : exn) : bool :=
  match e with SystemExit => false | _ => true end.

(** The classes that [except RuntimeError] catches: NotImplementedError, BrokenProcessPool and
    RecursionError (not used here) derive from RuntimeError (__main__.py:233). *)
Definition is_runtime_error (e : exn) : bool :=
  match e with RuntimeError | NotImplementedError | BrokenProcessPool => true | _ => false end.

(** What a call anywhere in src/pyftle does: return a value or raise an exception. *)
Inductive res (A : Type) : Type :=
| Ok (a : A)
| Err (e : exn).
Arguments Ok {A} a.
Arguments Err {A} e.

(** One statement after another: an exception skips the rest (any function of src/pyftle). *)
Definition bind {A B} (x : res A) (f : A -> res B) : res B :=
  match x with Ok a => f a | Err e => Err e end.

Notation "'let*' x ':=' e 'in' k" := (bind e (fun x => k))
  (at level 200, x name, e at level 100, k at level 200, right associativity).

(** A Python loop [for a in l: out.append(f(a))]: stops at the first exception (__main__.py:143-166, api.py:125-155). *)
Fixpoint mapr {A B} (f : A -> res B) (l : list A) : res (list B) :=
  match l with
  | [] => Ok []
  | a :: l' => let* b := f a in let* bs := mapr f l' in Ok (b :: bs)
  end.

(** Checked list access: Python [l[i]] with a non-negative index (__main__.py:153, data_source.py:138). *)
Definition get {A} (l : list A) (i : nat) : res A :=
  match nth_error l i with Some a => Ok a | None => Err IndexError end.

(** Unchecked access of compiled code (numba without bounds checks, C++) (cauchy_green.py:70-74, 140-151, ftle.py:62-68). *)
Definition cget {A} (l : list A) (i : nat) : res A :=
  match nth_error l i with Some a => Ok a | None => Err UndefinedBehaviour end.

(** Python slice [l[a:b]] for integers a, b (negative bounds count from the end,
    bounds are clipped) (__main__.py:143-149). *)
Definition slice_bound (len x : Z) : Z :=
  let x' := if (x <? 0)%Z then (x + len)%Z else x in
  Z.max 0 (Z.min len x').

(** The slice, with bounds clipped by the function above; used at __main__.py:143-149. *)
Definition py_slice {A} (l : list A) (a b : Z) : list A :=
  let len := Z.of_nat (length l) in
  let s := slice_bound len a in
  let e := slice_bound len b in
  firstn (Z.to_nat (e - s)) (skipn (Z.to_nat s) l).

(** Python [range(n)] for an integer [n]: empty when [n <= 0] (__main__.py:143-158). *)
Definition py_range (n : Z) : list nat := seq 0 (Z.to_nat n).

(** 2-D array with [mcols] columns, given by its rows (particles.py:72-93). *)
Record mat (A : Type) : Type := Mat { mcols : nat; mrows : list (list A) }.
Arguments Mat {A} mcols mrows.
Arguments mcols {A} m.
Arguments mrows {A} m.

(** a.shape[0], for example at particles.py:96. *)
Definition nrows {A} (m : mat A) : nat := length (mrows m).

(** Every row has [mcols] entries: what makes the record an array (particles.py:72-93). *)
Definition wf_mat {A} (m : mat A) : Prop :=
  Forall (fun r => length r = mcols m) (mrows m).

(** Equality of the shapes of two arrays, which elementwise operations of numpy need (integrate.py, particles.py). *)
Definition same_shape {A B} (a : mat A) (b : mat B) : bool :=
  (nrows a =? nrows b) && (mcols a =? mcols b).

(** Elementwise combination of two rows / two equal-shaped arrays (integrate.py:184-330, particles.py:153-214). *)
Fixpoint zip_with {A B C} (f : A -> B -> C) (l : list A) (m : list B) : list C :=
  match l, m with
  | a :: l', b :: m' => f a b :: zip_with f l' m'
  | _, _ => []
  end.

(** Elementwise operation on one array (integrate.py: products with a number). *)
Definition mat_map {A B} (f : A -> B) (m : mat A) : mat B :=
  Mat (mcols m) (map (map f) (mrows m)).

(** numpy binary operation on 2-D arrays.  Simplification: operands of different
    shapes raise ValueError; numpy would broadcast an operand with a single row
    or column, which cannot occur here because positions have a multiple of 4 or
    6 rows and 2 or 3 columns (integrate.py:184-330, particles.py:153-214). *)
Definition mat_map2 {A B C} (f : A -> B -> C) (a : mat A) (b : mat B) : res (mat C) :=
  if same_shape a b
  then Ok (Mat (mcols a) (zip_with (zip_with f) (mrows a) (mrows b)))
  else Err ValueError.

(** np.empty / np.empty_like: the contents are whatever the memory holds (cauchy_green.py:68, 138, interpolate.py:427-443). *)
Definition junk_mat {A} (junk : nat -> nat -> A) (rows cols : nat) : mat A :=
  Mat cols (map (fun i => map (fun j => junk i j) (seq 0 cols)) (seq 0 rows)).

(** np.empty_like(m), as in integrate.py:190, 240, 256, 311-314. *)
Definition empty_like {A} (junk : nat -> nat -> A) (m : mat A) : mat A :=
  junk_mat junk (nrows m) (mcols m).

(** np.copyto(dst, src): broadcast [src] to the shape of [dst] or raise
    ValueError; the old contents of [dst] are overwritten entirely (integrate.py:184-330). *)
Definition copyto {A} (dst src : mat A) : res (mat A) :=
  if same_shape dst src then Ok (Mat (mcols dst) (mrows src))
  else
    let stretch_cols (r : list A) :=
      match r with
      | [a] => repeat a (mcols dst)
      | _ => r
      end in
    if (mcols src =? mcols dst) || (mcols src =? 1) then
      if nrows src =? nrows dst then Ok (Mat (mcols dst) (map stretch_cols (mrows src)))
      else match mrows src with
           | [r] => Ok (Mat (mcols dst) (repeat (stretch_cols r) (nrows dst)))
           | _ => Err ValueError
           end
    else Err ValueError.

(** np.split(a, k, axis=0): k equal consecutive blocks of rows.
    k = 0 raises ZeroDivisionError (N % 0), a non-divisible row count ValueError (particles.py:153-238). *)
Fixpoint chunks {A} (k n : nat) (l : list A) : list (list A) :=
  match k with
  | 0 => []
  | S k' => firstn n l :: chunks k' n (skipn n l)
  end.

(** np.split at particles.py:153-240. *)
Definition np_split {A} (m : mat A) (k : nat) : res (list (mat A)) :=
  match k with
  | 0 => Err ZeroDivisionError
  | _ => if nrows m mod k =? 0
         then Ok (map (Mat (mcols m)) (chunks k (nrows m / k) (mrows m)))
         else Err ValueError
  end.
