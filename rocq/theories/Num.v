(** Number types.  The numerical code is written once, over a record of
    operations, and instantiated at exact reals and at IEEE binary64. *)
From Verif Require Import Base.
From Coq Require Import Reals PrimFloat FloatOps SpecFloat.

(** A float result that may be NaN or infinite.  At binary64 the special values
    live inside the type [T] itself and only [XVal] is used (integrate.py:184-330, ftle.py:40-233, grid_interp.py:32-36, GridInterp.cpp:28-140). *)
Inductive xval (T : Type) : Type :=
| XVal (v : T) | XNaN | XNegInf | XPosInf.
Arguments XVal {T} v.
Arguments XNaN {T}.
Arguments XNegInf {T}.
Arguments XPosInf {T}.

(** The operations on numbers that src/pyftle and GridInterp.cpp use. *)
Record ops (T : Type) : Type := Ops {
  o_ofZ : Z -> T;             (* float(int) *)
  o_add : T -> T -> T;
  o_sub : T -> T -> T;
  o_mul : T -> T -> T;
  o_div : T -> T -> T;        (* used only under a guard "denominator <> 0" *)
  o_opp : T -> T;
  o_abs : T -> T;
  o_sqrt : T -> option T;     (* None: NaN (negative argument) *)
  o_log : T -> xval T;        (* np.log *)
  o_eqb : T -> T -> bool;
  o_ltb : T -> T -> bool;
  o_floor : T -> option Z;    (* std::floor as an integer; None: not finite *)
  o_trunc : T -> option Z     (* int(x); None: not finite *)
}.
Arguments Ops {T}.
Arguments o_ofZ {T} o _.
Arguments o_add {T} o _ _.
Arguments o_sub {T} o _ _.
Arguments o_mul {T} o _ _.
Arguments o_div {T} o _ _.
Arguments o_opp {T} o _.
Arguments o_abs {T} o _.
Arguments o_sqrt {T} o _.
Arguments o_log {T} o _.
Arguments o_eqb {T} o _ _.
Arguments o_ltb {T} o _ _.
Arguments o_floor {T} o _.
Arguments o_trunc {T} o _.

Section Derived.
  Context {T : Type} (O : ops T).

  (** The literal 0 (integrate.py:184-330, ftle.py:40-233, grid_interp.py:32-36, GridInterp.cpp:28-140). *)
  Definition o_zero : T := o_ofZ O 0.
  (** The literal 1 (integrate.py:184-330, ftle.py:40-233, grid_interp.py:32-36, GridInterp.cpp:28-140). *)
  Definition o_one : T := o_ofZ O 1.
  (** Literals 0.5, 1.5: exactly representable, so the quotient is exact (integrate.py:184-330, ftle.py:40-233, grid_interp.py:32-36, GridInterp.cpp:28-140). *)
  Definition o_half : T := o_div O (o_ofZ O 1) (o_ofZ O 2).
  (** The literal 1.5 (integrate.py, AB2). *)
  Definition o_three_halves : T := o_div O (o_ofZ O 3) (o_ofZ O 2).

  (** Scalar division in Python, and in numba with its default
      error_model='python': a zero divisor raises ZeroDivisionError (integrate.py:184-330, ftle.py:40-233, grid_interp.py:32-36, GridInterp.cpp:28-140). *)
  Definition py_div (a b : T) : res T :=
    if o_eqb O b o_zero then Err ZeroDivisionError else Ok (o_div O a b).

  (** numpy array division: a zero divisor gives inf or NaN and no exception;
      [None] is such a non-finite value (integrate.py:184-330, ftle.py:40-233, grid_interp.py:32-36, GridInterp.cpp:28-140). *)
  Definition np_div (a b : T) : option T :=
    if o_eqb O b o_zero then None else Some (o_div O a b).

  (** Python/numba max(a, b): the first argument unless the second is larger (integrate.py:184-330, ftle.py:40-233, grid_interp.py:32-36, GridInterp.cpp:28-140). *)
  Definition o_max (a b : T) : T := if o_ltb O a b then b else a.
  (** Python min(a, b): the first argument unless the second is smaller (integrate.py:184-330, ftle.py:40-233, grid_interp.py:32-36, GridInterp.cpp:28-140). *)
  Definition o_min (a b : T) : T := if o_ltb O b a then b else a.
End Derived.

(* ---------------------------------------------------------------- *)
(** Exact reals (integrate.py:184-330, ftle.py:40-233, grid_interp.py:32-36, GridInterp.cpp:28-140). *)
Definition R_ltb (a b : R) : bool := if Rlt_dec a b then true else false.
(** a == b (integrate.py:184-330, ftle.py:40-233, grid_interp.py:32-36, GridInterp.cpp:28-140). *)
Definition R_eqb (a b : R) : bool := if Req_EM_T a b then true else false.

(** np.log (ftle.py): special values outside the positive numbers. *)
Definition R_log (x : R) : xval R :=
  if Rlt_dec 0 x then XVal (ln x)
  else if Req_EM_T x 0 then XNegInf else XNaN.

(** Truncation towards zero (integrate.py:184-330, ftle.py:40-233, grid_interp.py:32-36, GridInterp.cpp:28-140). *)
Definition R_trunc (x : R) : Z :=
  if Rlt_dec x 0 then (- Int_part (- x))%Z else Int_part x.

(** The operations on exact reals (integrate.py:184-330, ftle.py:40-233, grid_interp.py:32-36, GridInterp.cpp:28-140). *)
Definition Rops : ops R := {|
  o_ofZ := IZR;
  o_add := Rplus; o_sub := Rminus; o_mul := Rmult; o_div := Rdiv;
  o_opp := Ropp; o_abs := Rabs;
  o_sqrt := fun x => if Rlt_dec x 0 then None else Some (R_sqrt.sqrt x);
  o_log := R_log;
  o_eqb := R_eqb; o_ltb := R_ltb;
  o_floor := fun x => Some (Int_part x);
  o_trunc := fun x => Some (R_trunc x)
|}.

(* ---------------------------------------------------------------- *)
(** IEEE binary64 (Coq primitive floats); [lnF] is the libm logarithm, which
    Coq's floats do not provide: theorems quantify over it (integrate.py:184-330, ftle.py:40-233, grid_interp.py:32-36, GridInterp.cpp:28-140). *)
Definition Z_of_sf_trunc (f : spec_float) : option Z :=
  match f with
  | S754_zero _ => Some 0%Z
  | S754_infinity _ | S754_nan => None
  | S754_finite s m e =>
      let a := match e with
               | Z0 => Zpos m
               | Zpos k => Z.shiftl (Zpos m) (Zpos k)
               | Zneg k => Z.shiftr (Zpos m) (Zpos k)
               end in
      Some (if s then (- a)%Z else a)
  end.

(** std::floor of a double (GridInterp.cpp:44-46, 116-117) as an integer. *)
Definition Z_of_sf_floor (f : spec_float) : option Z :=
  match f with
  | S754_zero _ => Some 0%Z
  | S754_infinity _ | S754_nan => None
  | S754_finite s m e =>
      let v := if s then Zneg m else Zpos m in
      Some (match e with
            | Z0 => v
            | Zpos k => Z.shiftl v (Zpos k)
            | Zneg k => Z.shiftr v (Zpos k)     (* arithmetic shift: floor *)
            end)
  end.

(** float(int) for the integers that occur (|z| < 2^53, exact) (integrate.py:184-330, ftle.py:40-233, grid_interp.py:32-36, GridInterp.cpp:28-140). *)
Definition F_ofZ (z : Z) : float :=
  match z with
  | Z0 => PrimFloat.zero
  | Zpos p => SF2Prim (binary_normalize prec emax (Zpos p) 0 false)
  | Zneg p => SF2Prim (binary_normalize prec emax (Zneg p) 0 true)
  end.

(** The operations on binary64 (integrate.py:184-330, ftle.py:40-233, grid_interp.py:32-36, GridInterp.cpp:28-140). *)
Definition Fops (lnF : float -> float) : ops float := {|
  o_ofZ := F_ofZ;
  o_add := PrimFloat.add; o_sub := PrimFloat.sub; o_mul := PrimFloat.mul;
  o_div := PrimFloat.div; o_opp := PrimFloat.opp; o_abs := PrimFloat.abs;
  o_sqrt := fun x => Some (PrimFloat.sqrt x);
  o_log := fun x => XVal (lnF x);
  o_eqb := PrimFloat.eqb; o_ltb := PrimFloat.ltb;
  o_floor := fun x => Z_of_sf_floor (Prim2SF x);
  o_trunc := fun x => Z_of_sf_trunc (Prim2SF x)
|}.
