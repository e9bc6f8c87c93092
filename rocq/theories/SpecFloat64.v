(** Specification vocabulary for binary64 numbers. *)
From Coq Require Import Reals Floats.
From Flocq Require Import Core BinarySingleNaN.

(** The finite binary64 number [x] has the real value [r]. *)
Definition represents (x : PrimFloat.float) (r : R) : Prop :=
  is_finite_SF (Prim2SF x) = true /\ SF2R radix2 (Prim2SF x) = r.

(** [x] is the finite binary64 number nearest to [r], ties to even: what a decimal literal is read as. *)
Definition nearest (x : PrimFloat.float) (r : R) : Prop :=
  represents x (round radix2 (FLT_exp (-1074) 53) ZnearestE r).
