(** Specification vocabulary for deformation gradients: matrix products, spectral
    norm, eigenvalues, characteristic polynomial.  Independent of the model (only the
    record types of 2x2 and 3x3 matrices are shared). *)
From Coq Require Import Reals.
From Verif Require Import Base Num Jacobian.
Local Open Scope R_scope.

(* ---- dimension 2 ---- *)
Definition mul22 (A B : m22 R) : m22 R :=
  M22 (a00 A * a00 B + a01 A * a10 B) (a00 A * a01 B + a01 A * a11 B)
      (a10 A * a00 B + a11 A * a10 B) (a10 A * a01 B + a11 A * a11 B).
Definition tr22 (A : m22 R) : m22 R := M22 (a00 A) (a10 A) (a01 A) (a11 A).
Definition id22 : m22 R := M22 1 0 0 1.
Definition scal22 (c : R) (A : m22 R) : m22 R :=
  M22 (c * a00 A) (c * a01 A) (c * a10 A) (c * a11 A).
Definition det22 (A : m22 R) : R := a00 A * a11 A - a01 A * a10 A.

Definition vec2 : Type := (R * R)%type.
Definition app22 (A : m22 R) (u : vec2) : vec2 :=
  (a00 A * fst u + a01 A * snd u, a10 A * fst u + a11 A * snd u).
Definition dot2 (u v : vec2) : R := fst u * fst v + snd u * snd v.
Definition norm2 (u : vec2) : R := sqrt (dot2 u u).
Definition scale2 (c : R) (u : vec2) : vec2 := (c * fst u, c * snd u).

(** [s] is the spectral norm of [F]: the largest |F u| over unit vectors u. *)
Definition spectral_norm_2 (F : m22 R) (s : R) : Prop :=
  (forall u, norm2 (app22 F u) <= s * norm2 u) /\
  (exists u, norm2 u = 1 /\ norm2 (app22 F u) = s).

Definition eigenvalue_2 (A : m22 R) (l : R) : Prop :=
  exists u, u <> (0, 0) /\ app22 A u = scale2 l u.
Definition largest_eigenvalue_2 (A : m22 R) (l : R) : Prop :=
  eigenvalue_2 A l /\ forall m, eigenvalue_2 A m -> m <= l.

Definition orthogonal_2 (Q : m22 R) : Prop := mul22 (tr22 Q) Q = id22.

(* ---- dimension 3 ---- *)
Definition mul33 (A B : m33 R) : m33 R :=
  M33 (b00 A * b00 B + b01 A * b10 B + b02 A * b20 B)
      (b00 A * b01 B + b01 A * b11 B + b02 A * b21 B)
      (b00 A * b02 B + b01 A * b12 B + b02 A * b22 B)
      (b10 A * b00 B + b11 A * b10 B + b12 A * b20 B)
      (b10 A * b01 B + b11 A * b11 B + b12 A * b21 B)
      (b10 A * b02 B + b11 A * b12 B + b12 A * b22 B)
      (b20 A * b00 B + b21 A * b10 B + b22 A * b20 B)
      (b20 A * b01 B + b21 A * b11 B + b22 A * b21 B)
      (b20 A * b02 B + b21 A * b12 B + b22 A * b22 B).
Definition tr33 (A : m33 R) : m33 R :=
  M33 (b00 A) (b10 A) (b20 A) (b01 A) (b11 A) (b21 A) (b02 A) (b12 A) (b22 A).
Definition id33 : m33 R := M33 1 0 0 0 1 0 0 0 1.
Definition scal33 (c : R) (A : m33 R) : m33 R :=
  M33 (c * b00 A) (c * b01 A) (c * b02 A) (c * b10 A) (c * b11 A) (c * b12 A)
      (c * b20 A) (c * b21 A) (c * b22 A).
Definition det33 (A : m33 R) : R :=
  b00 A * (b11 A * b22 A - b12 A * b21 A)
  - b01 A * (b10 A * b22 A - b12 A * b20 A)
  + b02 A * (b10 A * b21 A - b11 A * b20 A).
(** A - x I *)
Definition shift33 (A : m33 R) (x : R) : m33 R :=
  M33 (b00 A - x) (b01 A) (b02 A) (b10 A) (b11 A - x) (b12 A) (b20 A) (b21 A) (b22 A - x).
(** Characteristic polynomial of A evaluated at x. *)
Definition charpoly33 (A : m33 R) (x : R) : R := det33 (shift33 A x).

Definition vec3 : Type := (R * R * R)%type.
Definition v0 (u : vec3) : R := fst (fst u).
Definition v1 (u : vec3) : R := snd (fst u).
Definition v2 (u : vec3) : R := snd u.
Definition app33 (A : m33 R) (u : vec3) : vec3 :=
  (b00 A * v0 u + b01 A * v1 u + b02 A * v2 u,
   b10 A * v0 u + b11 A * v1 u + b12 A * v2 u,
   b20 A * v0 u + b21 A * v1 u + b22 A * v2 u).
Definition dot3v (u w : vec3) : R := v0 u * v0 w + v1 u * v1 w + v2 u * v2 w.
Definition norm3 (u : vec3) : R := sqrt (dot3v u u).
Definition scale3 (c : R) (u : vec3) : vec3 := (c * v0 u, c * v1 u, c * v2 u).

Definition spectral_norm_3 (F : m33 R) (s : R) : Prop :=
  (forall u, norm3 (app33 F u) <= s * norm3 u) /\
  (exists u, norm3 u = 1 /\ norm3 (app33 F u) = s).

Definition symmetric_3 (A : m33 R) : Prop := tr33 A = A.
Definition orthogonal_3 (Q : m33 R) : Prop := mul33 (tr33 Q) Q = id33.

(** The three numbers are the roots of the characteristic polynomial, with
    multiplicity, in any order. *)
Definition roots_of_charpoly (A : m33 R) (e : R * R * R) : Prop :=
  forall x, charpoly33 A x = (fst (fst e) - x) * (snd (fst e) - x) * (snd e - x).

(* ---- FTLE values ---- *)
(** The FTLE value of spectral norm [s] over period [T]. *)
Definition ftle_value (s T : R) : xval R :=
  if Req_EM_T s 0 then (if Rlt_dec 0 T then XNegInf else XPosInf)
  else XVal (ln s / T).

(** Adding a number to an FTLE value. *)
Definition xshift (d : R) (x : xval R) : xval R :=
  match x with XVal v => XVal (v + d) | y => y end.

(** The negative of an FTLE value. *)
Definition xflip (x : xval R) : xval R :=
  match x with XVal v => XVal (- v) | XNegInf => XPosInf | XPosInf => XNegInf | XNaN => XNaN end.

(** numpy.linalg.eigvals returns the roots for every symmetric matrix. *)
Definition eigvals_ok (eigvals : m33 R -> res (R * R * R)) : Prop :=
  forall A, symmetric_3 A -> exists e, eigvals A = Ok e /\ roots_of_charpoly A e.
