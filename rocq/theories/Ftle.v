(** Model of src/pyftle/ftle.py. *)
From Verif Require Import Base Num Jacobian.

Section Ftle.
  Context {T : Type} (O : ops T).
  Local Infix "+" := (o_add O).
  Local Infix "-" := (o_sub O).
  Local Infix "*" := (o_mul O).

  (** ftle.py:60-67, one iteration of compute_cauchy_green_2x2. *)
  Definition cauchy_green_2x2 (F : m22 T) : m22 T :=
    M22 (a00 F * a00 F + a10 F * a10 F)
        (a00 F * a01 F + a10 F * a11 F)
        (a01 F * a00 F + a11 F * a10 F)
        (a01 F * a01 F + a11 F * a11 F).

  (** ftle.py:9-69. *)
  Definition compute_cauchy_green_2x2 (Fs : list (m22 T)) : list (m22 T) :=
    map cauchy_green_2x2 Fs.

  (** Dot product of length 3, summed left to right (matmul entry) (ftle.py:96). *)
  Definition dot3 (x0 x1 x2 y0 y1 y2 : T) : T := (x0 * y0 + x1 * y1) + x2 * y2.

  (** ftle.py:96, [F @ np.transpose(F, (0, 2, 1))]: entry (i,j) is the dot
      product of rows i and j of F. *)
  Definition cauchy_green_3x3 (F : m33 T) : m33 T :=
    M33 (dot3 (b00 F) (b01 F) (b02 F) (b00 F) (b01 F) (b02 F))
        (dot3 (b00 F) (b01 F) (b02 F) (b10 F) (b11 F) (b12 F))
        (dot3 (b00 F) (b01 F) (b02 F) (b20 F) (b21 F) (b22 F))
        (dot3 (b10 F) (b11 F) (b12 F) (b00 F) (b01 F) (b02 F))
        (dot3 (b10 F) (b11 F) (b12 F) (b10 F) (b11 F) (b12 F))
        (dot3 (b10 F) (b11 F) (b12 F) (b20 F) (b21 F) (b22 F))
        (dot3 (b20 F) (b21 F) (b22 F) (b00 F) (b01 F) (b02 F))
        (dot3 (b20 F) (b21 F) (b22 F) (b10 F) (b11 F) (b12 F))
        (dot3 (b20 F) (b21 F) (b22 F) (b20 F) (b21 F) (b22 F)).

  (** ftle.py:72-96. *)
  Definition compute_cauchy_green_3x3 (Fs : list (m33 T)) : list (m33 T) :=
    map cauchy_green_3x3 Fs.

  (** ftle.py:150-161, one iteration of max_eigenvalue_2x2; [None] is NaN.  The
      square root is the same in both eigenvalues, so both are NaN together. *)
  Definition max_eig_2x2 (C : m22 T) : option T :=
    let trace := a00 C + a11 C in
    let determinant := a00 C * a11 C - a01 C * a10 C in
    match o_sqrt O (trace * trace - o_ofZ O 4 * determinant) with
    | None => None
    | Some s =>
        let lambda1 := o_half O * (trace + s) in
        let lambda2 := o_half O * (trace - s) in
        Some (o_max O lambda1 lambda2)
    end.

  (** ftle.py:122-163. *)
  Definition max_eigenvalue_2x2 (Cs : list (m22 T)) : list (option T) :=
    map max_eig_2x2 Cs.

  (** np.log(np.sqrt(x)) of a possibly-NaN number (ftle.py:198, 233). *)
  Definition log_sqrt (x : option T) : xval T :=
    match x with
    | None => XNaN
    | Some v => match o_sqrt O v with None => XNaN | Some s => o_log O s end
    end.

  (** Multiplication of a finite scalar [c] by a special value (ftle.py:198, 233). *)
  Definition xscale (c : T) (x : xval T) : xval T :=
    match x with
    | XVal v => XVal (c * v)
    | XNaN => XNaN
    | XNegInf => if o_ltb O (o_zero O) c then XNegInf
                 else if o_ltb O c (o_zero O) then XPosInf else XNaN
    | XPosInf => if o_ltb O (o_zero O) c then XPosInf
                 else if o_ltb O c (o_zero O) then XNegInf else XNaN
    end.

  (** ftle.py:196-198: [(1 / map_period) * np.log(np.sqrt(max_eigvals))]. *)
  Definition ftle_of_eigs (eigs : list (option T)) (map_period : T) : res (list (xval T)) :=
    let* inv := py_div O (o_one O) map_period in
    Ok (map (fun e => xscale inv (log_sqrt e)) eigs).

  (** ftle.py:166-198. *)
  Definition compute_ftle_2x2 (Fs : list (m22 T)) (map_period : T) : res (list (xval T)) :=
    ftle_of_eigs (max_eigenvalue_2x2 (compute_cauchy_green_2x2 Fs)) map_period.

  (** np.linalg.eigvals on one 3x3 matrix: an oracle giving three numbers or an
      exception (LinAlgError). Simplification: the eigenvalues are reals (ftle.py:118). *)
  Definition eigvals_t : Type := m33 T -> res (T * T * T).

  (** ftle.py:99-119: np.max over the three eigenvalues of each matrix. *)
  Definition max_eig_3x3 (eigvals : eigvals_t) (C : m33 T) : res (option T) :=
    let* e := eigvals C in
    match e with
    | (x, y, z) => Ok (Some (o_max O (o_max O x y) z))
    end.

  (** ftle.py:99-119, for all matrices; the first error of eigvals stops it. *)
  Definition max_eigenvalue_3x3 (eigvals : eigvals_t) (Cs : list (m33 T)) : res (list (option T)) :=
    mapr (max_eig_3x3 eigvals) Cs.

  (** ftle.py:201-233. *)
  Definition compute_ftle_3x3 (eigvals : eigvals_t) (Fs : list (m33 T)) (map_period : T)
    : res (list (xval T)) :=
    let* eigs := max_eigenvalue_3x3 eigvals (compute_cauchy_green_3x3 Fs) in
    ftle_of_eigs eigs map_period.
End Ftle.
