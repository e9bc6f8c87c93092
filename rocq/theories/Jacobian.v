(** Model of src/pyftle/cauchy_green.py: the flow-map Jacobian. *)
From Verif Require Import Base Num Particles.

(** 2x2 and 3x3 matrices, row by row (cauchy_green.py:68, ftle.py:60). *)
Record m22 (T : Type) : Type := M22 { a00 : T; a01 : T; a10 : T; a11 : T }.
Arguments M22 {T}.
Arguments a00 {T} m. Arguments a01 {T} m. Arguments a10 {T} m. Arguments a11 {T} m.

(** A 3x3 matrix of the arrays of cauchy_green.py and ftle.py. *)
Record m33 (T : Type) : Type := M33 {
  b00 : T; b01 : T; b02 : T;
  b10 : T; b11 : T; b12 : T;
  b20 : T; b21 : T; b22 : T }.
Arguments M33 {T}.
Arguments b00 {T} m. Arguments b01 {T} m. Arguments b02 {T} m.
Arguments b10 {T} m. Arguments b11 {T} m. Arguments b12 {T} m.
Arguments b20 {T} m. Arguments b21 {T} m. Arguments b22 {T} m.

Section Jacobian.
  Context {T : Type} (O : ops T).

  (** Numba array read [a[i, j]] without bounds check (cauchy_green.py:70-74, 140-151). *)
  Definition at2 (m : mat T) (i j : nat) : res T :=
    let* r := cget (mrows m) i in cget r j.

  (** [num[i,c] / den[i,d]] in numba: ZeroDivisionError on a zero divisor (cauchy_green.py:70-74, 140-151). *)
  Definition quot (num den : mat T) (i c d : nat) : res T :=
    let* a := at2 num i c in
    let* b := at2 den i d in
    py_div O a b.

  (** cauchy_green.py:67-76, loop body of _compute_flow_map_jacobian_in_numba. *)
  Definition jac2_row (drl irl dtb itb : mat T) (i : nat) : res (m22 T) :=
    let* j00 := quot drl irl i 0 0 in
    let* j01 := quot dtb itb i 0 1 in
    let* j10 := quot drl irl i 1 0 in
    let* j11 := quot dtb itb i 1 1 in
    Ok (M22 j00 j01 j10 j11).

  (** cauchy_green.py:15-76. *)
  Definition jac2_kernel (pos drl irl dtb itb : mat T) : res (list (m22 T)) :=
    mapr (jac2_row drl irl dtb itb) (seq 0 (nrows pos / 4)).

  (** cauchy_green.py:140-151, loop body of _compute_flow_map_jacobian_in_numba_3x3. *)
  Definition jac3_row (drl irl dtb itb dfb ifb : mat T) (i : nat) : res (m33 T) :=
    let* j00 := quot drl irl i 0 0 in
    let* j01 := quot dtb itb i 0 1 in
    let* j02 := quot dfb ifb i 0 2 in
    let* j10 := quot drl irl i 1 0 in
    let* j11 := quot dtb itb i 1 1 in
    let* j12 := quot dfb ifb i 1 2 in
    let* j20 := quot drl irl i 2 0 in
    let* j21 := quot dtb itb i 2 1 in
    let* j22 := quot dfb ifb i 2 2 in
    Ok (M33 j00 j01 j02 j10 j11 j12 j20 j21 j22).

  (** cauchy_green.py:79-153. *)
  Definition jac3_kernel (pos drl irl dtb itb dfb ifb : mat T) : res (list (m33 T)) :=
    mapr (jac3_row drl irl dtb itb dfb ifb) (seq 0 (nrows pos / 6)).

  (** cauchy_green.py:157-180. *)
  Definition compute_flow_map_jacobian_2x2 (p : particles T) : res (list (m22 T)) :=
    let* drl := delta_right_left O p in
    let* dtb := delta_top_bottom O p in
    jac2_kernel (positions p) drl (initial_delta_right_left p) dtb (initial_delta_top_bottom p).

  (** cauchy_green.py:183-210. *)
  Definition compute_flow_map_jacobian_3x3 (p : particles T) : res (list (m33 T)) :=
    let* drl := delta_right_left O p in
    let* dtb := delta_top_bottom O p in
    let* dfb := delta_front_back O p in
    jac3_kernel (positions p) drl (initial_delta_right_left p) dtb (initial_delta_top_bottom p)
      dfb (initial_delta_front_back p).
End Jacobian.
