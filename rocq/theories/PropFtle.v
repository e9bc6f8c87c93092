(** Properties C01-C10, C84: src/pyftle/ftle.py. *)
From Coq Require Import Reals Lra PrimFloat.
From Verif Require Import Base Num Jacobian Ftle SpecFtle FtleFacts2 FtleFacts3 FtleFloat FtleSign.
Local Open Scope R_scope.

(** C01.  One tensor F^T F per Jacobian, in order; symmetric and positive semi-definite. *)
Theorem C01_cauchy_green_2d : forall Fs : list (m22 R),
  compute_cauchy_green_2x2 Rops Fs = map (fun F => mul22 (tr22 F) F) Fs /\
  (forall C, In C (compute_cauchy_green_2x2 Rops Fs) ->
     tr22 C = C /\ forall u, 0 <= dot2 u (app22 C u)).
Proof. exact cg2_all. Qed.
Print Assumptions C01_cauchy_green_2d.
Example C01_case : compute_cauchy_green_2x2 Rops [M22 1 2 0 1] = [M22 1 2 2 5].
Proof. rewrite (proj1 (C01_cauchy_green_2d _)). cbn. unfold mul22, tr22. cbn. repeat f_equal; ring. Qed.

(** C02.  False: for the shear x += y the result is not F^T F.
    What the code returns is F F^T, which is F^T F exactly for normal F. *)
Theorem C02_cauchy_green_3d_refuted : exists F : m33 R,
  compute_cauchy_green_3x3 Rops [F] <> [mul33 (tr33 F) F].
Proof. exact cg3_refuted. Qed.
Print Assumptions C02_cauchy_green_3d_refuted.

Theorem C02_cauchy_green_3d_partial : forall F : m33 R,
  compute_cauchy_green_3x3 Rops [F] = [mul33 (tr33 F) F] <->
  mul33 F (tr33 F) = mul33 (tr33 F) F.
Proof. exact cg3_iff. Qed.
Print Assumptions C02_cauchy_green_3d_partial.
Example C02_case : compute_cauchy_green_3x3 Rops [M33 1 2 0 (-2) 1 0 0 0 3] = [mul33 (tr33 (M33 1 2 0 (-2) 1 0 0 0 3)) (M33 1 2 0 (-2) 1 0 0 0 3)].
Proof. apply C02_cauchy_green_3d_partial. apply m33_ext; simpl; ring. Qed.

Theorem C02_cauchy_green_3d_exact : forall Fs : list (m33 R),
  compute_cauchy_green_3x3 Rops Fs = map (fun F => mul33 F (tr33 F)) Fs.
Proof. exact cg3_all. Qed.
Print Assumptions C02_cauchy_green_3d_exact.

(** C03.  Same characteristic polynomial, and the number handed to the logarithm is
    the largest root of the characteristic polynomial of F^T F. *)
Theorem C03_same_spectrum_3d : forall (F : m33 R) (x : R),
  charpoly33 (mul33 F (tr33 F)) x = charpoly33 (mul33 (tr33 F) F) x.
Proof. exact charpoly_FFt. Qed.
Print Assumptions C03_same_spectrum_3d.

Theorem C03_max_eigenvalue_3d : forall eigvals (F : m33 R), eigvals_ok eigvals ->
  exists p q r, roots_of_charpoly (mul33 (tr33 F) F) (p, q, r) /\
    max_eigenvalue_3x3 Rops eigvals (compute_cauchy_green_3x3 Rops [F])
    = Ok [Some (Rmax (Rmax p q) r)].
Proof. exact max_eig_3_FtF. Qed.
Print Assumptions C03_max_eigenvalue_3d.
Example C03_case : exists eigvals p q r, roots_of_charpoly (mul33 (tr33 (M33 1 1 0 0 1 0 0 0 1)) (M33 1 1 0 0 1 0 0 0 1)) (p, q, r) /\
  max_eigenvalue_3x3 Rops eigvals (compute_cauchy_green_3x3 Rops [M33 1 1 0 0 1 0 0 0 1]) = Ok [Some (Rmax (Rmax p q) r)].
Proof. destruct eigvals_ok_exists as (e & He). exists e. exact (C03_max_eigenvalue_3d e _ He). Qed.

(** The hypothesis on numpy.linalg.eigvals is satisfiable: real symmetric matrices
    have three real characteristic roots. *)
Example eigvals_ok_case : exists eigvals, eigvals_ok eigvals.
Proof. exact eigvals_ok_exists. Qed.

(** C04. *)
Theorem C04_max_eigenvalue_2d : forall Fs : list (m22 R),
  Forall2 (fun F e => exists s, spectral_norm_2 F s /\
              largest_eigenvalue_2 (mul22 (tr22 F) F) (s * s) /\ e = Some (s * s))
    Fs (max_eigenvalue_2x2 Rops (compute_cauchy_green_2x2 Rops Fs)).
Proof. exact max_eig_list. Qed.
Print Assumptions C04_max_eigenvalue_2d.
Example C04_case : spectral_norm_2 (M22 2 0 0 2) 2.
Proof. exact diag2_norm. Qed.

(** C05.  [ftle_value s T] is ln s / T, or -inf/+inf when s = 0. *)
Theorem C05_ftle_2d : forall (Fs : list (m22 R)) (T : R), T <> 0 ->
  exists out, compute_ftle_2x2 Rops Fs T = Ok out /\
    Forall2 (fun F o => exists s, spectral_norm_2 F s /\ o = ftle_value s T) Fs out.
Proof. exact ftle2_spec. Qed.
Print Assumptions C05_ftle_2d.

Theorem C05_ftle_2d_zero_period : forall Fs : list (m22 R),
  compute_ftle_2x2 Rops Fs 0 = Err ZeroDivisionError.
Proof. exact ftle2_zero_period. Qed.
Print Assumptions C05_ftle_2d_zero_period.

(** The spectral norm exists and is unique, so C05 fixes every output value. *)
Theorem C05_norm_exists : forall F, exists s, spectral_norm_2 F s.
Proof. exact spectral_norm_2_exists. Qed.
Theorem C05_norm_unique : forall F s t, spectral_norm_2 F s -> spectral_norm_2 F t -> s = t.
Proof. exact spectral_norm_2_unique. Qed.
Print Assumptions C05_norm_unique.
Example C05_case : compute_ftle_2x2 Rops [M22 2 0 0 2] 3 = Ok [ftle_value 2 3].
Proof. apply ftle2_one; [lra|exact diag2_norm]. Qed.

(** C06. *)
Theorem C06_ftle_3d : forall eigvals (Fs : list (m33 R)) (T : R), eigvals_ok eigvals -> T <> 0 ->
  exists out, compute_ftle_3x3 Rops eigvals Fs T = Ok out /\
    Forall2 (fun F o => exists s, spectral_norm_3 F s /\ o = ftle_value s T) Fs out.
Proof. exact ftle3_spec. Qed.
Print Assumptions C06_ftle_3d.

Theorem C06_ftle_3d_zero_period : forall eigvals (Fs : list (m33 R)), eigvals_ok eigvals ->
  compute_ftle_3x3 Rops eigvals Fs 0 = Err ZeroDivisionError.
Proof. exact ftle3_zero_period. Qed.
Print Assumptions C06_ftle_3d_zero_period.
Theorem C06_norm_exists : forall F, exists s, spectral_norm_3 F s.
Proof. exact spectral_norm_3_exists. Qed.
Theorem C06_norm_unique : forall F s t, spectral_norm_3 F s -> spectral_norm_3 F t -> s = t.
Proof. exact spectral_norm_3_unique. Qed.
Example C06_case : spectral_norm_3 id33 1.
Proof. apply orthogonal_spectral_3. unfold orthogonal_3. apply m33_ext; simpl; ring. Qed.

(** C07. *)
Theorem C07_nonneg_2d : forall (Fs : list (m22 R)) (T : R), 0 < T ->
  Forall (fun F => 1 <= Rabs (det22 F)) Fs ->
  exists vs, compute_ftle_2x2 Rops Fs T = Ok (map XVal vs) /\ Forall (fun v => 0 <= v) vs.
Proof. exact ftle2_nonneg. Qed.
Print Assumptions C07_nonneg_2d.
Theorem C07_nonneg_3d : forall eigvals (Fs : list (m33 R)) (T : R), eigvals_ok eigvals -> 0 < T ->
  Forall (fun F => 1 <= Rabs (det33 F)) Fs ->
  exists vs, compute_ftle_3x3 Rops eigvals Fs T = Ok (map XVal vs) /\ Forall (fun v => 0 <= v) vs.
Proof. exact ftle3_nonneg. Qed.
Print Assumptions C07_nonneg_3d.
Theorem C07_isometry_2d : forall (Fs : list (m22 R)) (T : R), T <> 0 -> Forall orthogonal_2 Fs ->
  compute_ftle_2x2 Rops Fs T = Ok (map (fun _ => XVal 0) Fs).
Proof. exact ftle2_isometry. Qed.
Print Assumptions C07_isometry_2d.
Theorem C07_isometry_3d : forall eigvals (Fs : list (m33 R)) (T : R), eigvals_ok eigvals -> T <> 0 ->
  Forall orthogonal_3 Fs ->
  compute_ftle_3x3 Rops eigvals Fs T = Ok (map (fun _ => XVal 0) Fs).
Proof. exact ftle3_isometry. Qed.
Print Assumptions C07_isometry_3d.
Example C07_case : orthogonal_2 (M22 0 (-1) 1 0) /\ 1 <= Rabs (det22 (M22 1 5 0 1)).
Proof.
  split; [apply m22_ext; simpl; ring|].
  unfold det22; simpl. rewrite Rabs_right; lra.
Qed.
Example C07_case_3d : orthogonal_3 (M33 0 0 1 1 0 0 0 1 0) /\ 1 <= Rabs (det33 (M33 1 5 0 0 1 7 0 0 1)).
Proof.
  split; [apply m33_ext; simpl; ring|].
  unfold det33; simpl. rewrite Rabs_right; lra.
Qed.

(** C08. *)
Theorem C08_frame_2d : forall (Q : m22 R) (Fs : list (m22 R)) (T : R), orthogonal_2 Q ->
  compute_ftle_2x2 Rops (map (mul22 Q) Fs) T = compute_ftle_2x2 Rops Fs T /\
  compute_ftle_2x2 Rops (map (fun F => mul22 F Q) Fs) T = compute_ftle_2x2 Rops Fs T.
Proof. exact ftle2_frame. Qed.
Print Assumptions C08_frame_2d.
Theorem C08_frame_3d : forall eigvals (Q : m33 R) (Fs : list (m33 R)) (T : R),
  eigvals_ok eigvals -> orthogonal_3 Q ->
  compute_ftle_3x3 Rops eigvals (map (mul33 Q) Fs) T = compute_ftle_3x3 Rops eigvals Fs T /\
  compute_ftle_3x3 Rops eigvals (map (fun F => mul33 F Q) Fs) T = compute_ftle_3x3 Rops eigvals Fs T.
Proof. exact ftle3_frame. Qed.
Print Assumptions C08_frame_3d.
(** [xshift d] adds d to a finite value and keeps infinities. *)
Theorem C08_scaling_2d : forall (c : R) (Fs : list (m22 R)) (T : R), c <> 0 -> T <> 0 ->
  exists out, compute_ftle_2x2 Rops Fs T = Ok out /\
    compute_ftle_2x2 Rops (map (scal22 c) Fs) T = Ok (map (xshift (ln (Rabs c) / T)) out).
Proof. exact ftle2_scal. Qed.
Print Assumptions C08_scaling_2d.
Theorem C08_scaling_3d : forall eigvals (c : R) (Fs : list (m33 R)) (T : R),
  eigvals_ok eigvals -> c <> 0 -> T <> 0 ->
  exists out, compute_ftle_3x3 Rops eigvals Fs T = Ok out /\
    compute_ftle_3x3 Rops eigvals (map (scal33 c) Fs) T = Ok (map (xshift (ln (Rabs c) / T)) out).
Proof. exact ftle3_scal. Qed.
Print Assumptions C08_scaling_3d.
Example C08_case : orthogonal_2 (M22 (3/5) (-(4/5)) (4/5) (3/5)) /\ orthogonal_3 (M33 0 0 1 1 0 0 0 1 0) /\
  compute_ftle_2x2 Rops [mul22 (M22 (3/5) (-(4/5)) (4/5) (3/5)) (M22 2 0 0 2)] 3 = Ok [ftle_value 2 3] /\
  compute_ftle_2x2 Rops [scal22 5 (M22 2 0 0 2)] 3 = Ok [xshift (ln (Rabs 5) / 3) (ftle_value 2 3)].
Proof.
  assert (Q : orthogonal_2 (M22 (3/5) (-(4/5)) (4/5) (3/5))) by (apply m22_ext; simpl; field).
  split; [exact Q|]. split; [apply m33_ext; simpl; ring|]. split.
  - rewrite <- C05_case. exact (proj1 (C08_frame_2d _ [M22 2 0 0 2] 3 Q)).
  - destruct (C08_scaling_2d 5 [M22 2 0 0 2] 3) as (out & E & H); [lra|lra|]. rewrite C05_case in E. injection E as <-. exact H.
Qed.

(** C09.  False: diag(1.4, next float after 1.4) gives NaN, for every non-zero period
    and every logarithm that maps NaN to NaN. *)
Theorem C09_finite_refuted : exists F : m22 float,
  Forall (fun x => PrimFloat.is_finite x = true) [a00 F; a01 F; a10 F; a11 F] /\
  (a00 F = 0x1.6666666666666p+0 /\ a11 F = 0x1.6666666666667p+0 /\ a01 F = 0 /\ a10 F = 0)%float /\
  forall lnF T, lnF nan = nan -> PrimFloat.eqb T 0 = false ->
    exists v, compute_ftle_2x2 (Fops lnF) [F] T = Ok [XVal v] /\ PrimFloat.is_nan v = true.
Proof. exact nan_refuted. Qed.
Print Assumptions C09_finite_refuted.

(** C10.  Leibniz equality of floats: bitwise equal (all NaNs identified). *)
Theorem C10_bitwise_symmetric : forall lnF (Fs : list (m22 float)),
  Forall (fun C => a01 C = a10 C) (compute_cauchy_green_2x2 (Fops lnF) Fs).
Proof. exact cg2_sym_float_all. Qed.
Print Assumptions C10_bitwise_symmetric.
Example C10_case : exists C, compute_cauchy_green_2x2 (Fops (fun x => x)) [M22 0.5 3 7 0.25]%float = [C]
   /\ a01 C = 3.25%float.
Proof. eexists; split; [reflexivity|vm_compute; reflexivity]. Qed.

(** C84.  False for negative periods: the code divides by T, not by |T|.  For positive
    periods it is C05. *)
Theorem C84_documented_formula_refuted : exists (F : m22 R) (T s : R), T <> 0 /\ spectral_norm_2 F s /\
  compute_ftle_2x2 Rops [F] T <> Ok [ftle_value s (Rabs T)].
Proof. exact ftle_abs_period_refuted. Qed.
Print Assumptions C84_documented_formula_refuted.
Theorem C84_documented_formula_partial : forall (F : m22 R) (T s : R), 0 < T -> spectral_norm_2 F s ->
  compute_ftle_2x2 Rops [F] T = Ok [ftle_value s (Rabs T)].
Proof. exact ftle_abs_period. Qed.
Print Assumptions C84_documented_formula_partial.

(** For every list of Jacobians: the documented value if the period is positive, its negative if the
    period is negative. *)
Theorem C84_sign_2d : forall (Fs : list (m22 R)) (T : R), T <> 0 ->
  exists out, compute_ftle_2x2 Rops Fs T = Ok out /\
    Forall2 (fun F o => exists s, spectral_norm_2 F s /\
      o = (if Rlt_dec 0 T then ftle_value s (Rabs T) else xflip (ftle_value s (Rabs T)))) Fs out.
Proof. exact sign_2d. Qed.
Print Assumptions C84_sign_2d.
Theorem C84_sign_3d : forall eigvals (Fs : list (m33 R)) (T : R), eigvals_ok eigvals -> T <> 0 ->
  exists out, compute_ftle_3x3 Rops eigvals Fs T = Ok out /\
    Forall2 (fun F o => exists s, spectral_norm_3 F s /\
      o = (if Rlt_dec 0 T then ftle_value s (Rabs T) else xflip (ftle_value s (Rabs T)))) Fs out.
Proof. exact sign_3d. Qed.
Print Assumptions C84_sign_3d.
Example C84_case : compute_ftle_2x2 Rops [M22 2 0 0 2] 3 = Ok [ftle_value 2 (Rabs 3)] /\
  exists out, compute_ftle_2x2 Rops [M22 2 0 0 2] (-3) = Ok out /\ length out = 1%nat.
Proof.
  split; [apply C84_documented_formula_partial; [lra|exact diag2_norm]|].
  destruct (C84_sign_2d [M22 2 0 0 2] (-3)) as (out & E & H); [lra|]. exists out. split; [exact E|]. inversion H as [|? ? ? ? _ H']; subst. inversion H'. reflexivity.
Qed.
