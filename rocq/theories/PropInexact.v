(** Properties of the FTLE when the eigenvalue solver is inexact (C98). *)
From Coq Require Import Reals Lra.
From Verif Require Import Base Num Jacobian Ftle SpecFtle FtleFacts3 FtleInexact.
Local Open Scope R_scope.

(** C98.  numpy.linalg.eigvals is [eigvals]; nothing is assumed of its results except that the largest of them is within a
    relative error [eps] of the square of the spectral norm of F. *)
Theorem C98_inexact_eigenvalues : forall eigvals (Fs : list (m33 R)) (T eps : R), T <> 0 -> 0 <= eps < 1 ->
  Forall (fun F => exists s x y z, spectral_norm_3 F s /\ 0 < s /\ eigvals (mul33 F (tr33 F)) = Ok (x, y, z) /\
    Rabs (Rmax (Rmax x y) z - s * s) <= eps * (s * s)) Fs ->
  exists vs, compute_ftle_3x3 Rops eigvals Fs T = Ok (map XVal vs) /\
    Forall2 (fun F v => exists s, spectral_norm_3 F s /\ Rabs (v - ln s / T) <= - ln (1 - eps) / (2 * Rabs T)) Fs vs.
Proof. exact ftle3_inexact. Qed.
Print Assumptions C98_inexact_eigenvalues.

(** If it returns three negative numbers, the value is NaN, whatever the matrix. *)
Theorem C98_negative_eigenvalues : forall eigvals (Fs : list (m33 R)) (T : R) out i F x y z,
  T <> 0 -> compute_ftle_3x3 Rops eigvals Fs T = Ok out ->
  nth_error Fs i = Some F -> eigvals (mul33 F (tr33 F)) = Ok (x, y, z) -> x < 0 -> y < 0 -> z < 0 ->
  nth_error out i = Some XNaN.
Proof. exact ftle3_negative. Qed.
Print Assumptions C98_negative_eigenvalues.

(** If it fails for one particle there is no field at all. *)
Theorem C98_failure : forall eigvals (Fs : list (m33 R)) (T : R) i F e,
  nth_error Fs i = Some F -> eigvals (mul33 F (tr33 F)) = Err e ->
  exists e', compute_ftle_3x3 Rops eigvals Fs T = Err e'.
Proof. exact ftle3_fails. Qed.
Print Assumptions C98_failure.

Example C98_case : exists s x y z, spectral_norm_3 id33 s /\ 0 < s /\
  (fun _ : m33 R => Ok (5 / 4, 1, 7 / 8)) (mul33 id33 (tr33 id33)) = Ok (x, y, z) /\
  Rabs (Rmax (Rmax x y) z - s * s) <= 1 / 4 * (s * s).
Proof.
  exists 1, (5 / 4), 1, (7 / 8).
  split; [apply orthogonal_spectral_3; unfold orthogonal_3; apply m33_ext; simpl; ring|]. split; [lra|]. split; [reflexivity|].
  rewrite (Rmax_left (5 / 4) 1), (Rmax_left (5 / 4) (7 / 8)) by lra. rewrite Rabs_right; lra.
Qed.
