(** Properties of the 2D FTLE in binary64 arithmetic (C09, C99). *)
From Coq Require Import Reals Floats.
From Flocq Require Import Core.
From Verif Require Import Base Num Jacobian Ftle SpecFtle SpecFloat64 SpecAccuracy FtleFacts2 FtleAccuracyMain.
Local Open Scope R_scope.

(** C09, C99.  The value returned is (1/T) times the logarithm of a binary64 number x.  Either x is the spectral norm of
    the Jacobian up to a relative error of 2^-24, or x is NaN and the two singular values agree to about 7 digits
    (det^2 = s^4 when they are equal).  Nothing is assumed of the library's logarithm. *)
Theorem C09_nan_only_near_conformal : forall lnF Fs Gs T,
  PrimFloat.eqb T 0 = false -> Forall2 stands_for Fs Gs -> Forall moderate Gs ->
  exists xs, compute_ftle_2x2 (Fops lnF) Fs T =
      Ok (map (fun x => XVal (PrimFloat.mul (PrimFloat.div 1 T) (lnF x))) xs) /\
    Forall2 (fun G x => exists s, spectral_norm_2 G s /\
      ((x = PrimFloat.nan /\ (1 - / 2 ^ 22) * (s * s * (s * s)) < det22 G * det22 G) \/
       exists r, represents x r /\ Rabs (r - s) <= / 2 ^ 24 * s)) Gs xs.
Proof. exact accurate_args. Qed.
Print Assumptions C09_nan_only_near_conformal.
Example C09_case_near : PrimFloat.eqb 3 0 = false /\ Forall2 stands_for [M22 2 0 0 0.5]%float [M22 2 0 0 (/ 2)] /\ Forall moderate [M22 2 0 0 (/ 2)].
Proof. split; [reflexivity|]. split; (constructor; [apply diag_case|constructor]). Qed.

(** C99.  With a logarithm accurate to 2^-40 the result is finite and within 2^-23 / |T| of ln(s) / T. *)
Theorem C99_accurate_away_from_conformal : forall lnF Fs Gs T tau,
  accurate_log lnF -> represents T tau -> / 2 ^ 200 <= Rabs tau <= 2 ^ 200 ->
  Forall2 stands_for Fs Gs -> Forall moderate Gs ->
  Forall (fun G => exists s, spectral_norm_2 G s /\ det22 G * det22 G <= (1 - / 2 ^ 22) * (s * s * (s * s))) Gs ->
  exists vs, compute_ftle_2x2 (Fops lnF) Fs T = Ok (map XVal vs) /\
    Forall2 (fun G v => exists s r, spectral_norm_2 G s /\ represents v r /\
      Rabs (r - ln s / tau) <= / 2 ^ 23 / Rabs tau) Gs vs.
Proof. exact accurate_values. Qed.
Print Assumptions C99_accurate_away_from_conformal.

(** diag(2, 1/2) meets the hypotheses. *)
Example C99_case_matrix : stands_for (M22 2 0 0 0.5)%float (M22 2 0 0 (/ 2)) /\ moderate (M22 2 0 0 (/ 2)) /\
  spectral_norm_2 (M22 2 0 0 (/ 2)) 2 /\
  det22 (M22 2 0 0 (/ 2)) * det22 (M22 2 0 0 (/ 2)) <= (1 - / 2 ^ 22) * (2 * 2 * (2 * 2)).
Proof. exact diag_case. Qed.

(** There is a logarithm as accurate as assumed: the real one rounded to a multiple of 2^-41. *)
Example C99_case_log : exists lnF, accurate_log lnF.
Proof. exists lnR_rounded. exact lnR_rounded_accurate. Qed.
