(** Property C107: the flow-map Jacobian and the 2D FTLE computed from particle positions in binary64
    (src/pyftle/cauchy_green.py, particles.py, ftle.py). *)
From Coq Require Import Reals Floats.
From Verif Require Import Base Num Particles Jacobian Ftle SpecFtle SpecSeeds SpecFloat64 SpecAccuracy SpecConverge SpecFloatJac
  FtleAccuracyMain FloatJac.
Local Open Scope R_scope.

(** Every entry of the Jacobian is the exact central difference of the stored positions up to a relative error of 2^-50:
    no cancellation error is added to the one already in the positions. *)
Theorem C107_jacobian_2d : forall lnF gs gs' Gs Gs' p, mk_particles (Fops lnF) (layout2 gs) = Ok p ->
  length gs' = length gs -> Forall2 seated2 gs Gs -> Forall2 seated2 gs' Gs' -> Forall spaced2 Gs -> Forall bounded2 Gs' ->
  exists Fs, compute_flow_map_jacobian_2x2 (Fops lnF) (set_positions p (layout2 gs')) = Ok Fs /\
    Forall2 matrix_rounds_2 Fs (gradients2 Gs Gs').
Proof. exact jacobian_F2. Qed.
Print Assumptions C107_jacobian_2d.

Theorem C107_jacobian_3d : forall lnF gs gs' Gs Gs' p, mk_particles (Fops lnF) (layout3 gs) = Ok p ->
  length gs' = length gs -> Forall2 seated3 gs Gs -> Forall2 seated3 gs' Gs' -> Forall spaced3 Gs -> Forall bounded3 Gs' ->
  exists Fs, compute_flow_map_jacobian_3x3 (Fops lnF) (set_positions p (layout3 gs')) = Ok Fs /\
    Forall2 matrix_rounds_3 Fs (gradients3 Gs Gs').
Proof. exact jacobian_F3. Qed.
Print Assumptions C107_jacobian_3d.

(** The FTLE computed from the positions is within 2^-22 / |T| of the logarithm of the spectral norm of the exact central
    differences, unless their singular values nearly agree (see C09). *)
Theorem C107_ftle_2d : forall lnF gs gs' Gs Gs' p T tau, accurate_log lnF -> represents T tau -> ordinary tau ->
  mk_particles (Fops lnF) (layout2 gs) = Ok p -> length gs' = length gs ->
  Forall2 seated2 gs Gs -> Forall2 seated2 gs' Gs' -> Forall spaced2 Gs -> Forall bounded2 Gs' ->
  Forall (fun Q => well_scaled Q /\
    exists s, spectral_norm_2 Q s /\ det22 Q * det22 Q <= (1 - / 2 ^ 21) * (s * s * (s * s))) (gradients2 Gs Gs') ->
  exists Fs vs, compute_flow_map_jacobian_2x2 (Fops lnF) (set_positions p (layout2 gs')) = Ok Fs /\
    compute_ftle_2x2 (Fops lnF) Fs T = Ok (map XVal vs) /\
    Forall2 (fun Q v => exists s r, spectral_norm_2 Q s /\ represents v r /\ Rabs (r - ln s / tau) <= / 2 ^ 22 / Rabs tau)
      (gradients2 Gs Gs') vs.
Proof. exact ftle_F. Qed.
Print Assumptions C107_ftle_2d.

(** A seed whose neighbours move from (+-1, 0), (0, +-1) to (+-2, 0), (0, +-1/2) meets the hypotheses. *)
Example C107_case_2d : seated2 seed_F seed_R /\ seated2 moved_F moved_R /\ spaced2 seed_R /\ bounded2 moved_R /\
  gradients2 [seed_R] [moved_R] = [M22 2 0 0 (/ 2)] /\ well_scaled (M22 2 0 0 (/ 2)) /\ spectral_norm_2 (M22 2 0 0 (/ 2)) 2 /\
  det22 (M22 2 0 0 (/ 2)) * det22 (M22 2 0 0 (/ 2)) <= (1 - / 2 ^ 21) * (2 * 2 * (2 * 2)).
Proof. exact jac_case. Qed.

Example C107_case_3d : seated3 seed3_F seed3_R /\ spaced3 seed3_R /\ bounded3 seed3_R.
Proof. exact jac_case_3. Qed.

(** The logarithm and a period. *)
Example C107_case_log : (exists lnF, accurate_log lnF) /\ represents 2%float 2 /\ ordinary 2.
Proof. exact (conj (ex_intro _ _ lnR_rounded_accurate) (conj rep_2 ordinary_2)). Qed.
