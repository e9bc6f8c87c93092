(** Property C25 in binary64. *)
From Coq Require Import Floats.
From Verif Require Import Base Num Particles Integrate SpecIntegrate SpecReverse IntegrateMisc FloatReverse.

(** With every velocity and every time step negated ([opposite]), every particle ends where it did, up to
    the sign of zeros. *)
Theorem C25_binary64 : forall lnF (S S' : Type) (interpolate : S -> mat float -> S * res (mat float)) I
  (interpolate' : S' -> mat float -> S' * res (mat float)) I' m hist hist' steps mems mems' k k' w w' s s' p,
  samples_field interpolate I -> samples_field interpolate' I' ->
  presents I hist steps -> presents I' hist' (opposite steps) -> I w s -> I' w' s' ->
  Forall (fun a => blind_to_sign (fst a)) steps ->
  exists i1 s1 p1 i2 s2 p2,
    integrate_seq (Fops lnF) interpolate mems k (fresh m) s hist p = (i1, s1, p1, Ok tt) /\
    integrate_seq (Fops lnF) interpolate' mems' k' (fresh m) s' hist' p = (i2, s2, p2, Ok tt) /\
    Forall2 same_point (mrows (positions p2)) (mrows (positions p1)).
Proof. exact @reverse_float. Qed.
Print Assumptions C25_binary64.

(** The sign of zero can differ. *)
Theorem C25_binary64_bitwise_refuted : forall lnF, exists (v : list float -> list float) (h : float) (x : list float),
  blind_to_sign v /\ path (Fops lnF) MRK4 [(v, h)] x <> path (Fops lnF) MRK4 (opposite [(v, h)]) x.
Proof. exact (fun lnF => ex_intro _ cancelling (ex_intro _ 1%float (ex_intro _ [neg_zero]
  (conj cancelling_blind (cancelling_differs lnF))))). Qed.
Print Assumptions C25_binary64_bitwise_refuted.

(** Every sequence of fields and steps can be presented; a field that meets the condition. *)
Example C25_binary64_case : samples_field (@field_interp float) (fun v s => s = v) /\
  (forall steps : list ((list float -> list float) * float),
     presents (fun v s => s = v) (map (fun a => ((fun _ => fst a), snd a)) steps) steps) /\
  blind_to_sign cancelling.
Proof. exact (conj field_interp_ok (conj field_presents cancelling_blind)). Qed.
