(** The sign of the period (C84). *)
From Coq Require Import Reals Lra.
From Verif Require Import Base Num Jacobian Ftle SpecFtle FtleFacts2 FtleFacts3.
Local Open Scope R_scope.

Lemma value_flip s T : T < 0 -> ftle_value s T = xflip (ftle_value s (Rabs T)).
Proof.
  intro H. rewrite Rabs_left by exact H. unfold ftle_value. destruct (Req_EM_T s 0).
  - destruct (Rlt_dec 0 T); [lra|]. destruct (Rlt_dec 0 (- T)); [reflexivity|lra].
  - cbn. f_equal. field. lra.
Qed.

Lemma Forall2_impl_len {A B} (P Q : A -> B -> Prop) l m : (forall a b, P a b -> Q a b) -> Forall2 P l m -> Forall2 Q l m.
Proof. intros I H. induction H; constructor; auto. Qed.

Lemma sign_2d Fs T : T <> 0 ->
  exists out, compute_ftle_2x2 Rops Fs T = Ok out /\
    Forall2 (fun F o => exists s, spectral_norm_2 F s /\
      o = (if Rlt_dec 0 T then ftle_value s (Rabs T) else xflip (ftle_value s (Rabs T)))) Fs out.
Proof.
  intro H. destruct (ftle2_spec Fs T H) as (out & E & F). exists out. split; [exact E|].
  refine (Forall2_impl_len _ _ _ _ _ F). intros M o (s & Hs & ->). exists s. split; [exact Hs|].
  destruct (Rlt_dec 0 T); [rewrite Rabs_right by lra; reflexivity|apply value_flip; lra].
Qed.
Lemma sign_3d eigvals Fs T : eigvals_ok eigvals -> T <> 0 ->
  exists out, compute_ftle_3x3 Rops eigvals Fs T = Ok out /\
    Forall2 (fun F o => exists s, spectral_norm_3 F s /\
      o = (if Rlt_dec 0 T then ftle_value s (Rabs T) else xflip (ftle_value s (Rabs T)))) Fs out.
Proof.
  intros Hv H. destruct (ftle3_spec eigvals Fs T Hv H) as (out & E & F). exists out. split; [exact E|].
  refine (Forall2_impl_len _ _ _ _ _ F). intros M o (s & Hs & ->). exists s. split; [exact Hs|].
  destruct (Rlt_dec 0 T); [rewrite Rabs_right by lra; reflexivity|apply value_flip; lra].
Qed.
