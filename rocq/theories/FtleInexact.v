(** FTLE in three dimensions from eigenvalues that are not exact. *)
From Coq Require Import Reals Lra.
From Verif Require Import Base Num Jacobian Ftle SpecFtle FtleFacts2 FtleFacts3.
Local Open Scope R_scope.

Lemma ftle3_entries eigvals Fs T out :
  T <> 0 -> compute_ftle_3x3 Rops eigvals Fs T = Ok out ->
  Forall2 (fun F o => exists x y z, eigvals (mul33 F (tr33 F)) = Ok (x, y, z) /\
    o = xscale Rops (1 / T) (log_sqrt Rops (Some (Rmax (Rmax x y) z)))) Fs out.
Proof.
  intros HT. unfold compute_ftle_3x3, ftle_of_eigs. rewrite py_div_R.
  destruct (Req_EM_T T 0) as [|_]; [contradiction|]. cbn [bind].
  unfold max_eigenvalue_3x3, compute_cauchy_green_3x3. revert out.
  induction Fs as [|F Fs IH]; intros out; cbn [map mapr bind].
  - intro E. injection E as <-. constructor.
  - unfold max_eig_3x3 at 1. rewrite cg3_is_FFt.
    destruct (eigvals (mul33 F (tr33 F))) as [[[x y] z]|e] eqn:Ee; [|discriminate]. cbn [bind].
    destruct (mapr (max_eig_3x3 Rops eigvals) (map (cauchy_green_3x3 Rops) Fs)) as [es|e] eqn:Em; [|discriminate]. cbn [bind map].
    intro E. injection E as <-. constructor.
    + exists x, y, z. split; [exact Ee|]. rewrite !o_max_Rmax. reflexivity.
    + apply IH. reflexivity.
Qed.

Lemma ftle3_succeeds eigvals Fs T : T <> 0 ->
  Forall (fun F => exists e, eigvals (mul33 F (tr33 F)) = Ok e) Fs ->
  exists out, compute_ftle_3x3 Rops eigvals Fs T = Ok out.
Proof.
  intros HT H. unfold compute_ftle_3x3, ftle_of_eigs. rewrite py_div_R.
  destruct (Req_EM_T T 0) as [|_]; [contradiction|]. unfold max_eigenvalue_3x3, compute_cauchy_green_3x3.
  enough (E : exists es, mapr (max_eig_3x3 Rops eigvals) (map (cauchy_green_3x3 Rops) Fs) = Ok es).
  { destruct E as (es & ->). eexists. reflexivity. }
  induction H as [|F Fs (((x & y) & z) & E) H IH]; [eexists; reflexivity|]. destruct IH as (es & IH). cbn [map mapr].
  unfold max_eig_3x3 at 1. rewrite cg3_is_FFt, E. cbn [bind]. rewrite IH. eexists. reflexivity.
Qed.

Lemma log_close s l eps : 0 < s -> 0 <= eps < 1 -> Rabs (l - s * s) <= eps * (s * s) ->
  0 < l /\ Rabs (ln (R_sqrt.sqrt l) - ln s) <= - ln (1 - eps) / 2.
Proof.
  intros Hs He Hl. assert (Hss : 0 < s * s) by nra.
  assert (Hlo : (1 - eps) * (s * s) <= l) by (revert Hl; unfold Rabs; destruct (Rcase_abs _); lra).
  assert (Hhi : l <= (1 + eps) * (s * s)) by (revert Hl; unfold Rabs; destruct (Rcase_abs _); lra).
  assert (Hp : 0 < l) by nra. split; [exact Hp|].
  assert (Hq : 0 < R_sqrt.sqrt l) by (apply sqrt_lt_R0; exact Hp).
  assert (El : 2 * ln (R_sqrt.sqrt l) = ln l).
  { rewrite <- (sqrt_sqrt l) at 2 by lra. rewrite ln_mult by assumption. ring. }
  assert (Es : 2 * ln s = ln (s * s)) by (rewrite ln_mult by assumption; ring).
  assert (H1 : ln (1 - eps) + ln (s * s) <= ln l).
  { rewrite <- ln_mult by lra. destruct Hlo as [H|H]; [left; apply ln_increasing; nra|right; rewrite H; reflexivity]. }
  assert (H2 : ln l <= ln (1 + eps) + ln (s * s)).
  { rewrite <- ln_mult by lra. destruct Hhi as [H|H]; [left; apply ln_increasing; nra|right; rewrite H; reflexivity]. }
  assert (H3 : ln (1 + eps) <= - ln (1 - eps)).
  { rewrite <- ln_Rinv by lra. assert (H : 1 + eps <= / (1 - eps)).
    { apply Rmult_le_reg_r with (1 - eps); [lra|]. rewrite Rinv_l by lra. nra. }
    destruct H as [H|H]; [left; apply ln_increasing; lra|right; rewrite H; reflexivity]. }
  unfold Rabs. destruct (Rcase_abs _); lra.
Qed.

Lemma entry_positive l T : 0 < l -> T <> 0 ->
  xscale Rops (1 / T) (log_sqrt Rops (Some l)) = XVal (ln (R_sqrt.sqrt l) / T).
Proof.
  intros Hl HT. unfold log_sqrt, xscale. cbn. destruct (Rlt_dec l 0); [lra|]. unfold R_log.
  destruct (Rlt_dec 0 (R_sqrt.sqrt l)) as [_|H]; [|exfalso; apply H, sqrt_lt_R0; exact Hl]. f_equal. field. exact HT.
Qed.

Lemma ftle3_inexact eigvals Fs T eps : T <> 0 -> 0 <= eps < 1 ->
  Forall (fun F => exists s x y z, spectral_norm_3 F s /\ 0 < s /\ eigvals (mul33 F (tr33 F)) = Ok (x, y, z) /\
    Rabs (Rmax (Rmax x y) z - s * s) <= eps * (s * s)) Fs ->
  exists vs, compute_ftle_3x3 Rops eigvals Fs T = Ok (map XVal vs) /\
    Forall2 (fun F v => exists s, spectral_norm_3 F s /\ Rabs (v - ln s / T) <= - ln (1 - eps) / (2 * Rabs T)) Fs vs.
Proof.
  intros HT He H.
  destruct (ftle3_succeeds eigvals Fs T HT) as (out & Hout).
  { revert H. apply Forall_impl. intros F (s & x & y & z & _ & _ & E & _). exists (x, y, z). exact E. }
  rewrite Hout. assert (Hen := ftle3_entries _ _ _ _ HT Hout). clear Hout.
  induction Hen as [|F o Fs out Ho Hen IH]; [exists []; split; [reflexivity|constructor]|].
  inversion H as [|? ? (s & x & y & z & Hs & Hp & E & Hc) H']; subst. destruct (IH H') as (vs & Ev & Hvs). injection Ev as ->.
  destruct Ho as (x' & y' & z' & E' & ->). rewrite E in E'. injection E' as <- <- <-.
  destruct (log_close _ _ _ Hp He Hc) as (Hl & Hb). rewrite entry_positive by assumption.
  exists (ln (R_sqrt.sqrt (Rmax (Rmax x y) z)) / T :: vs). split; [reflexivity|]. constructor; [|exact Hvs].
  exists s. split; [exact Hs|].
  replace (ln (R_sqrt.sqrt (Rmax (Rmax x y) z)) / T - ln s / T) with ((ln (R_sqrt.sqrt (Rmax (Rmax x y) z)) - ln s) / T) by (field; exact HT).
  unfold Rdiv at 1. rewrite Rabs_mult, Rabs_inv.
  assert (HTa : 0 < Rabs T) by (apply Rabs_pos_lt; exact HT).
  replace (- ln (1 - eps) / (2 * Rabs T)) with (- ln (1 - eps) / 2 * / Rabs T) by (field; lra).
  apply Rmult_le_compat_r; [left; apply Rinv_0_lt_compat; exact HTa|exact Hb].
Qed.

Lemma ftle3_negative eigvals Fs T out i F x y z : T <> 0 -> compute_ftle_3x3 Rops eigvals Fs T = Ok out ->
  nth_error Fs i = Some F -> eigvals (mul33 F (tr33 F)) = Ok (x, y, z) -> x < 0 -> y < 0 -> z < 0 ->
  nth_error out i = Some XNaN.
Proof.
  intros HT Hout Hi He Hx Hy Hz. assert (Hen := ftle3_entries _ _ _ _ HT Hout). clear Hout. revert i Hi.
  induction Hen as [|G o Gs out Ho Hen IH]; intros [|i] Hi; cbn in Hi |- *; try discriminate; [|auto].
  injection Hi as ->. destruct Ho as (x' & y' & z' & E & ->). rewrite He in E. injection E as <- <- <-. f_equal.
  unfold log_sqrt. cbn [o_sqrt Rops]. destruct (Rlt_dec _ 0) as [_|H]; [reflexivity|]. exfalso. apply H.
  apply Rmax_lub_lt; [apply Rmax_lub_lt; assumption|assumption].
Qed.

Lemma ftle3_fails eigvals Fs T i F e : nth_error Fs i = Some F -> eigvals (mul33 F (tr33 F)) = Err e ->
  exists e', compute_ftle_3x3 Rops eigvals Fs T = Err e'.
Proof.
  intros Hi He. unfold compute_ftle_3x3, max_eigenvalue_3x3, compute_cauchy_green_3x3.
  enough (E : exists e', mapr (max_eig_3x3 Rops eigvals) (map (cauchy_green_3x3 Rops) Fs) = Err e').
  { destruct E as (e' & ->). exists e'. reflexivity. }
  revert i Hi. induction Fs as [|G Gs IH]; intros [|i] Hi; cbn in Hi; try discriminate; cbn [map mapr].
  - injection Hi as ->. unfold max_eig_3x3 at 1. rewrite cg3_is_FFt, He. eexists. reflexivity.
  - destruct (max_eig_3x3 Rops eigvals _) as [a|a]; cbn [bind]; [|eexists; reflexivity]. destruct (IH i Hi) as (e' & ->). eexists. reflexivity.
Qed.
