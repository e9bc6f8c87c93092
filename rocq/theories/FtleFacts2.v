(** Proofs about the 2D Cauchy-Green tensor, eigenvalue and FTLE. *)
From Coq Require Import Reals Lra Psatz Nsatz.
From Verif Require Import Base Num Jacobian Ftle SpecFtle.
Local Open Scope R_scope.

Lemma m22_ext (A B : m22 R) :
  a00 A = a00 B -> a01 A = a01 B -> a10 A = a10 B -> a11 A = a11 B -> A = B.
Proof. destruct A, B; simpl; intros; subst; reflexivity. Qed.

Lemma cg2_is_FtF F : cauchy_green_2x2 Rops F = mul22 (tr22 F) F.
Proof. apply m22_ext; simpl; ring. Qed.

Lemma cg2_list Fs :
  compute_cauchy_green_2x2 Rops Fs = map (fun F => mul22 (tr22 F) F) Fs.
Proof. unfold compute_cauchy_green_2x2. apply map_ext. exact cg2_is_FtF. Qed.

Lemma FtF_sym F : tr22 (mul22 (tr22 F) F) = mul22 (tr22 F) F.
Proof. apply m22_ext; simpl; ring. Qed.

Lemma FtF_quad F u :
  dot2 u (app22 (mul22 (tr22 F) F) u) = dot2 (app22 F u) (app22 F u).
Proof. destruct u; unfold dot2, app22; simpl; ring. Qed.

Lemma dot2_pos u : 0 <= dot2 u u.
Proof. destruct u; unfold dot2; simpl. nra. Qed.

Lemma cg2_all Fs : 
  compute_cauchy_green_2x2 Rops Fs = map (fun F => mul22 (tr22 F) F) Fs /\
  (forall C, In C (compute_cauchy_green_2x2 Rops Fs) ->
     tr22 C = C /\ forall u, 0 <= dot2 u (app22 C u)).
Proof.
  split; [apply cg2_list|].
  intros C HC. rewrite cg2_list in HC. apply in_map_iff in HC.
  destruct HC as [F [<- _]]. split; [apply FtF_sym|].
  intro u. rewrite FtF_quad. apply dot2_pos.
Qed.

(** Largest eigenvalue of a symmetric 2x2 matrix [A B; B D]. *)
Definition lam (A B D : R) : R := /2 * (A + D + sqrt ((A - D) * (A - D) + 4 * B * B)).

Lemma disc_pos A B D : 0 <= (A - D) * (A - D) + 4 * B * B.
Proof. assert (H1 := Rle_0_sqr (A - D)). assert (H2 := Rle_0_sqr B). unfold Rsqr in *. lra. Qed.

Lemma lam_root A B D : (lam A B D - A) * (lam A B D - D) = B * B.
Proof.
  unfold lam. set (s := sqrt _).
  assert (Hs : s * s = (A - D) * (A - D) + 4 * B * B) by (apply sqrt_sqrt, disc_pos).
  nra.
Qed.

Lemma lam_ge A B D : A <= lam A B D /\ D <= lam A B D.
Proof.
  unfold lam. set (s := sqrt _).
  assert (H0 : 0 <= s) by apply sqrt_pos.
  assert (Hs : s * s = (A - D) * (A - D) + 4 * B * B) by (apply sqrt_sqrt, disc_pos).
  assert (Rabs (A - D) <= s).
  { apply Rsqr_incr_0_var; [|exact H0]. rewrite <- Rsqr_abs. unfold Rsqr. nra. }
  assert (H1 := Rle_abs (A - D)). assert (H2 := Rle_abs (- (A - D))).
  rewrite Rabs_Ropp in H2. lra.
Qed.

Lemma lam_quad A B D x y :
  A * x * x + 2 * B * x * y + D * y * y <= lam A B D * (x * x + y * y).
Proof.
  destruct (lam_ge A B D) as [HA HD]. assert (Hr := lam_root A B D).
  set (l := lam A B D) in *.
  set (p := l - A) in *. set (q := l - D) in *.
  assert (Hp : 0 <= p) by (unfold p; lra). assert (Hq : 0 <= q) by (unfold q; lra).
  enough (0 <= p * x * x - 2 * B * x * y + q * y * y) by (unfold p, q in *; nra).
  destruct (Req_dec p 0) as [Hp0|Hp0].
  - rewrite Hp0 in Hr. assert (B = 0) by nra. subst B. nra.
  - assert (0 < p) by lra.
    assert (E : p * (p * x * x - 2 * B * x * y + q * y * y) = (p * x - B * y) * (p * x - B * y)).
    { replace (p * (p * x * x - 2 * B * x * y + q * y * y))
        with (p * x * p * x - 2 * p * B * x * y + (p * q) * y * y) by ring.
      rewrite Hr. ring. }
    apply Rmult_le_reg_l with p; [lra|]. rewrite Rmult_0_r, E. apply Rle_0_sqr.
Qed.

(** A unit eigenvector. *)
Lemma lam_vec A B D :
  exists x y, x * x + y * y = 1 /\ A * x + B * y = lam A B D * x /\ B * x + D * y = lam A B D * y.
Proof.
  assert (Hr := lam_root A B D). destruct (lam_ge A B D) as [HA HD].
  set (l := lam A B D) in *.
  assert (Hex : exists x y, 0 < x * x + y * y /\ A * x + B * y = l * x /\ B * x + D * y = l * y).
  { destruct (Req_dec B 0) as [HB|HB].
    - subst B. destruct (Req_dec (l - A) 0).
      + exists 1, 0. repeat split; lra.
      + assert (l - D = 0) by nra. exists 0, 1. repeat split; lra.
    - exists B, (l - A). repeat split; nra. }
  destruct Hex as (x & y & Hn & H1 & H2).
  set (n := sqrt (x * x + y * y)).
  assert (Hn0 : 0 < n) by (apply sqrt_lt_R0; exact Hn).
  assert (Hnn : n * n = x * x + y * y) by (apply sqrt_sqrt; lra).
  exists (x / n), (y / n). repeat split.
  - field_simplify; [|lra]. apply Rmult_eq_reg_r with (n^2); [|nra].
    field_simplify; [|lra]. nra.
  - unfold Rdiv.
    replace (A * (x * / n) + B * (y * / n)) with ((A * x + B * y) * / n) by ring.
    rewrite H1. ring.
  - unfold Rdiv.
    replace (B * (x * / n) + D * (y * / n)) with ((B * x + D * y) * / n) by ring.
    rewrite H2. ring.
Qed.

Lemma max_eig_sym C : a10 C = a01 C ->
  max_eig_2x2 Rops C = Some (lam (a00 C) (a01 C) (a11 C)).
Proof.
  intro Hb. unfold max_eig_2x2. simpl.
  rewrite Hb.
  replace ((a00 C + a11 C) * (a00 C + a11 C) - 4 * (a00 C * a11 C - a01 C * a01 C))
    with ((a00 C - a11 C) * (a00 C - a11 C) + 4 * a01 C * a01 C) by ring.
  destruct (Rlt_dec _ 0) as [Hlt|_].
  { exfalso. assert (H := disc_pos (a00 C) (a01 C) (a11 C)). lra. }
  f_equal. unfold o_max, o_half; simpl. unfold R_ltb.
  assert (H0 := sqrt_pos ((a00 C - a11 C) * (a00 C - a11 C) + 4 * a01 C * a01 C)).
  destruct (Rlt_dec _ _) as [Hlt|_]; [exfalso; lra|].
  unfold lam. lra.
Qed.

Lemma max_eig_lam F :
  let C := mul22 (tr22 F) F in
  max_eig_2x2 Rops C = Some (lam (a00 C) (a01 C) (a11 C)).
Proof. intro C. apply max_eig_sym. unfold C; simpl; ring. Qed.

Lemma lam_nonneg F : let C := mul22 (tr22 F) F in 0 <= lam (a00 C) (a01 C) (a11 C).
Proof.
  intro C. destruct (lam_ge (a00 C) (a01 C) (a11 C)) as [H _].
  assert (0 <= a00 C) by (unfold C; simpl; nra). lra.
Qed.

Lemma spectral_norm_lam F :
  let C := mul22 (tr22 F) F in
  spectral_norm_2 F (sqrt (lam (a00 C) (a01 C) (a11 C))).
Proof.
  intro C. assert (H0 := lam_nonneg F). cbv zeta in H0. fold C in H0.
  set (l := lam (a00 C) (a01 C) (a11 C)) in *.
  assert (Hq : forall u, dot2 (app22 F u) (app22 F u) =
             a00 C * fst u * fst u + 2 * a01 C * fst u * snd u + a11 C * snd u * snd u).
  { intros [x y]. unfold C, dot2, app22; simpl; ring. }
  split.
  - intro u. unfold norm2. rewrite <- sqrt_mult; [|exact H0|apply dot2_pos].
    apply sqrt_le_1; [apply dot2_pos|apply Rmult_le_pos; [exact H0|apply dot2_pos]|].
    rewrite Hq. unfold dot2. apply lam_quad.
  - destruct (lam_vec (a00 C) (a01 C) (a11 C)) as (x & y & Hn & H1 & H2). fold l in H1, H2.
    exists (x, y). split.
    + unfold norm2, dot2; simpl. rewrite Hn. apply sqrt_1.
    + unfold norm2. f_equal. rewrite Hq; cbn [fst snd].
      replace (a00 C * x * x + 2 * a01 C * x * y + a11 C * y * y)
        with (x * (a00 C * x + a01 C * y) + y * (a01 C * x + a11 C * y)) by ring.
      rewrite H1, H2. nra.
Qed.

Lemma spectral_norm_2_unique F s t : spectral_norm_2 F s -> spectral_norm_2 F t -> s = t.
Proof.
  intros [Hs [u [Hu Hsu]]] [Ht [w [Hw Htw]]].
  apply Rle_antisym.
  - rewrite <- Hsu. specialize (Ht u). rewrite Hu in Ht. lra.
  - rewrite <- Htw. specialize (Hs w). rewrite Hw in Hs. lra.
Qed.

Lemma spectral_norm_2_nonneg F s : spectral_norm_2 F s -> 0 <= s.
Proof. intros [_ [u [_ <-]]]. apply sqrt_pos. Qed.

Lemma largest_eigenvalue_sym C : a10 C = a01 C ->
  largest_eigenvalue_2 C (lam (a00 C) (a01 C) (a11 C)).
Proof.
  intro Hb. split.
  - destruct (lam_vec (a00 C) (a01 C) (a11 C)) as (x & y & Hn & H1 & H2).
    exists (x, y). split.
    + intro E. injection E as -> ->. lra.
    + unfold app22, scale2; cbn [fst snd]. rewrite Hb, H1, H2. reflexivity.
  - intros m [[x y] [Hu He]]. unfold app22, scale2 in He; cbn [fst snd] in He.
    rewrite Hb in He. injection He as H1 H2.
    assert (Hq := lam_quad (a00 C) (a01 C) (a11 C) x y).
    assert (Hn : 0 < x * x + y * y).
    { destruct (Req_dec x 0) as [->|Hx].
      - destruct (Req_dec y 0) as [->|Hy]; [exfalso; apply Hu; reflexivity|].
        assert (H := Rsqr_pos_lt y Hy). unfold Rsqr in H. lra.
      - assert (H := Rsqr_pos_lt x Hx). assert (H' := Rle_0_sqr y). unfold Rsqr in *. lra. }
    assert (a00 C * x * x + 2 * a01 C * x * y + a11 C * y * y = m * (x * x + y * y)).
    { replace (a00 C * x * x + 2 * a01 C * x * y + a11 C * y * y)
        with (x * (a00 C * x + a01 C * y) + y * (a01 C * x + a11 C * y)) by ring.
      rewrite H1, H2. ring. }
    apply Rmult_le_reg_r with (x * x + y * y); [exact Hn|lra].
Qed.

Lemma largest_eigenvalue_lam F :
  let C := mul22 (tr22 F) F in
  largest_eigenvalue_2 C (lam (a00 C) (a01 C) (a11 C)).
Proof. intro C. apply largest_eigenvalue_sym. unfold C; simpl; ring. Qed.

(** C04 *)
Lemma max_eig_is_norm_sq F :
  exists s, spectral_norm_2 F s /\ largest_eigenvalue_2 (mul22 (tr22 F) F) (s * s) /\
            max_eigenvalue_2x2 Rops (compute_cauchy_green_2x2 Rops [F]) = [Some (s * s)].
Proof.
  exists (sqrt (lam (a00 (mul22 (tr22 F) F)) (a01 (mul22 (tr22 F) F)) (a11 (mul22 (tr22 F) F)))).
  split; [apply spectral_norm_lam|].
  rewrite sqrt_sqrt by apply lam_nonneg.
  split; [apply largest_eigenvalue_lam|].
  unfold compute_cauchy_green_2x2, max_eigenvalue_2x2, map.
  rewrite cg2_is_FtF, max_eig_lam. reflexivity.
Qed.

Lemma max_eig_list Fs :
  Forall2 (fun F e => exists s, spectral_norm_2 F s /\
              largest_eigenvalue_2 (mul22 (tr22 F) F) (s * s) /\ e = Some (s * s))
    Fs (max_eigenvalue_2x2 Rops (compute_cauchy_green_2x2 Rops Fs)).
Proof.
  induction Fs as [|F Fs IH]; [constructor|].
  unfold max_eigenvalue_2x2, compute_cauchy_green_2x2 in *. cbn [map].
  constructor; [|exact IH].
  destruct (max_eig_is_norm_sq F) as (s & H1 & H2 & H3).
  exists s. split; [exact H1|split; [exact H2|]].
  unfold max_eigenvalue_2x2, compute_cauchy_green_2x2, map in H3. injection H3 as H3. exact H3.
Qed.

Lemma ftle_entry s T : 0 <= s -> T <> 0 ->
  xscale Rops (1 / T) (log_sqrt Rops (Some (s * s))) = ftle_value s T.
Proof.
  intros Hs HT. unfold log_sqrt, xscale, ftle_value; simpl.
  destruct (Rlt_dec (s * s) 0) as [H|_]; [exfalso; nra|].
  rewrite sqrt_square by exact Hs.
  unfold R_log. destruct (Req_EM_T s 0) as [->|Hs0].
  - destruct (Rlt_dec 0 0); [lra|]. destruct (Req_EM_T 0 0) as [_|]; [|lra].
    unfold R_ltb, o_zero; simpl.
    destruct (Rlt_dec 0 T) as [HT1|HT1].
    + destruct (Rlt_dec 0 (1 / T)) as [_|H]; [reflexivity|].
      exfalso; apply H. apply Rdiv_lt_0_compat; lra.
    + assert (HT2 : T < 0) by lra.
      assert (Hn : 1 / T < 0).
      { unfold Rdiv. rewrite Rmult_1_l. apply Rinv_lt_0_compat, HT2. }
      destruct (Rlt_dec 0 (1 / T)) as [|_]; [lra|].
      destruct (Rlt_dec (1 / T) 0) as [_|]; [reflexivity|lra].
  - destruct (Rlt_dec 0 s) as [_|]; [|lra].
    f_equal. unfold Rdiv. ring.
Qed.

Lemma py_div_R a b : py_div Rops a b = if Req_EM_T b 0 then Err ZeroDivisionError else Ok (a / b).
Proof. unfold py_div, o_zero; simpl. unfold R_eqb. destruct (Req_EM_T b 0); reflexivity. Qed.

(** C05 *)
Lemma ftle2_spec Fs T : T <> 0 ->
  exists out, compute_ftle_2x2 Rops Fs T = Ok out /\
    Forall2 (fun F o => exists s, spectral_norm_2 F s /\ o = ftle_value s T) Fs out.
Proof.
  intro HT. unfold compute_ftle_2x2, ftle_of_eigs. rewrite py_div_R.
  destruct (Req_EM_T T 0) as [|_]; [contradiction|]. simpl.
  eexists; split; [reflexivity|].
  assert (H := max_eig_list Fs).
  remember (max_eigenvalue_2x2 Rops (compute_cauchy_green_2x2 Rops Fs)) as es eqn:He. clear He.
  induction H as [|F e Fs es Hx H IH]; simpl; [constructor|].
  constructor; [|exact IH].
  destruct Hx as (s & Hs & _ & ->). exists s. split; [exact Hs|].
  apply ftle_entry; [eapply spectral_norm_2_nonneg; eassumption|exact HT].
Qed.

Lemma ftle2_zero_period Fs : compute_ftle_2x2 Rops Fs 0 = Err ZeroDivisionError.
Proof.
  unfold compute_ftle_2x2, ftle_of_eigs. rewrite py_div_R.
  destruct (Req_EM_T 0 0) as [_|]; [reflexivity|lra].
Qed.

(** Direct form for one Jacobian. *)
Lemma ftle2_one F T s : T <> 0 -> spectral_norm_2 F s ->
  compute_ftle_2x2 Rops [F] T = Ok [ftle_value s T].
Proof.
  intros HT Hs. destruct (ftle2_spec [F] T HT) as (out & -> & H).
  inversion H as [|? o ? out' Hx Hn]; subst. inversion Hn; subst.
  destruct Hx as (s' & Hs' & ->). rewrite (spectral_norm_2_unique F s s'); auto.
Qed.

Lemma ftle2_map Fs T ss : T <> 0 -> Forall2 spectral_norm_2 Fs ss ->
  compute_ftle_2x2 Rops Fs T = Ok (map (fun s => ftle_value s T) ss).
Proof.
  intros HT Hs. destruct (ftle2_spec Fs T HT) as (out & -> & H). f_equal.
  revert out H. induction Hs as [|F s Fs ss Hx Hs IH]; intros out H.
  - inversion H; reflexivity.
  - inversion H as [|? o ? out' (s' & Hs' & ->) Hn]; subst. simpl. f_equal.
    + rewrite (spectral_norm_2_unique F s s'); auto.
    + apply IH, Hn.
Qed.

Lemma spectral_norm_2_exists F : exists s, spectral_norm_2 F s.
Proof. eexists; apply spectral_norm_lam. Qed.

Lemma spectral_norms_2 Fs : exists ss, Forall2 spectral_norm_2 Fs ss.
Proof.
  induction Fs as [|F Fs [ss H]]; [exists []; constructor|].
  destruct (spectral_norm_2_exists F) as [s Hs]. exists (s :: ss). constructor; assumption.
Qed.

(** C07 (2D) *)
Lemma det_bound_2 F s : spectral_norm_2 F s -> Rabs (det22 F) <= s * s.
Proof.
  intro Hs. rewrite (spectral_norm_2_unique F s _ Hs (spectral_norm_lam F)).
  set (C := mul22 (tr22 F) F). rewrite sqrt_sqrt by apply lam_nonneg.
  destruct (lam_ge (a00 C) (a01 C) (a11 C)) as [HA HD].
  assert (Hd : det22 F * det22 F = a00 C * a11 C - a01 C * a01 C)
    by (unfold C, det22; simpl; ring).
  assert (H0 := lam_nonneg F). cbv zeta in H0. fold C in H0.
  set (l := lam _ _ _) in *.
  apply Rsqr_incr_0_var; [|exact H0]. rewrite <- Rsqr_abs. unfold Rsqr. rewrite Hd.
  assert (0 <= a00 C) by (unfold C; simpl; nra).
  assert (0 <= a11 C) by (unfold C; simpl; nra).
  assert (a00 C * a11 C <= l * l) by (apply Rmult_le_compat; lra). nra.
Qed.

Lemma norm2_nonneg u : 0 <= norm2 u. Proof. apply sqrt_pos. Qed.

Lemma orth_norm_2 Q u : orthogonal_2 Q -> norm2 (app22 Q u) = norm2 u.
Proof.
  unfold orthogonal_2. intro H. unfold norm2. f_equal.
  rewrite <- FtF_quad, H. destruct u; unfold dot2, app22; simpl; ring.
Qed.

Lemma orthogonal_spectral_2 F : orthogonal_2 F -> spectral_norm_2 F 1.
Proof.
  intro H. split.
  - intro u. rewrite orth_norm_2 by exact H. lra.
  - exists (1, 0). rewrite orth_norm_2 by exact H.
    split; unfold norm2, dot2; simpl; replace (1 * 1 + 0 * 0) with 1 by ring; apply sqrt_1.
Qed.

Lemma ftle_value_nonneg s T : 1 <= s -> 0 < T -> exists v, ftle_value s T = XVal v /\ 0 <= v.
Proof.
  intros Hs HT. unfold ftle_value. destruct (Req_EM_T s 0); [lra|].
  eexists; split; [reflexivity|]. unfold Rdiv.
  apply Rmult_le_pos; [|apply Rlt_le, Rinv_0_lt_compat, HT].
  destruct (Req_dec s 1) as [->|]; [rewrite ln_1; lra|].
  rewrite <- ln_1. apply Rlt_le, ln_increasing; lra.
Qed.

Lemma ftle2_nonneg Fs T : 0 < T -> Forall (fun F => 1 <= Rabs (det22 F)) Fs ->
  exists vs, compute_ftle_2x2 Rops Fs T = Ok (map XVal vs) /\ Forall (fun v => 0 <= v) vs.
Proof.
  intros HT HF. destruct (spectral_norms_2 Fs) as [ss Hss].
  rewrite (ftle2_map Fs T ss); [|lra|exact Hss].
  induction Hss as [|F s Fs ss Hs Hss IH].
  - exists []. split; [reflexivity|constructor].
  - inversion HF as [|? ? Hd HF']; subst. destruct (IH HF') as (vs & E & Hv).
    assert (H1 : 1 <= s).
    { assert (H := det_bound_2 F s Hs). assert (H0 := spectral_norm_2_nonneg F s Hs). nra. }
    destruct (ftle_value_nonneg s T H1 HT) as (v & Ev & Hv0).
    exists (v :: vs). simpl. rewrite Ev. injection E as ->. split; [reflexivity|constructor; assumption].
Qed.

Lemma ftle2_isometry Fs T : T <> 0 -> Forall orthogonal_2 Fs ->
  compute_ftle_2x2 Rops Fs T = Ok (map (fun _ => XVal 0) Fs).
Proof.
  intros HT HF. rewrite (ftle2_map Fs T (map (fun _ => 1) Fs) HT).
  - rewrite map_map. f_equal. apply map_ext. intro. unfold ftle_value.
    destruct (Req_EM_T 1 0); [lra|]. rewrite ln_1. f_equal. unfold Rdiv; ring.
  - induction HF; simpl; constructor; [apply orthogonal_spectral_2|]; assumption.
Qed.

(** C08 (2D) *)
Lemma app22_mul A B u : app22 (mul22 A B) u = app22 A (app22 B u).
Proof. destruct u; unfold app22; simpl; f_equal; ring. Qed.

Lemma orth_tr_2 Q : orthogonal_2 Q -> orthogonal_2 (tr22 Q).
Proof.
  destruct Q as [a b c d]. unfold orthogonal_2, mul22, tr22, id22; simpl.
  intro H. injection H as H1 H2 H3 H4.
  assert (Hdet : (a * d - b * c) * (a * d - b * c) = 1) by nra.
  f_equal; nsatz.
Qed.

Lemma spectral_norm_2_QF Q F s : orthogonal_2 Q -> spectral_norm_2 F s -> spectral_norm_2 (mul22 Q F) s.
Proof.
  intros HQ [H1 [u [Hu H2]]]. split.
  - intro w. rewrite app22_mul, orth_norm_2; auto.
  - exists u. rewrite app22_mul, orth_norm_2; auto.
Qed.

Lemma spectral_norm_2_FQ Q F s : orthogonal_2 Q -> spectral_norm_2 F s -> spectral_norm_2 (mul22 F Q) s.
Proof.
  intros HQ [H1 [u [Hu H2]]]. split.
  - intro w. rewrite app22_mul. rewrite <- (orth_norm_2 Q w HQ). apply H1.
  - assert (HT := orth_tr_2 Q HQ). exists (app22 (tr22 Q) u).
    rewrite orth_norm_2 by exact HT. split; [exact Hu|].
    rewrite app22_mul, <- (app22_mul Q (tr22 Q)).
    assert (E : mul22 Q (tr22 Q) = id22).
    { unfold orthogonal_2 in HT. replace (tr22 (tr22 Q)) with Q in HT by (destruct Q; reflexivity).
      exact HT. }
    rewrite E. replace (app22 id22 u) with u; [exact H2|].
    destruct u; unfold app22; simpl; f_equal; ring.
Qed.

Lemma spectral_norm_2_scal c F s : spectral_norm_2 F s -> spectral_norm_2 (scal22 c F) (Rabs c * s).
Proof.
  intros [H1 [u [Hu H2]]].
  assert (E : forall w, norm2 (app22 (scal22 c F) w) = Rabs c * norm2 (app22 F w)).
  { intro w. unfold norm2. rewrite <- sqrt_Rsqr_abs, <- sqrt_mult.
    - f_equal. destruct w; unfold dot2, app22, Rsqr; simpl; ring.
    - apply Rle_0_sqr.
    - apply dot2_pos. }
  split.
  - intro w. rewrite E, Rmult_assoc. apply Rmult_le_compat_l; [apply Rabs_pos|apply H1].
  - exists u. rewrite E, H2. auto.
Qed.

Lemma ftle2_frame Q Fs T : orthogonal_2 Q ->
  compute_ftle_2x2 Rops (map (mul22 Q) Fs) T = compute_ftle_2x2 Rops Fs T /\
  compute_ftle_2x2 Rops (map (fun F => mul22 F Q) Fs) T = compute_ftle_2x2 Rops Fs T.
Proof.
  intro HQ. destruct (Req_dec T 0) as [->|HT]; [rewrite !ftle2_zero_period; auto|].
  destruct (spectral_norms_2 Fs) as [ss Hss].
  rewrite (ftle2_map Fs T ss HT Hss).
  split; apply ftle2_map; try exact HT; clear - HQ Hss.
  - induction Hss; simpl; constructor; auto. apply spectral_norm_2_QF; auto.
  - induction Hss; simpl; constructor; auto. apply spectral_norm_2_FQ; auto.
Qed.

Lemma ftle_value_scal c s T : c <> 0 -> 0 <= s ->
  ftle_value (Rabs c * s) T = xshift (ln (Rabs c) / T) (ftle_value s T).
Proof.
  intros Hc Hs. assert (Hc' : 0 < Rabs c) by (apply Rabs_pos_lt, Hc).
  unfold ftle_value. destruct (Req_EM_T s 0) as [->|Hs0].
  - rewrite Rmult_0_r. destruct (Req_EM_T 0 0); [|lra]. destruct (Rlt_dec 0 T); reflexivity.
  - destruct (Req_EM_T (Rabs c * s) 0) as [E|_].
    + exfalso. destruct (Rmult_integral _ _ E); lra.
    + simpl. f_equal. rewrite ln_mult by lra. unfold Rdiv; ring.
Qed.

Lemma ftle2_scal c Fs T : c <> 0 -> T <> 0 -> 
  exists out, compute_ftle_2x2 Rops Fs T = Ok out /\
    compute_ftle_2x2 Rops (map (scal22 c) Fs) T = Ok (map (xshift (ln (Rabs c) / T)) out).
Proof.
  intros Hc HT. destruct (spectral_norms_2 Fs) as [ss Hss].
  exists (map (fun s => ftle_value s T) ss). split; [apply ftle2_map; assumption|].
  rewrite (ftle2_map (map (scal22 c) Fs) T (map (Rmult (Rabs c)) ss) HT).
  - f_equal. rewrite !map_map. clear - Hss Hc.
    induction Hss as [|F s Fs ss Hs Hss IH]; simpl; [reflexivity|].
    f_equal; [|exact IH]. apply ftle_value_scal; [exact Hc|].
    eapply spectral_norm_2_nonneg; eassumption.
  - clear - Hss. induction Hss; simpl; constructor; auto. apply spectral_norm_2_scal; auto.
Qed.
