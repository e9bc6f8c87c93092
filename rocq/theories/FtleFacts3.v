(** Proofs about the 3D Cauchy-Green tensor, eigenvalues and FTLE. *)
From Coq Require Import Reals Lra Psatz.
From Verif Require Import Base Num Jacobian Ftle SpecFtle FtleFacts2.
Local Open Scope R_scope.

Lemma m33_ext (A B : m33 R) :
  b00 A = b00 B -> b01 A = b01 B -> b02 A = b02 B ->
  b10 A = b10 B -> b11 A = b11 B -> b12 A = b12 B ->
  b20 A = b20 B -> b21 A = b21 B -> b22 A = b22 B -> A = B.
Proof. destruct A, B; simpl; intros; subst; reflexivity. Qed.

Lemma vec3_ext (u w : vec3) : v0 u = v0 w -> v1 u = v1 w -> v2 u = v2 w -> u = w.
Proof. destruct u as [[? ?] ?], w as [[? ?] ?]; unfold v0, v1, v2; simpl; intros; subst; reflexivity. Qed.

Lemma mul33_assoc A B C : mul33 A (mul33 B C) = mul33 (mul33 A B) C.
Proof. apply m33_ext; simpl; ring. Qed.
Lemma mul33_id_l A : mul33 id33 A = A.
Proof. apply m33_ext; simpl; ring. Qed.
Lemma mul33_id_r A : mul33 A id33 = A.
Proof. apply m33_ext; simpl; ring. Qed.
Lemma tr33_mul A B : tr33 (mul33 A B) = mul33 (tr33 B) (tr33 A).
Proof. apply m33_ext; simpl; ring. Qed.
Lemma tr33_tr A : tr33 (tr33 A) = A.
Proof. destruct A; reflexivity. Qed.
Lemma det33_mul A B : det33 (mul33 A B) = det33 A * det33 B.
Proof. unfold det33; simpl; ring. Qed.
Lemma det33_tr A : det33 (tr33 A) = det33 A.
Proof. unfold det33; simpl; ring. Qed.
Lemma det33_id : det33 id33 = 1.
Proof. unfold det33; simpl; ring. Qed.
Lemma app33_mul A B u : app33 (mul33 A B) u = app33 A (app33 B u).
Proof. destruct u as [[x y] z]. apply vec3_ext; unfold app33, v0, v1, v2; simpl; ring. Qed.
Lemma app33_id u : app33 id33 u = u.
Proof. destruct u as [[x y] z]. apply vec3_ext; unfold app33, v0, v1, v2; simpl; ring. Qed.

(** C02, C03 *)
Lemma cg3_is_FFt F : cauchy_green_3x3 Rops F = mul33 F (tr33 F).
Proof. apply m33_ext; unfold cauchy_green_3x3, dot3; simpl; ring. Qed.

Lemma charpoly_FFt F x : charpoly33 (mul33 F (tr33 F)) x = charpoly33 (mul33 (tr33 F) F) x.
Proof. unfold charpoly33, det33; simpl; ring. Qed.

Definition adj33 (A : m33 R) : m33 R :=
  M33 (b11 A * b22 A - b12 A * b21 A) (b02 A * b21 A - b01 A * b22 A) (b01 A * b12 A - b02 A * b11 A)
      (b12 A * b20 A - b10 A * b22 A) (b00 A * b22 A - b02 A * b20 A) (b02 A * b10 A - b00 A * b12 A)
      (b10 A * b21 A - b11 A * b20 A) (b01 A * b20 A - b00 A * b21 A) (b00 A * b11 A - b01 A * b10 A).

Lemma mul_adj A : mul33 A (adj33 A) = scal33 (det33 A) id33.
Proof. apply m33_ext; unfold det33; simpl; ring. Qed.

Lemma scal33_mul c A B : mul33 (scal33 c A) B = scal33 c (mul33 A B).
Proof. apply m33_ext; simpl; ring. Qed.
Lemma scal33_mul_r c A B : mul33 A (scal33 c B) = scal33 c (mul33 A B).
Proof. apply m33_ext; simpl; ring. Qed.
Lemma scal33_inj c A B : c <> 0 -> scal33 c A = scal33 c B -> A = B.
Proof.
  intros Hc H. destruct A, B. unfold scal33 in H; simpl in H. injection H; intros.
  f_equal; eapply Rmult_eq_reg_l; eauto.
Qed.

Lemma left_inverse_right A Q : mul33 A Q = id33 -> mul33 Q A = id33.
Proof.
  intro H. assert (Hd : det33 Q <> 0).
  { intro E. assert (H1 := det33_mul A Q). rewrite H, det33_id, E in H1. lra. }
  apply scal33_inj with (det33 Q); [exact Hd|].
  rewrite <- scal33_mul_r.
  replace (scal33 (det33 Q) A) with (mul33 A (scal33 (det33 Q) id33))
    by (rewrite scal33_mul_r, mul33_id_r; reflexivity).
  rewrite <- (mul_adj Q), (mul33_assoc A), H, mul33_id_l. rewrite mul_adj. reflexivity.
Qed.

Lemma orth_tr_3 Q : orthogonal_3 Q -> orthogonal_3 (tr33 Q).
Proof. unfold orthogonal_3. rewrite tr33_tr. apply left_inverse_right. Qed.

Lemma dot3_pos u : 0 <= dot3v u u.
Proof.
  unfold dot3v. assert (H0 := Rle_0_sqr (v0 u)). assert (H1 := Rle_0_sqr (v1 u)).
  assert (H2 := Rle_0_sqr (v2 u)). unfold Rsqr in *. lra.
Qed.

Lemma dot3_zero u : dot3v u u = 0 -> u = (0, 0, 0).
Proof.
  unfold dot3v. intro H. assert (H0 := Rle_0_sqr (v0 u)). assert (H1 := Rle_0_sqr (v1 u)).
  assert (H2 := Rle_0_sqr (v2 u)). unfold Rsqr in *.
  assert (v0 u * v0 u = 0) by lra. assert (v1 u * v1 u = 0) by lra. assert (v2 u * v2 u = 0) by lra.
  apply vec3_ext; [change (v0 (0,0,0)) with 0|change (v1 (0,0,0)) with 0|change (v2 (0,0,0)) with 0];
    apply Rsqr_0_uniq; assumption.
Qed.

Lemma FtF_quad3 F u :
  dot3v u (app33 (mul33 (tr33 F) F) u) = dot3v (app33 F u) (app33 F u).
Proof. destruct u as [[x y] z]; unfold dot3v, app33, v0, v1, v2; simpl; ring. Qed.

(** Kernel of a singular matrix. *)
Lemma singular_kernel N : det33 N = 0 -> exists u, u <> (0, 0, 0) /\ app33 N u = (0, 0, 0).
Proof.
  destruct N as [a b c d e f g h i]. unfold det33; simpl. intro Hd.
  (* cross products of rows *)
  destruct (Req_dec (b * f - c * e) 0) as [E1|E1];
  [destruct (Req_dec (c * d - a * f) 0) as [E2|E2];
   [destruct (Req_dec (a * e - b * d) 0) as [E3|E3]|]|].
  2,3,4: exists (b * f - c * e, c * d - a * f, a * e - b * d);
    split; [intro H; injection H; intros; lra|
            apply vec3_ext; unfold app33, v0, v1, v2; simpl; try ring; lra].
  destruct (Req_dec (b * i - c * h) 0) as [E4|E4];
  [destruct (Req_dec (c * g - a * i) 0) as [E5|E5];
   [destruct (Req_dec (a * h - b * g) 0) as [E6|E6]|]|].
  2,3,4: exists (b * i - c * h, c * g - a * i, a * h - b * g);
    split; [intro H; injection H; intros; lra|
            apply vec3_ext; unfold app33, v0, v1, v2; simpl; try ring; lra].
  destruct (Req_dec (e * i - f * h) 0) as [E7|E7];
  [destruct (Req_dec (f * g - d * i) 0) as [E8|E8];
   [destruct (Req_dec (d * h - e * g) 0) as [E9|E9]|]|].
  2,3,4: exists (e * i - f * h, f * g - d * i, d * h - e * g);
    split; [intro H; injection H; intros; lra|
            apply vec3_ext; unfold app33, v0, v1, v2; simpl; try ring; lra].
  (* rank at most one: orthogonal to a non-zero row *)
  assert (Hrow : forall p q r, (p <> 0 \/ q <> 0 \/ r <> 0) ->
    (forall x y z, p * x + q * y + r * z = 0 ->
       a * x + b * y + c * z = 0 /\ d * x + e * y + f * z = 0 /\ g * x + h * y + i * z = 0) ->
    exists u : vec3, u <> (0, 0, 0) /\
      app33 (M33 a b c d e f g h i) u = (0, 0, 0)).
  { intros p q r Hne Hker.
    assert (Hu : exists x y z, (x, y, z) <> (0, 0, 0) /\ p * x + q * y + r * z = 0).
    { destruct (Req_dec p 0) as [->|Hp].
      - exists 1, 0, 0. split; [intro H; injection H; lra|ring].
      - exists q, (- p), 0. split; [intro H; injection H; lra|ring]. }
    destruct Hu as (x & y & z & Hu & Ho). exists (x, y, z). split; [exact Hu|].
    destruct (Hker x y z Ho) as (K1 & K2 & K3).
    apply vec3_ext; unfold app33, v0, v1, v2; simpl; assumption. }
  destruct (Req_dec a 0) as [Ha|Ha].
  - destruct (Req_dec b 0) as [Hb|Hb].
    + destruct (Req_dec c 0) as [Hc|Hc].
      * (* first row zero *)
        destruct (Req_dec d 0) as [Hd0|Hd0].
        -- destruct (Req_dec e 0) as [He|He].
           ++ destruct (Req_dec f 0) as [Hf|Hf].
              ** destruct (Req_dec g 0) as [Hg|Hg].
                 --- destruct (Req_dec h 0) as [Hh|Hh].
                     +++ destruct (Req_dec i 0) as [Hi|Hi].
                         *** exists (1, 0, 0). split; [intro H; injection H; lra|].
                             subst. apply vec3_ext; unfold app33, v0, v1, v2; simpl; ring.
                         *** apply (Hrow g h i); [auto|]. intros; subst; repeat split; lra.
                     +++ apply (Hrow g h i); [auto|]. intros; subst; repeat split; lra.
                 --- apply (Hrow g h i); [auto|]. intros; subst; repeat split; lra.
              ** apply (Hrow d e f); [auto|]. intros x y z Ho; subst. repeat split; try lra.
                 apply Rmult_eq_reg_l with f; [|exact Hf].
                 replace (f * (g * x + h * y + i * z)) with
                   (i * (0 * x + 0 * y + f * z) + x * (f * g - 0 * i) - y * (0 * i - f * h)) by ring.
                 rewrite Ho, E8, E7. ring.
           ++ apply (Hrow d e f); [auto|]. intros x y z Ho; subst. repeat split; try lra.
              apply Rmult_eq_reg_l with e; [|exact He].
              replace (e * (g * x + h * y + i * z)) with
                (h * (0 * x + e * y + f * z) - x * (0 * h - e * g) + z * (e * i - f * h)) by ring.
              rewrite Ho, E9, E7. ring.
        -- apply (Hrow d e f); [auto|]. intros x y z Ho; subst. repeat split; try lra.
           apply Rmult_eq_reg_l with d; [|exact Hd0].
           replace (d * (g * x + h * y + i * z)) with
             (g * (d * x + e * y + f * z) + y * (d * h - e * g) - z * (f * g - d * i)) by ring.
           rewrite Ho, E9, E8. ring.
      * apply (Hrow a b c); [auto|]. intros x y z Ho. repeat split; [exact Ho| |];
          (apply Rmult_eq_reg_l with c; [|exact Hc]).
        -- replace (c * (d * x + e * y + f * z)) with
             (f * (a * x + b * y + c * z) + x * (c * d - a * f) - y * (b * f - c * e)) by ring.
           rewrite Ho, E2, E1. ring.
        -- replace (c * (g * x + h * y + i * z)) with
             (i * (a * x + b * y + c * z) + x * (c * g - a * i) - y * (b * i - c * h)) by ring.
           rewrite Ho, E5, E4. ring.
    + apply (Hrow a b c); [auto|]. intros x y z Ho. repeat split; [exact Ho| |];
        (apply Rmult_eq_reg_l with b; [|exact Hb]).
      -- replace (b * (d * x + e * y + f * z)) with
           (e * (a * x + b * y + c * z) - x * (a * e - b * d) + z * (b * f - c * e)) by ring.
         rewrite Ho, E3, E1. ring.
      -- replace (b * (g * x + h * y + i * z)) with
           (h * (a * x + b * y + c * z) - x * (a * h - b * g) + z * (b * i - c * h)) by ring.
         rewrite Ho, E6, E4. ring.
  - apply (Hrow a b c); [auto|]. intros x y z Ho. repeat split; [exact Ho| |];
      (apply Rmult_eq_reg_l with a; [|exact Ha]).
    -- replace (a * (d * x + e * y + f * z)) with
         (d * (a * x + b * y + c * z) + y * (a * e - b * d) - z * (c * d - a * f)) by ring.
       rewrite Ho, E3, E2. ring.
    -- replace (a * (g * x + h * y + i * z)) with
         (g * (a * x + b * y + c * z) + y * (a * h - b * g) - z * (c * g - a * i)) by ring.
       rewrite Ho, E6, E5. ring.
Qed.

(** A symmetric involution sending e1 to a given unit vector (Householder). *)
Lemma householder u : dot3v u u = 1 ->
  exists Q, tr33 Q = Q /\ mul33 Q Q = id33 /\ app33 Q (1, 0, 0) = u.
Proof.
  destruct u as [[x y] z]. unfold dot3v, v0, v1, v2; simpl. intro Hn.
  destruct (Req_dec x 1) as [->|Hx].
  - assert (y = 0 /\ z = 0) as [-> ->] by (split; nra).
    exists id33. repeat split; [apply mul33_id_l|apply app33_id].
  - set (k := / (1 - x)).
    assert (Hk : k * (1 - x) = 1) by (unfold k; apply Rinv_l; lra).
    assert (Hy : y * y + z * z = (1 - x) * (1 + x)) by nra.
    exists (M33 x y z  y (1 - k * y * y) (- k * y * z)  z (- k * y * z) (1 - k * z * z)).
    repeat split.
    + unfold mul33, id33; simpl.
      assert (A1 : k * (y * y + z * z) = 1 + x) by (rewrite Hy, <- Rmult_assoc, Hk; ring).
      f_equal.
      * nra.
      * replace (x * y + y * (1 - k * y * y) + z * (- k * y * z))
          with (y * (x + 1 - k * (y * y + z * z))) by ring. rewrite A1; ring.
      * replace (x * z + y * (- k * y * z) + z * (1 - k * z * z))
          with (z * (x + 1 - k * (y * y + z * z))) by ring. rewrite A1; ring.
      * replace (y * x + (1 - k * y * y) * y + - k * y * z * z)
          with (y * (x + 1 - k * (y * y + z * z))) by ring. rewrite A1; ring.
      * replace (y * y + (1 - k * y * y) * (1 - k * y * y) + - k * y * z * (- k * y * z))
          with (1 + y * y * (1 - 2 * k + k * (k * (y * y + z * z)))) by ring.
        rewrite A1. replace (1 - 2 * k + k * (1 + x)) with (1 - k * (1 - x)) by ring. rewrite Hk; ring.
      * replace (y * z + (1 - k * y * y) * (- k * y * z) + - k * y * z * (1 - k * z * z))
          with (y * z * (1 - 2 * k + k * (k * (y * y + z * z)))) by ring.
        rewrite A1. replace (1 - 2 * k + k * (1 + x)) with (1 - k * (1 - x)) by ring. rewrite Hk; ring.
      * replace (z * x + - k * y * z * y + (1 - k * z * z) * z)
          with (z * (x + 1 - k * (y * y + z * z))) by ring. rewrite A1; ring.
      * replace (z * y + - k * y * z * (1 - k * y * y) + (1 - k * z * z) * (- k * y * z))
          with (y * z * (1 - 2 * k + k * (k * (y * y + z * z)))) by ring.
        rewrite A1. replace (1 - 2 * k + k * (1 + x)) with (1 - k * (1 - x)) by ring. rewrite Hk; ring.
      * replace (z * z + - k * y * z * (- k * y * z) + (1 - k * z * z) * (1 - k * z * z))
          with (1 + z * z * (1 - 2 * k + k * (k * (y * y + z * z)))) by ring.
        rewrite A1. replace (1 - 2 * k + k * (1 + x)) with (1 - k * (1 - x)) by ring. rewrite Hk; ring.
    + apply vec3_ext; unfold app33, v0, v1, v2; simpl; ring.
Qed.

Definition sub33 (A B : m33 R) : m33 R :=
  M33 (b00 A - b00 B) (b01 A - b01 B) (b02 A - b02 B)
      (b10 A - b10 B) (b11 A - b11 B) (b12 A - b12 B)
      (b20 A - b20 B) (b21 A - b21 B) (b22 A - b22 B).

Lemma shift_similar Q M x :
  mul33 Q (mul33 (shift33 M x) Q) = sub33 (mul33 Q (mul33 M Q)) (scal33 x (mul33 Q Q)).
Proof. apply m33_ext; simpl; ring. Qed.

Lemma charpoly_similar Q M x : mul33 Q Q = id33 ->
  charpoly33 (mul33 Q (mul33 M Q)) x = charpoly33 M x.
Proof.
  intro HQ. unfold charpoly33.
  assert (E : shift33 (mul33 Q (mul33 M Q)) x = mul33 Q (mul33 (shift33 M x) Q)).
  { rewrite shift_similar, HQ. apply m33_ext; simpl; ring. }
  rewrite E, !det33_mul.
  assert (Hd : det33 Q * det33 Q = 1) by (rewrite <- det33_mul, HQ; apply det33_id).
  replace (det33 Q * (det33 (shift33 M x) * det33 Q)) with (det33 (shift33 M x) * (det33 Q * det33 Q)) by ring.
  rewrite Hd. ring.
Qed.

(** Elementary symmetric functions of the roots. *)
Lemma roots_coeffs A e : roots_of_charpoly A e ->
  let p := fst (fst e) in let q := snd (fst e) in let r := snd e in
  b00 A + b11 A + b22 A = p + q + r /\
  (b00 A * b11 A - b01 A * b10 A) + (b00 A * b22 A - b02 A * b20 A) + (b11 A * b22 A - b12 A * b21 A)
    = p * q + p * r + q * r /\
  det33 A = p * q * r.
Proof.
  intros H p q r. assert (H0 := H 0). assert (H1 := H 1). assert (H2 := H (-1)).
  unfold charpoly33, det33 in *. simpl in *. fold p q r in H0, H1, H2.
  repeat split; lra.
Qed.

(** Symmetric, with non-negative coefficients: the first diagonal entry is non-negative. *)
Lemma diag_nonneg A : symmetric_3 A ->
  0 <= b00 A + b11 A + b22 A ->
  0 <= (b00 A * b11 A - b01 A * b10 A) + (b00 A * b22 A - b02 A * b20 A) + (b11 A * b22 A - b12 A * b21 A) ->
  0 <= det33 A -> 0 <= b00 A.
Proof.
  destruct A as [a d e d' b f e' f' c]. unfold symmetric_3, tr33, det33; simpl.
  intro H. injection H as -> -> _ -> _ _. intros H1 H2 H3.
  destruct (Rle_or_lt 0 a) as [|Ha]; [assumption|exfalso].
  assert (Hbc : 0 < b + c) by lra.
  assert (Hdd := Rle_0_sqr d). assert (Hee := Rle_0_sqr e). assert (Hff := Rle_0_sqr f). unfold Rsqr in *.
  assert (Hm : 0 < - a * (b + c)) by (apply Rmult_lt_0_compat; lra).
  assert (Hh : 0 < b * c - f * f) by lra.
  assert (Hb : 0 < b).
  { destruct (Rle_or_lt b 0) as [Hb|]; [|assumption]. assert (0 < c) by lra.
    assert (b * c <= 0) by nra. lra. }
  (* quadratic form of adj H is non-negative *)
  assert (Hq : 0 <= d * d * c - 2 * d * e * f + e * e * b).
  { apply Rmult_le_reg_l with b; [exact Hb|]. rewrite Rmult_0_r.
    replace (b * (d * d * c - 2 * d * e * f + e * e * b))
      with ((b * e - d * f) * (b * e - d * f) + d * d * (b * c - f * f)) by ring.
    assert (H4 := Rle_0_sqr (b * e - d * f)). unfold Rsqr in H4.
    assert (0 <= d * d * (b * c - f * f)) by (apply Rmult_le_pos; lra). lra. }
  assert (0 < - a * (b * c - f * f)) by (apply Rmult_lt_0_compat; lra).
  nra.
Qed.

Lemma sym_similar Q M : tr33 Q = Q -> symmetric_3 M -> symmetric_3 (mul33 Q (mul33 M Q)).
Proof.
  unfold symmetric_3. intros HQ HM. rewrite !tr33_mul, HQ, HM. rewrite mul33_assoc. reflexivity.
Qed.

Lemma quad_similar Q M u : tr33 Q = Q -> app33 Q (1, 0, 0) = u ->
  b00 (mul33 Q (mul33 M Q)) = dot3v u (app33 M u).
Proof.
  intros HQ <-. destruct Q as [a d e d' b f e' f' c]. unfold tr33 in HQ; simpl in HQ.
  injection HQ as -> -> _ -> _ _. unfold dot3v, app33, v0, v1, v2; simpl. ring.
Qed.

(** A symmetric matrix whose characteristic roots are non-negative is positive semi-definite. *)
Lemma psd_unit M e u : symmetric_3 M -> roots_of_charpoly M e ->
  0 <= fst (fst e) -> 0 <= snd (fst e) -> 0 <= snd e ->
  dot3v u u = 1 -> 0 <= dot3v u (app33 M u).
Proof.
  intros HM Hr Hp Hq Hr0 Hu. destruct (householder u Hu) as (Q & HQ1 & HQ2 & HQ3).
  rewrite <- (quad_similar Q M u HQ1 HQ3).
  assert (Hr' : roots_of_charpoly (mul33 Q (mul33 M Q)) e).
  { intro x. rewrite charpoly_similar by exact HQ2. apply Hr. }
  destruct (roots_coeffs _ _ Hr') as (C1 & C2 & C3).
  apply diag_nonneg.
  - apply sym_similar; assumption.
  - rewrite C1. lra.
  - rewrite C2. assert (0 <= fst (fst e) * snd (fst e)) by (apply Rmult_le_pos; assumption).
    assert (0 <= fst (fst e) * snd e) by (apply Rmult_le_pos; assumption).
    assert (0 <= snd (fst e) * snd e) by (apply Rmult_le_pos; assumption). lra.
  - rewrite C3. repeat apply Rmult_le_pos; assumption.
Qed.

Lemma dot3_scale a b u w : dot3v (scale3 a u) (scale3 b w) = a * b * dot3v u w.
Proof. unfold dot3v, scale3, v0, v1, v2; simpl; ring. Qed.
Lemma app33_scale M a u : app33 M (scale3 a u) = scale3 a (app33 M u).
Proof. apply vec3_ext; unfold app33, scale3, v0, v1, v2; simpl; ring. Qed.

Lemma normalize u : u <> (0, 0, 0) -> exists k w, 0 < k /\ u = scale3 k w /\ dot3v w w = 1.
Proof.
  intro Hu. assert (Hn : 0 < dot3v u u).
  { destruct (Rle_lt_or_eq_dec 0 (dot3v u u) (dot3_pos u)) as [|E]; [assumption|].
    exfalso; apply Hu, dot3_zero; auto. }
  set (k := norm3 u). assert (Hk : 0 < k) by (apply sqrt_lt_R0; exact Hn).
  assert (Hkk : k * k = dot3v u u) by (apply sqrt_sqrt; lra).
  exists k, (scale3 (/ k) u). split; [exact Hk|]. split.
  - apply vec3_ext; unfold scale3, v0, v1, v2; simpl; field; lra.
  - rewrite dot3_scale, <- Hkk. field. lra.
Qed.

Lemma psd M e u : symmetric_3 M -> roots_of_charpoly M e ->
  0 <= fst (fst e) -> 0 <= snd (fst e) -> 0 <= snd e ->
  0 <= dot3v u (app33 M u).
Proof.
  intros HM Hr Hp Hq Hr0.
  destruct (Req_dec (dot3v u u) 0) as [E|E].
  - rewrite (dot3_zero u E). unfold dot3v, app33, v0, v1, v2; simpl. lra.
  - destruct (normalize u) as (k & w & Hk & -> & Hw).
    { intro Hz. apply E. rewrite Hz. unfold dot3v, v0, v1, v2; simpl; ring. }
    rewrite app33_scale, dot3_scale.
    assert (H := psd_unit M e w HM Hr Hp Hq Hr0 Hw).
    apply Rmult_le_pos; [nra|exact H].
Qed.

Definition max3 (e : R * R * R) : R := Rmax (Rmax (fst (fst e)) (snd (fst e))) (snd e).

Lemma max3_ge e : fst (fst e) <= max3 e /\ snd (fst e) <= max3 e /\ snd e <= max3 e.
Proof.
  unfold max3. assert (H1 := Rmax_l (Rmax (fst (fst e)) (snd (fst e))) (snd e)).
  assert (H2 := Rmax_r (Rmax (fst (fst e)) (snd (fst e))) (snd e)).
  assert (H3 := Rmax_l (fst (fst e)) (snd (fst e))). assert (H4 := Rmax_r (fst (fst e)) (snd (fst e))).
  lra.
Qed.

Lemma max3_in e : max3 e = fst (fst e) \/ max3 e = snd (fst e) \/ max3 e = snd e.
Proof.
  unfold max3. unfold Rmax at 1 3 5.
  destruct (Rle_dec _ _); auto. unfold Rmax. destruct (Rle_dec _ _); auto.
Qed.

(** l I - M *)
Definition refl33 (l : R) (M : m33 R) : m33 R := sub33 (scal33 l id33) M.

Lemma rayleigh M e u : symmetric_3 M -> roots_of_charpoly M e ->
  dot3v u (app33 M u) <= max3 e * dot3v u u.
Proof.
  intros HM Hr. set (l := max3 e).
  destruct (max3_ge e) as (H1 & H2 & H3). fold l in H1, H2, H3.
  assert (H : 0 <= dot3v u (app33 (refl33 l M) u)).
  { apply psd with (e := (l - fst (fst e), l - snd (fst e), l - snd e)); simpl; try lra.
    - unfold symmetric_3 in *. destruct M. unfold tr33 in HM; simpl in HM.
      injection HM as -> -> _ -> _ _. reflexivity.
    - intro x. simpl. assert (E := Hr (l - x)).
      replace (charpoly33 (refl33 l M) x) with (- charpoly33 M (l - x)).
      + rewrite E. ring.
      + unfold charpoly33, refl33, det33; simpl. ring. }
  replace (dot3v u (app33 (refl33 l M) u)) with (l * dot3v u u - dot3v u (app33 M u)) in H
    by (unfold dot3v, app33, v0, v1, v2; simpl; ring).
  lra.
Qed.

Lemma eigenvector M e : roots_of_charpoly M e ->
  exists u, dot3v u u = 1 /\ app33 M u = scale3 (max3 e) u.
Proof.
  intro Hr. assert (Hd : det33 (shift33 M (max3 e)) = 0).
  { change (charpoly33 M (max3 e) = 0). rewrite Hr. destruct (max3_in e) as [E|[E|E]]; rewrite E; ring. }
  destruct (singular_kernel _ Hd) as (u & Hu & Hk).
  destruct (normalize u Hu) as (k & w & Hk0 & -> & Hw).
  exists w. split; [exact Hw|].
  rewrite app33_scale in Hk.
  assert (Hz : app33 (shift33 M (max3 e)) w = (0, 0, 0)).
  { destruct (app33 (shift33 M (max3 e)) w) as [[x y] z]. unfold scale3, v0, v1, v2 in Hk; simpl in Hk.
    injection Hk as X Y Z. f_equal; [f_equal|]; eapply Rmult_eq_reg_l with k; try lra. }
  set (l := max3 e) in *. unfold app33, v0, v1, v2 in *; simpl in *.
  injection Hz as X Y Z. apply vec3_ext; unfold scale3, v0, v1, v2; simpl; lra.
Qed.

Lemma FtF_sym3 F : symmetric_3 (mul33 (tr33 F) F).
Proof. apply m33_ext; simpl; ring. Qed.

Lemma max3_nonneg F e : roots_of_charpoly (mul33 (tr33 F) F) e -> 0 <= max3 e.
Proof.
  intro Hr. destruct (eigenvector _ _ Hr) as (u & Hu & He).
  assert (H : dot3v u (app33 (mul33 (tr33 F) F) u) = max3 e).
  { rewrite He. replace (dot3v u (scale3 (max3 e) u)) with (max3 e * dot3v u u)
      by (unfold dot3v, scale3, v0, v1, v2; simpl; ring). rewrite Hu; ring. }
  rewrite <- H, FtF_quad3. apply dot3_pos.
Qed.

Lemma spectral_norm_max3 F e : roots_of_charpoly (mul33 (tr33 F) F) e ->
  spectral_norm_3 F (sqrt (max3 e)).
Proof.
  intro Hr. assert (H0 := max3_nonneg F e Hr). split.
  - intro u. unfold norm3. rewrite <- sqrt_mult; [|exact H0|apply dot3_pos].
    apply sqrt_le_1; [apply dot3_pos|apply Rmult_le_pos; [exact H0|apply dot3_pos]|].
    rewrite <- FtF_quad3. apply rayleigh; [apply FtF_sym3|exact Hr].
  - destruct (eigenvector _ _ Hr) as (u & Hu & He). exists u. split.
    + unfold norm3. rewrite Hu. apply sqrt_1.
    + unfold norm3. f_equal. rewrite <- FtF_quad3, He.
      replace (dot3v u (scale3 (max3 e) u)) with (max3 e * dot3v u u)
        by (unfold dot3v, scale3, v0, v1, v2; simpl; ring). rewrite Hu; ring.
Qed.

Lemma spectral_norm_3_unique F s t : spectral_norm_3 F s -> spectral_norm_3 F t -> s = t.
Proof.
  intros [Hs [u [Hu Hsu]]] [Ht [w [Hw Htw]]].
  apply Rle_antisym.
  - rewrite <- Hsu. specialize (Ht u). rewrite Hu in Ht. lra.
  - rewrite <- Htw. specialize (Hs w). rewrite Hw in Hs. lra.
Qed.

Lemma spectral_norm_3_nonneg F s : spectral_norm_3 F s -> 0 <= s.
Proof. intros [_ [u [_ <-]]]. apply sqrt_pos. Qed.

Lemma o_max_Rmax a b : o_max Rops a b = Rmax a b.
Proof.
  unfold o_max; simpl. unfold R_ltb. unfold Rmax.
  destruct (Rlt_dec a b), (Rle_dec a b); try reflexivity; lra.
Qed.

Lemma max_eig_3 eigvals F : eigvals_ok eigvals ->
  exists s, spectral_norm_3 F s /\
    max_eig_3x3 Rops eigvals (cauchy_green_3x3 Rops F) = Ok (Some (s * s)).
Proof.
  intro Hok. rewrite cg3_is_FFt.
  destruct (Hok (mul33 F (tr33 F))) as (e & He & Hr).
  { unfold symmetric_3. rewrite tr33_mul, tr33_tr. reflexivity. }
  assert (Hr' : roots_of_charpoly (mul33 (tr33 F) F) e).
  { intro x. rewrite <- charpoly_FFt. apply Hr. }
  exists (sqrt (max3 e)). split; [apply spectral_norm_max3, Hr'|].
  unfold max_eig_3x3. rewrite He. simpl. destruct e as [[x y] z].
  rewrite !o_max_Rmax. rewrite sqrt_sqrt; [reflexivity|]. apply (max3_nonneg F _ Hr').
Qed.

(** C06 *)
Lemma ftle3_map eigvals Fs T ss : eigvals_ok eigvals -> T <> 0 -> Forall2 spectral_norm_3 Fs ss ->
  compute_ftle_3x3 Rops eigvals Fs T = Ok (map (fun s => ftle_value s T) ss).
Proof.
  intros Hok HT Hss. unfold compute_ftle_3x3.
  assert (E : max_eigenvalue_3x3 Rops eigvals (compute_cauchy_green_3x3 Rops Fs)
              = Ok (map (fun s => Some (s * s)) ss)).
  { unfold max_eigenvalue_3x3, compute_cauchy_green_3x3.
    induction Hss as [|F s Fs ss Hs Hss IH]; [reflexivity|]. cbn [map mapr].
    destruct (max_eig_3 eigvals F Hok) as (s' & Hs' & ->).
    rewrite (spectral_norm_3_unique F s s' Hs Hs'). cbn [bind]. rewrite IH. reflexivity. }
  rewrite E. cbn [bind]. unfold ftle_of_eigs. rewrite py_div_R.
  destruct (Req_EM_T T 0); [contradiction|]. cbn [bind]. f_equal. rewrite map_map.
  assert (Hn : Forall (fun s => 0 <= s) ss).
  { clear E. induction Hss; constructor; auto. eapply spectral_norm_3_nonneg; eauto. }
  clear - HT Hn. induction Hn as [|s ss Hs Hn IH]; [reflexivity|]. cbn [map]. rewrite IH. f_equal.
  apply ftle_entry; assumption.
Qed.

Lemma ftle3_zero_period eigvals Fs : eigvals_ok eigvals ->
  compute_ftle_3x3 Rops eigvals Fs 0 = Err ZeroDivisionError.
Proof.
  intros Hok. unfold compute_ftle_3x3.
  assert (E : exists l, max_eigenvalue_3x3 Rops eigvals (compute_cauchy_green_3x3 Rops Fs) = Ok l).
  { unfold max_eigenvalue_3x3, compute_cauchy_green_3x3. induction Fs as [|F Fs [l IH]]; [eexists; reflexivity|].
    cbn [map mapr]. destruct (max_eig_3 eigvals F Hok) as (s' & Hs' & ->). rewrite IH.
    eexists; reflexivity. }
  destruct E as [l ->]. cbn [bind]. unfold ftle_of_eigs. rewrite py_div_R.
  destruct (Req_EM_T 0 0) as [_|]; [reflexivity|lra].
Qed.

(** Every symmetric matrix has three real characteristic roots. *)
Lemma charpoly_cont M : continuity (charpoly33 M).
Proof. unfold charpoly33, det33, shift33; simpl. reg. Qed.

Lemma charpoly_expand M x :
  charpoly33 M x = - (x * x * x) + (b00 M + b11 M + b22 M) * (x * x)
    - ((b00 M * b11 M - b01 M * b10 M) + (b00 M * b22 M - b02 M * b20 M) + (b11 M * b22 M - b12 M * b21 M)) * x
    + det33 M.
Proof. unfold charpoly33, det33; simpl; ring. Qed.

Lemma cubic_signs (c2 c1 c0 : R) :
  let B := 1 + Rabs c2 + Rabs c1 + Rabs c0 in
  let p := fun x => x * x * x + c2 * (x * x) + c1 * x + c0 in
  p (- B) < 0 /\ 0 < p B.
Proof.
  intros B p.
  assert (H2 := Rabs_pos c2). assert (H1 := Rabs_pos c1). assert (H0 := Rabs_pos c0).
  assert (A2 := Rle_abs c2). assert (A1 := Rle_abs c1). assert (A0 := Rle_abs c0).
  assert (N2 := Rle_abs (- c2)). assert (N1 := Rle_abs (- c1)). assert (N0 := Rle_abs (- c0)).
  rewrite Rabs_Ropp in N2, N1, N0.
  set (k2 := Rabs c2) in *. set (k1 := Rabs c1) in *. set (k0 := Rabs c0) in *.
  assert (HB : 1 <= B) by (unfold B; lra).
  assert (HBB : B <= B * B) by nra.
  assert (H1BB : 1 <= B * B) by lra.
  (* B^3 = B^2 (1 + k2 + k1 + k0) *)
  assert (E : B * B * B = B * B + k2 * (B * B) + k1 * (B * B) + k0 * (B * B)) by (unfold B; ring).
  assert (X1 : k1 * B <= k1 * (B * B)) by (apply Rmult_le_compat_l; lra).
  assert (X0 : k0 <= k0 * (B * B)) by nra.
  assert (Y2 : - (k2 * (B * B)) <= c2 * (B * B) <= k2 * (B * B)) by (split; nra).
  assert (Y1 : - (k1 * B) <= c1 * B <= k1 * B) by (split; nra).
  unfold p. split.
  - replace (- B * - B * - B + c2 * (- B * - B) + c1 * - B + c0)
      with (- (B * B * B) + c2 * (B * B) - c1 * B + c0) by ring. lra.
  - lra.
Qed.

Definition charpoly_root (M : m33 R) : {x : R | charpoly33 M x = 0}.
Proof.
  set (c2 := - (b00 M + b11 M + b22 M)).
  set (c1 := (b00 M * b11 M - b01 M * b10 M) + (b00 M * b22 M - b02 M * b20 M) + (b11 M * b22 M - b12 M * b21 M)).
  set (c0 := - det33 M).
  set (B := 1 + Rabs c2 + Rabs c1 + Rabs c0).
  assert (E : forall x, - charpoly33 M x = x * x * x + c2 * (x * x) + c1 * x + c0).
  { intro x. rewrite charpoly_expand. unfold c2, c1, c0. ring. }
  destruct (IVT (fun x => - charpoly33 M x) (- B) B) as [z [_ Hz]].
  - intro x. apply continuity_pt_opp, charpoly_cont.
  - assert (H2 := Rabs_pos c2). assert (H1 := Rabs_pos c1). assert (H0 := Rabs_pos c0). unfold B. lra.
  - rewrite E. apply (cubic_signs c2 c1 c0).
  - rewrite E. apply (cubic_signs c2 c1 c0).
  - exists z. simpl in Hz. lra.
Defined.

(** The remaining two roots, from trace and determinant of the deflated block. *)
Definition eig3 (M : m33 R) : R * R * R :=
  let p := proj1_sig (charpoly_root M) in
  let t := b00 M + b11 M + b22 M - p in
  let m := (b00 M * b11 M - b01 M * b10 M) + (b00 M * b22 M - b02 M * b20 M)
           + (b11 M * b22 M - b12 M * b21 M) - p * t in
  let s := sqrt (t * t - 4 * m) in
  (p, (t + s) / 2, (t - s) / 2).

Lemma eig3_roots M : symmetric_3 M -> roots_of_charpoly M (eig3 M).
Proof.
  intro HM. unfold eig3. destruct (charpoly_root M) as [p Hp]. simpl proj1_sig.
  set (t := b00 M + b11 M + b22 M - p).
  set (m := (b00 M * b11 M - b01 M * b10 M) + (b00 M * b22 M - b02 M * b20 M)
           + (b11 M * b22 M - b12 M * b21 M) - p * t).
  (* polynomial division *)
  assert (Hdiv : forall x, charpoly33 M x = (p - x) * (x * x - t * x + m)).
  { intro x. assert (Hx := charpoly_expand M x). rewrite charpoly_expand in Hp.
    rewrite Hx. unfold m, t. nra. }
  assert (Hdisc : 0 <= t * t - 4 * m).
  { destruct (singular_kernel (shift33 M p) Hp) as (u & Hu & Hk).
    destruct (normalize u Hu) as (k & w & Hk0 & -> & Hw).
    rewrite app33_scale in Hk.
    assert (Hev : app33 M w = scale3 p w).
    { destruct w as [[x y] z]. unfold app33, scale3, v0, v1, v2 in *. simpl in *.
      injection Hk as X Y Z.
      assert (X' : (b00 M - p) * x + b01 M * y + b02 M * z = 0) by (eapply Rmult_eq_reg_l with k; lra).
      assert (Y' : b10 M * x + (b11 M - p) * y + b12 M * z = 0) by (eapply Rmult_eq_reg_l with k; lra).
      assert (Z' : b20 M * x + b21 M * y + (b22 M - p) * z = 0) by (eapply Rmult_eq_reg_l with k; lra).
      f_equal; [f_equal|]; lra. }
    destruct (householder w Hw) as (Q & HQ1 & HQ2 & HQ3).
    set (D := mul33 Q (mul33 M Q)).
    assert (HD : symmetric_3 D) by (apply sym_similar; assumption).
    assert (Hcol : app33 D (1, 0, 0) = scale3 p (1, 0, 0)).
    { unfold D. rewrite !app33_mul, HQ3, Hev, app33_scale, <- HQ3, <- app33_mul, HQ2, app33_id. reflexivity. }
    assert (Hch : forall x, charpoly33 D x = (p - x) * (x * x - t * x + m)).
    { intro x. unfold D. rewrite charpoly_similar by exact HQ2. apply Hdiv. }
    clearbody D. clear - HD Hcol Hch.
    destruct D as [a d e d' b f e' f' c]. unfold symmetric_3, tr33 in HD; simpl in HD.
    injection HD as -> -> _ -> _ _.
    unfold app33, scale3, v0, v1, v2 in Hcol; simpl in Hcol. injection Hcol as Ha Hd He.
    assert (a = p) by lra. assert (d = 0) by lra. assert (e = 0) by lra. subst a d e.
    unfold charpoly33, det33 in Hch; simpl in Hch.
    (* compare the quadratics at p+1 and p+2, p-1 *)
    assert (Q1 := Hch (p + 1)). assert (Q2 := Hch (p - 1)). assert (Q3 := Hch (p + 2)).
    assert (G1 : (b - (p + 1)) * (c - (p + 1)) - f * f = (p + 1) * (p + 1) - t * (p + 1) + m) by lra.
    assert (G2 : (b - (p - 1)) * (c - (p - 1)) - f * f = (p - 1) * (p - 1) - t * (p - 1) + m) by lra.
    assert (T1 : t = b + c) by lra.
    assert (M1 : m = b * c - f * f) by (rewrite T1 in G1; lra).
    rewrite T1, M1. replace ((b + c) * (b + c) - 4 * (b * c - f * f)) with ((b - c) * (b - c) + 4 * f * f) by ring.
    apply disc_pos. }
  intro x. simpl. rewrite Hdiv.
  assert (Hs := sqrt_sqrt _ Hdisc). set (s := sqrt _) in *.
  rewrite Rmult_assoc. f_equal.
  replace (((t + s) / 2 - x) * ((t - s) / 2 - x)) with (x * x - t * x + (t * t - s * s) / 4) by field.
  rewrite Hs. field.
Qed.

Definition eigvals_R (A : m33 R) : res (R * R * R) := Ok (eig3 A).
Lemma eigvals_R_ok : eigvals_ok eigvals_R.
Proof. intros A HA. exists (eig3 A). split; [reflexivity|apply eig3_roots, HA]. Qed.

Lemma spectral_norm_3_exists F : exists s, spectral_norm_3 F s.
Proof. eexists. apply spectral_norm_max3, eig3_roots, FtF_sym3. Qed.

Lemma spectral_norms_3 Fs : exists ss, Forall2 spectral_norm_3 Fs ss.
Proof.
  induction Fs as [|F Fs [ss H]]; [exists []; constructor|].
  destruct (spectral_norm_3_exists F) as [s Hs]. exists (s :: ss). constructor; assumption.
Qed.

Lemma ftle3_spec eigvals Fs T : eigvals_ok eigvals -> T <> 0 ->
  exists out, compute_ftle_3x3 Rops eigvals Fs T = Ok out /\
    Forall2 (fun F o => exists s, spectral_norm_3 F s /\ o = ftle_value s T) Fs out.
Proof.
  intros Hok HT. destruct (spectral_norms_3 Fs) as [ss Hss].
  rewrite (ftle3_map eigvals Fs T ss Hok HT Hss). eexists; split; [reflexivity|].
  clear - Hss. induction Hss; simpl; constructor; eauto.
Qed.

(** C07 (3D) *)
Lemma roots_nonneg F e : roots_of_charpoly (mul33 (tr33 F) F) e ->
  0 <= fst (fst e) /\ 0 <= snd (fst e) /\ 0 <= snd e.
Proof.
  intro Hr.
  assert (H : forall l, charpoly33 (mul33 (tr33 F) F) l = 0 -> 0 <= l).
  { intros l Hl. destruct (singular_kernel _ Hl) as (u & Hu & Hk).
    assert (He : dot3v u (app33 (mul33 (tr33 F) F) u) = l * dot3v u u).
    { set (M := mul33 (tr33 F) F) in *.
      assert (dot3v u (app33 (shift33 M l) u) = 0).
      { rewrite Hk. unfold dot3v, v0, v1, v2; simpl; ring. }
      replace (dot3v u (app33 (shift33 M l) u)) with (dot3v u (app33 M u) - l * dot3v u u) in H
        by (unfold dot3v, app33, v0, v1, v2; simpl; ring). lra. }
    rewrite FtF_quad3 in He. assert (H1 := dot3_pos (app33 F u)). rewrite He in H1.
    assert (Hn : 0 < dot3v u u).
    { destruct (Rle_lt_or_eq_dec 0 (dot3v u u) (dot3_pos u)) as [|E]; [assumption|].
      exfalso; apply Hu, dot3_zero; auto. }
    apply Rmult_le_reg_r with (dot3v u u); lra. }
  repeat split; apply H; rewrite Hr; ring.
Qed.

Lemma det_bound_3 F s : spectral_norm_3 F s -> Rabs (det33 F) <= s * s * s.
Proof.
  intro Hs. assert (Hr := eig3_roots _ (FtF_sym3 F)). set (e := eig3 _) in Hr.
  rewrite (spectral_norm_3_unique F s _ Hs (spectral_norm_max3 F e Hr)).
  destruct (roots_nonneg F e Hr) as (P & Q & R0). destruct (max3_ge e) as (H1 & H2 & H3).
  destruct (roots_coeffs _ _ Hr) as (_ & _ & D). rewrite det33_mul, det33_tr in D.
  set (l := max3 e) in *. assert (Hl : 0 <= l) by lra.
  assert (S0 := sqrt_pos l). assert (SS := sqrt_sqrt l Hl). set (w := sqrt l) in *.
  assert (B : det33 F * det33 F <= l * l * l).
  { rewrite D. apply Rmult_le_compat; try assumption; [apply Rmult_le_pos; assumption|].
    apply Rmult_le_compat; assumption. }
  apply Rsqr_incr_0_var; [|repeat apply Rmult_le_pos; assumption].
  rewrite <- Rsqr_abs. unfold Rsqr.
  replace (w * w * w * (w * w * w)) with ((w * w) * (w * w) * (w * w)) by ring. rewrite SS. exact B.
Qed.

Lemma ftle3_nonneg eigvals Fs T : eigvals_ok eigvals -> 0 < T ->
  Forall (fun F => 1 <= Rabs (det33 F)) Fs ->
  exists vs, compute_ftle_3x3 Rops eigvals Fs T = Ok (map XVal vs) /\ Forall (fun v => 0 <= v) vs.
Proof.
  intros Hok HT HF. destruct (spectral_norms_3 Fs) as [ss Hss].
  rewrite (ftle3_map eigvals Fs T ss Hok); [|lra|exact Hss].
  induction Hss as [|F s Fs ss Hs Hss IH].
  - exists []. split; [reflexivity|constructor].
  - inversion HF as [|? ? Hd HF']; subst. destruct (IH HF') as (vs & E & Hv).
    assert (H1 : 1 <= s).
    { assert (H := det_bound_3 F s Hs). assert (H0 := spectral_norm_3_nonneg F s Hs).
      destruct (Rle_or_lt 1 s) as [|Hlt]; [assumption|exfalso].
      assert (s * s <= 1) by nra. assert (s * s * s < 1) by nra. lra. }
    destruct (ftle_value_nonneg s T H1 HT) as (v & Ev & Hv0).
    exists (v :: vs). simpl. rewrite Ev. injection E as ->. split; [reflexivity|constructor; assumption].
Qed.

Lemma orth_norm_3 Q u : orthogonal_3 Q -> norm3 (app33 Q u) = norm3 u.
Proof.
  unfold orthogonal_3. intro H. unfold norm3. f_equal.
  rewrite <- FtF_quad3, H, app33_id. reflexivity.
Qed.

Lemma orthogonal_spectral_3 F : orthogonal_3 F -> spectral_norm_3 F 1.
Proof.
  intro H. split.
  - intro u. rewrite orth_norm_3 by exact H. lra.
  - exists (1, 0, 0). rewrite orth_norm_3 by exact H.
    split; unfold norm3, dot3v, v0, v1, v2; simpl;
      replace (1 * 1 + 0 * 0 + 0 * 0) with 1 by ring; apply sqrt_1.
Qed.

Lemma ftle3_isometry eigvals Fs T : eigvals_ok eigvals -> T <> 0 -> Forall orthogonal_3 Fs ->
  compute_ftle_3x3 Rops eigvals Fs T = Ok (map (fun _ => XVal 0) Fs).
Proof.
  intros Hok HT HF. rewrite (ftle3_map eigvals Fs T (map (fun _ => 1) Fs) Hok HT).
  - rewrite map_map. f_equal. apply map_ext. intro. unfold ftle_value.
    destruct (Req_EM_T 1 0); [lra|]. rewrite ln_1. f_equal. unfold Rdiv; ring.
  - induction HF; simpl; constructor; [apply orthogonal_spectral_3|]; assumption.
Qed.

(** C08 (3D) *)
Lemma spectral_norm_3_QF Q F s : orthogonal_3 Q -> spectral_norm_3 F s -> spectral_norm_3 (mul33 Q F) s.
Proof.
  intros HQ [H1 [u [Hu H2]]]. split.
  - intro w. rewrite app33_mul, orth_norm_3; auto.
  - exists u. rewrite app33_mul, orth_norm_3; auto.
Qed.

Lemma spectral_norm_3_FQ Q F s : orthogonal_3 Q -> spectral_norm_3 F s -> spectral_norm_3 (mul33 F Q) s.
Proof.
  intros HQ [H1 [u [Hu H2]]]. split.
  - intro w. rewrite app33_mul. rewrite <- (orth_norm_3 Q w HQ). apply H1.
  - assert (HT := orth_tr_3 Q HQ). exists (app33 (tr33 Q) u).
    rewrite orth_norm_3 by exact HT. split; [exact Hu|].
    rewrite app33_mul, <- (app33_mul Q (tr33 Q)).
    assert (E : mul33 Q (tr33 Q) = id33) by (apply left_inverse_right, HQ).
    rewrite E, app33_id. exact H2.
Qed.

Lemma spectral_norm_3_scal c F s : spectral_norm_3 F s -> spectral_norm_3 (scal33 c F) (Rabs c * s).
Proof.
  intros [H1 [u [Hu H2]]].
  assert (E : forall w, norm3 (app33 (scal33 c F) w) = Rabs c * norm3 (app33 F w)).
  { intro w. unfold norm3. rewrite <- sqrt_Rsqr_abs, <- sqrt_mult.
    - f_equal. unfold dot3v, app33, Rsqr, v0, v1, v2; simpl; ring.
    - apply Rle_0_sqr.
    - apply dot3_pos. }
  split.
  - intro w. rewrite E, Rmult_assoc. apply Rmult_le_compat_l; [apply Rabs_pos|apply H1].
  - exists u. rewrite E, H2. auto.
Qed.

Lemma ftle3_frame eigvals Q Fs T : eigvals_ok eigvals -> orthogonal_3 Q ->
  compute_ftle_3x3 Rops eigvals (map (mul33 Q) Fs) T = compute_ftle_3x3 Rops eigvals Fs T /\
  compute_ftle_3x3 Rops eigvals (map (fun F => mul33 F Q) Fs) T = compute_ftle_3x3 Rops eigvals Fs T.
Proof.
  intros Hok HQ. destruct (Req_dec T 0) as [->|HT]; [rewrite !ftle3_zero_period; auto|].
  destruct (spectral_norms_3 Fs) as [ss Hss].
  rewrite (ftle3_map eigvals Fs T ss Hok HT Hss).
  split; apply ftle3_map; try assumption; clear - HQ Hss.
  - induction Hss; simpl; constructor; auto. apply spectral_norm_3_QF; auto.
  - induction Hss; simpl; constructor; auto. apply spectral_norm_3_FQ; auto.
Qed.

Lemma ftle3_scal eigvals c Fs T : eigvals_ok eigvals -> c <> 0 -> T <> 0 -> 
  exists out, compute_ftle_3x3 Rops eigvals Fs T = Ok out /\
    compute_ftle_3x3 Rops eigvals (map (scal33 c) Fs) T = Ok (map (xshift (ln (Rabs c) / T)) out).
Proof.
  intros Hok Hc HT. destruct (spectral_norms_3 Fs) as [ss Hss].
  exists (map (fun s => ftle_value s T) ss). split; [apply ftle3_map; assumption|].
  rewrite (ftle3_map eigvals (map (scal33 c) Fs) T (map (Rmult (Rabs c)) ss) Hok HT).
  - f_equal. rewrite !map_map. clear - Hss Hc.
    induction Hss as [|F s Fs ss Hs Hss IH]; simpl; [reflexivity|].
    f_equal; [|exact IH]. apply ftle_value_scal; [exact Hc|].
    eapply spectral_norm_3_nonneg; eassumption.
  - clear - Hss. induction Hss; simpl; constructor; auto. apply spectral_norm_3_scal; auto.
Qed.

(** C02 *)
Lemma cg3_all Fs : compute_cauchy_green_3x3 Rops Fs = map (fun F => mul33 F (tr33 F)) Fs.
Proof. unfold compute_cauchy_green_3x3. apply map_ext. intro F. apply cg3_is_FFt. Qed.

Definition shear33 : m33 R := M33 1 1 0 0 1 0 0 0 1.
Lemma cg3_not_FtF : compute_cauchy_green_3x3 Rops [shear33] <> [mul33 (tr33 shear33) shear33].
Proof. rewrite cg3_all. simpl. unfold mul33, tr33, shear33; simpl. intro H. injection H. intros. lra. Qed.

Lemma cg3_iff F : compute_cauchy_green_3x3 Rops [F] = [mul33 (tr33 F) F] <->
  mul33 F (tr33 F) = mul33 (tr33 F) F.
Proof. rewrite cg3_all. cbn [map]. split; [intro H; exact (f_equal (hd id33) H)|intro H; rewrite H; reflexivity]. Qed.

(** C03: the largest eigenvalue found in 3D is the largest one of F^T F. *)
Lemma max_eig_3_FtF eigvals F : eigvals_ok eigvals ->
  exists p q r, roots_of_charpoly (mul33 (tr33 F) F) (p, q, r) /\
    max_eigenvalue_3x3 Rops eigvals (compute_cauchy_green_3x3 Rops [F]) = Ok [Some (Rmax (Rmax p q) r)].
Proof.
  intro Hok. rewrite cg3_all. cbn [map].
  destruct (Hok (mul33 F (tr33 F))) as ([[p q] r] & He & Hr).
  { unfold symmetric_3. rewrite tr33_mul, tr33_tr. reflexivity. }
  exists p, q, r. split; [intro x; rewrite <- charpoly_FFt; apply Hr|].
  unfold max_eigenvalue_3x3, max_eig_3x3. cbn [mapr]. rewrite He. cbn [bind]. rewrite !o_max_Rmax. reflexivity.
Qed.

(** C84: a negative period changes the sign. *)
Definition diag2 : m22 R := M22 2 0 0 2.
Lemma diag2_norm : spectral_norm_2 diag2 2.
Proof.
  replace diag2 with (scal22 2 id22) by (apply m22_ext; simpl; ring).
  replace 2 with (Rabs 2 * 1) at 2 by (rewrite Rabs_right; lra).
  apply spectral_norm_2_scal, orthogonal_spectral_2.
  unfold orthogonal_2. apply m22_ext; simpl; ring.
Qed.
Lemma ftle_negative_period :
  compute_ftle_2x2 Rops [diag2] (-1) <> Ok [ftle_value 2 (Rabs (-1))].
Proof.
  rewrite (ftle2_one diag2 (-1) 2); [|lra|exact diag2_norm].
  unfold ftle_value. destruct (Req_EM_T 2 0); [lra|]. replace (Rabs (-1)) with 1 by (rewrite Rabs_left; lra).
  intro H. injection H as H. assert (L : ln 1 < ln 2) by (apply ln_increasing; lra).
  rewrite ln_1 in L. unfold Rdiv in H. replace (/ -1) with (-1) in H by field. lra.
Qed.
Lemma ftle_abs_period_refuted : exists (F : m22 R) (T s : R), T <> 0 /\ spectral_norm_2 F s /\
  compute_ftle_2x2 Rops [F] T <> Ok [ftle_value s (Rabs T)].
Proof.
  exists diag2, (-1), 2. repeat split; [lra|apply diag2_norm|apply diag2_norm|exact ftle_negative_period].
Qed.
Lemma ftle_abs_period (F : m22 R) (T s : R) : 0 < T -> spectral_norm_2 F s ->
  compute_ftle_2x2 Rops [F] T = Ok [ftle_value s (Rabs T)].
Proof. intros HT Hs. rewrite Rabs_right by lra. apply ftle2_one; [lra|exact Hs]. Qed.
Lemma cg3_refuted : exists F : m33 R, compute_cauchy_green_3x3 Rops [F] <> [mul33 (tr33 F) F].
Proof. exists shear33. exact cg3_not_FtF. Qed.
Lemma eigvals_ok_exists : exists eigvals, eigvals_ok eigvals.
Proof. exists eigvals_R. exact eigvals_R_ok. Qed.
