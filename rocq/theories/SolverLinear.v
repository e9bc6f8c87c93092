(** Linear and uniform flows through the solver, over exact reals. *)
From Coq Require Import Reals Lra Lia.
From Verif Require Import Base Num Particles Jacobian Ftle Integrate DataSource Solver SpecFtle SpecSeeds
  SpecIntegrate FtleFacts2 FtleFacts3 ParticleFacts JacobianFacts SpecSolver SolverFacts SolverField.
Local Open Scope R_scope.


Lemma pair_eq {A B} (a a' : A) (b b' : B) : a = a' -> b = b' -> (a, b) = (a', b').
Proof. congruence. Qed.
Lemma m22_eq a b c d a' b' c' d' : a = a' -> b = b' -> c = c' -> d = d' -> M22 a b c d = M22 (T:=R) a' b' c' d'.
Proof. congruence. Qed.

Lemma mul22_assoc A B C : mul22 (mul22 A B) C = mul22 A (mul22 B C).
Proof. unfold mul22. cbn. apply m22_eq; ring. Qed.
Lemma mul22_id A : mul22 A id22 = A.
Proof. destruct A. unfold mul22, id22. cbn. apply m22_eq; ring. Qed.
Lemma id22_mul A : mul22 id22 A = A.
Proof. destruct A. unfold mul22, id22. cbn. apply m22_eq; ring. Qed.
Lemma pow22_comm M n : mul22 (pow22 M n) M = mul22 M (pow22 M n).
Proof.
  induction n as [|n IH]; cbn [pow22]; [rewrite mul22_id, id22_mul; reflexivity|].
  rewrite mul22_assoc, IH. reflexivity.
Qed.
Lemma aff2_comp M c N d x : aff2 M c (aff2 N d x) = aff2 (mul22 M N) (aff2 M c d) x.
Proof. unfold aff2, app22, mul22. cbn. apply pair_eq; ring. Qed.
Lemma aff2_id x : aff2 id22 (0, 0) x = x.
Proof. destruct x. unfold aff2, app22, id22. cbn. apply pair_eq; ring. Qed.

Section Two.
  Variables (A : m22 R) (b : R * R) (h : R).
  Let F := on_rows2 (aff2 A b).

  Lemma F_row x : F (row2 x) = row2 (aff2 A b x).
  Proof. destruct x. reflexivity. Qed.

  Lemma row2_eq a c a' c' : a = a' -> c = c' -> [a; c] = [a'; c'] :> list R.
  Proof. congruence. Qed.

  Lemma euler2 x : textbook_euler Rops F h (row2 x) = row2 (aff2 (add22 id22 (scal22 h A)) (scale2 h b) x).
  Proof.
    unfold textbook_euler. rewrite F_row. destruct x as [x y], A, b.
    unfold aff2, app22, add22, scal22, id22, scale2. cbn. apply row2_eq; ring.
  Qed.
  Definition add2 (x y : vec2) : vec2 := (fst x + fst y, snd x + snd y).
  Lemma vec2_eq (x y : vec2) : fst x = fst y -> snd x = snd y -> x = y.
  Proof. destruct x, y. cbn. congruence. Qed.
  Lemma row2_step x c k : vadd Rops (row2 x) (vscale Rops c (row2 k)) = row2 (add2 x (scale2 c k)).
  Proof. destruct x, k. reflexivity. Qed.
  Lemma row2_add x k : vadd Rops (row2 x) (row2 k) = row2 (add2 x k).
  Proof. destruct x, k. reflexivity. Qed.
  Lemma app22_add M x y : app22 M (add2 x y) = add2 (app22 M x) (app22 M y).
  Proof. apply vec2_eq; unfold app22, add2; cbn; ring. Qed.
  Lemma app22_scale M c x : app22 M (scale2 c x) = scale2 c (app22 M x).
  Proof. apply vec2_eq; unfold app22, scale2; cbn; ring. Qed.
  Lemma app22_madd M N x : app22 (add22 M N) x = add2 (app22 M x) (app22 N x).
  Proof. apply vec2_eq; unfold app22, add2, add22; cbn; ring. Qed.
  Lemma app22_mscal M c x : app22 (scal22 c M) x = scale2 c (app22 M x).
  Proof. apply vec2_eq; unfold app22, scale2, scal22; cbn; ring. Qed.
  Lemma app22_mul M N x : app22 (mul22 M N) x = app22 M (app22 N x).
  Proof. apply vec2_eq; unfold app22, mul22; cbn; ring. Qed.
  Lemma app22_id x : app22 id22 x = x.
  Proof. apply vec2_eq; unfold app22, id22; cbn; ring. Qed.
  Lemma aff2_add M c x : aff2 M c x = add2 (app22 M x) c.
  Proof. reflexivity. Qed.

  Lemma rk4_2 : exists c, forall x, textbook_rk4 Rops F h (row2 x) = row2 (aff2 (taylor22 h A) c x).
  Proof.
    exists (add2 (scale2 h b) (add2 (scale2 (h^2/2) (app22 A b)) (add2 (scale2 (h^3/6) (app22 A (app22 A b)))
              (scale2 (h^4/24) (app22 A (app22 A (app22 A b))))))).
    intro x. unfold textbook_rk4, o_half. cbn [o_mul o_div o_ofZ Rops].
    repeat first [rewrite F_row | rewrite row2_step | rewrite row2_add].
    f_equal. rewrite !aff2_add. unfold taylor22. cbn [pow22].
    rewrite !app22_madd, !app22_mscal, !app22_mul, !app22_id.
    repeat first [rewrite !app22_add | rewrite !app22_scale].
    generalize (app22 A (app22 A (app22 A (app22 A x)))), (app22 A (app22 A (app22 A x))), (app22 A (app22 A x)),
      (app22 A x), (app22 A (app22 A (app22 A b))), (app22 A (app22 A b)), (app22 A b).
    intros x4 x3 x2 x1 c3 c2 c1. apply vec2_eq; unfold add2, scale2; cbn; field.
  Qed.
  Lemma ab2_2 x y : textbook_ab2 Rops F h (F (row2 x)) (row2 y) =
    row2 (fst y + h * (3/2 * fst (aff2 A b y) - 1/2 * fst (aff2 A b x)),
          snd y + h * (3/2 * snd (aff2 A b y) - 1/2 * snd (aff2 A b x))).
  Proof. unfold textbook_ab2. rewrite !F_row. destruct x, y. reflexivity. Qed.

  Lemma step_path2 (step : list R -> list R) (M : m22 R) (c : R * R) :
    (forall x, step (row2 x) = row2 (aff2 M c x)) ->
    forall n P d, exists d', forall q, Nat.iter n step (row2 (aff2 P d q)) = row2 (aff2 (mul22 (pow22 M n) P) d' q).
  Proof.
    intros Hs n P d. induction n as [|n (d' & IH)].
    - exists d. intro q. cbn [pow22]. rewrite id22_mul. reflexivity.
    - exists (aff2 M c d'). intro q. cbn [Nat.iter nat_rect pow22].
      change (nat_rect _ _ _ n) with (Nat.iter n step (row2 (aff2 P d q))). rewrite IH, Hs, aff2_comp, mul22_assoc. reflexivity.
  Qed.

  Lemma iter_comm {X} (f : X -> X) n x : Nat.iter n f (f x) = f (Nat.iter n f x).
  Proof. induction n as [|n IH]; cbn; [reflexivity|]. f_equal. exact IH. Qed.

  Lemma ab2_next2 n : forall k c d, exists d', forall q,
    ab2_path Rops (repeat (F, h) n) (Some (F (row2 (aff2 (fst (ab2_pair22 h A k)) c q))))
      (row2 (aff2 (snd (ab2_pair22 h A k)) d q)) = row2 (aff2 (snd (ab2_pair22 h A (k + n))) d' q).
  Proof.
    induction n as [|n IH]; intros k c d.
    - exists d. intro q. rewrite Nat.add_0_r. reflexivity.
    - set (d1 := (fst d + h * (3/2 * fst (aff2 A b d) - 1/2 * fst (aff2 A b c)),
                  snd d + h * (3/2 * snd (aff2 A b d) - 1/2 * snd (aff2 A b c)))).
      destruct (IH (S k) d d1) as (d' & H). exists d'. intro q. replace (k + S n)%nat with (S k + n)%nat by lia.
      rewrite <- H. cbn [repeat ab2_path]. rewrite ab2_2. cbn [ab2_pair22].
      destruct (ab2_pair22 h A k) as [P Q]. cbn [fst snd]. f_equal. f_equal. unfold d1, aff2, app22, add22, scal22, mul22. cbn.
      apply pair_eq; field.
  Qed.

  Lemma linear_path2 m n : exists c, forall q,
    path Rops m (repeat (F, h) n) (row2 q) = row2 (aff2 (propagator2 m A h n) c q).
  Proof.
    destruct m; cbn [path propagator2].
    - destruct (step_path2 _ _ _ euler2 n id22 (0, 0)) as (c & H). exists c. intro q. rewrite mul22_id in H.
      rewrite <- H, aff2_id. clear. generalize (row2 q). induction n as [|n IH]; intro x; [reflexivity|].
      cbn [repeat euler_path]. rewrite IH, iter_comm. reflexivity.
    - destruct n as [|n].
      + exists (0, 0). intro q. cbn [repeat ab2_path ab2_pair22 fst]. rewrite aff2_id. reflexivity.
      + destruct (ab2_next2 n 0 (0, 0) (scale2 h b)) as (c & H). exists c. intro q.
        cbn [repeat ab2_path]. rewrite euler2. specialize (H q). cbn [ab2_pair22 fst snd] in H. rewrite aff2_id in H.
        cbn [Nat.add] in H. rewrite H. cbn [ab2_pair22]. destruct (ab2_pair22 h A n). reflexivity.
    - destruct rk4_2 as (c0 & H0).
      destruct (step_path2 _ _ _ H0 n id22 (0, 0)) as (c & H). exists c. intro q. rewrite mul22_id in H.
      rewrite <- H, aff2_id. clear. generalize (row2 q). induction n as [|n IH]; intro x; [reflexivity|].
      cbn [repeat rk4_path]. rewrite IH, iter_comm. reflexivity.
  Qed.
End Two.

Lemma m33_eq a b c d e f g h i a' b' c' d' e' f' g' h' i' :
  a = a' -> b = b' -> c = c' -> d = d' -> e = e' -> f = f' -> g = g' -> h = h' -> i = i' ->
  M33 a b c d e f g h i = M33 (T:=R) a' b' c' d' e' f' g' h' i'.
Proof. congruence. Qed.
Lemma mul33_assoc A B C : mul33 (mul33 A B) C = mul33 A (mul33 B C).
Proof. unfold mul33. cbn. apply m33_eq; ring. Qed.
Lemma mul33_id A : mul33 A id33 = A.
Proof. destruct A. unfold mul33, id33. cbn. apply m33_eq; ring. Qed.
Lemma id33_mul A : mul33 id33 A = A.
Proof. destruct A. unfold mul33, id33. cbn. apply m33_eq; ring. Qed.
Lemma triple_eq (a b c a' b' c' : R) : a = a' -> b = b' -> c = c' -> (a, b, c) = (a', b', c').
Proof. congruence. Qed.
Lemma aff3_comp M c N d x : aff3 M c (aff3 N d x) = aff3 (mul33 M N) (aff3 M c d) x.
Proof. unfold aff3, app33, mul33, v0, v1, v2. cbn. apply triple_eq; ring. Qed.
Lemma aff3_id x : aff3 id33 (0, 0, 0) x = x.
Proof. destruct x as [[x y] z]. unfold aff3, app33, id33, v0, v1, v2. cbn. apply triple_eq; ring. Qed.

Section Three.
  Variables (A : m33 R) (b : vec3) (h : R).
  Let F := on_rows3 (aff3 A b).

  Lemma F_row3 x : F (row3 x) = row3 (aff3 A b x).
  Proof. destruct x as [[? ?] ?]. reflexivity. Qed.
  Lemma row3_eq a c e a' c' e' : a = a' -> c = c' -> e = e' -> [a; c; e] = [a'; c'; e'] :> list R.
  Proof. congruence. Qed.

  Lemma euler3 x : textbook_euler Rops F h (row3 x) = row3 (aff3 (add33 id33 (scal33 h A)) (scale3 h b) x).
  Proof.
    unfold textbook_euler. rewrite F_row3. destruct x as [[x y] z], A, b as [[b1 b2] b3].
    unfold aff3, app33, add33, scal33, id33, scale3, v0, v1, v2. cbn. apply row3_eq; ring.
  Qed.
  Definition add3 (x y : vec3) : vec3 := (v0 x + v0 y, v1 x + v1 y, v2 x + v2 y).
  Lemma vec3_eq (x y : vec3) : v0 x = v0 y -> v1 x = v1 y -> v2 x = v2 y -> x = y.
  Proof. destruct x as [[? ?] ?], y as [[? ?] ?]. unfold v0, v1, v2. cbn. congruence. Qed.
  Lemma v_add3 x y : (v0 (add3 x y) = v0 x + v0 y) /\ (v1 (add3 x y) = v1 x + v1 y) /\ (v2 (add3 x y) = v2 x + v2 y).
  Proof. auto. Qed.
  Lemma v_scale3 c x : (v0 (scale3 c x) = c * v0 x) /\ (v1 (scale3 c x) = c * v1 x) /\ (v2 (scale3 c x) = c * v2 x).
  Proof. auto. Qed.
  Ltac push3 := repeat first [rewrite (proj1 (v_add3 _ _)) | rewrite (proj1 (proj2 (v_add3 _ _)))
    | rewrite (proj2 (proj2 (v_add3 _ _))) | rewrite (proj1 (v_scale3 _ _)) | rewrite (proj1 (proj2 (v_scale3 _ _)))
    | rewrite (proj2 (proj2 (v_scale3 _ _)))].
  Lemma row3_step x c k : vadd Rops (row3 x) (vscale Rops c (row3 k)) = row3 (add3 x (scale3 c k)).
  Proof. destruct x as [[? ?] ?], k as [[? ?] ?]. reflexivity. Qed.
  Lemma row3_add x k : vadd Rops (row3 x) (row3 k) = row3 (add3 x k).
  Proof. destruct x as [[? ?] ?], k as [[? ?] ?]. reflexivity. Qed.
  Lemma app33_add M x y : app33 M (add3 x y) = add3 (app33 M x) (app33 M y).
  Proof. apply vec3_eq; unfold app33, add3, v0, v1, v2; cbn; ring. Qed.
  Lemma app33_scale M c x : app33 M (scale3 c x) = scale3 c (app33 M x).
  Proof. apply vec3_eq; unfold app33, scale3, v0, v1, v2; cbn; ring. Qed.
  Lemma app33_madd M N x : app33 (add33 M N) x = add3 (app33 M x) (app33 N x).
  Proof. apply vec3_eq; unfold app33, add3, add33, v0, v1, v2; cbn; ring. Qed.
  Lemma app33_mscal M c x : app33 (scal33 c M) x = scale3 c (app33 M x).
  Proof. apply vec3_eq; unfold app33, scale3, scal33, v0, v1, v2; cbn; ring. Qed.
  Lemma app33_mul M N x : app33 (mul33 M N) x = app33 M (app33 N x).
  Proof. apply vec3_eq; unfold app33, mul33, v0, v1, v2; cbn; ring. Qed.
  Lemma app33_id x : app33 id33 x = x.
  Proof. apply vec3_eq; unfold app33, id33, v0, v1, v2; cbn; ring. Qed.
  Lemma aff3_add M c x : aff3 M c x = add3 (app33 M x) c.
  Proof. reflexivity. Qed.

  Lemma rk4_3 : exists c, forall x, textbook_rk4 Rops F h (row3 x) = row3 (aff3 (taylor33 h A) c x).
  Proof.
    exists (add3 (scale3 h b) (add3 (scale3 (h^2/2) (app33 A b)) (add3 (scale3 (h^3/6) (app33 A (app33 A b)))
              (scale3 (h^4/24) (app33 A (app33 A (app33 A b))))))).
    intro x. unfold textbook_rk4, o_half. cbn [o_mul o_div o_ofZ Rops].
    repeat first [rewrite F_row3 | rewrite row3_step | rewrite row3_add].
    f_equal. rewrite !aff3_add. unfold taylor33. cbn [pow33].
    rewrite !app33_madd, !app33_mscal, !app33_mul, !app33_id.
    repeat first [rewrite !app33_add | rewrite !app33_scale].
    generalize (app33 A (app33 A (app33 A (app33 A x)))), (app33 A (app33 A (app33 A x))), (app33 A (app33 A x)),
      (app33 A x), (app33 A (app33 A (app33 A b))), (app33 A (app33 A b)), (app33 A b).
    intros x4 x3 x2 x1 c3 c2 c1. apply vec3_eq; push3; field.
  Qed.
  Lemma ab2_3 x y : textbook_ab2 Rops F h (F (row3 x)) (row3 y) =
    row3 (add3 y (scale3 h (add3 (scale3 (3/2) (aff3 A b y)) (scale3 (-1/2) (aff3 A b x))))).
  Proof.
    unfold textbook_ab2. rewrite !F_row3. generalize (aff3 A b y), (aff3 A b x). intros u t.
    destruct u as [[? ?] ?], t as [[? ?] ?], y as [[? ?] ?]. unfold o_three_halves, o_half, add3, scale3, v0, v1, v2. cbn.
    apply row3_eq; field.
  Qed.

  Lemma step_path3 (step : list R -> list R) (M : m33 R) (c : vec3) :
    (forall x, step (row3 x) = row3 (aff3 M c x)) ->
    forall n P d, exists d', forall q, Nat.iter n step (row3 (aff3 P d q)) = row3 (aff3 (mul33 (pow33 M n) P) d' q).
  Proof.
    intros Hs n P d. induction n as [|n (d' & IH)].
    - exists d. intro q. cbn [pow33]. rewrite id33_mul. reflexivity.
    - exists (aff3 M c d'). intro q. cbn [Nat.iter nat_rect pow33].
      change (nat_rect _ _ _ n) with (Nat.iter n step (row3 (aff3 P d q))). rewrite IH, Hs, aff3_comp, mul33_assoc. reflexivity.
  Qed.

  Lemma ab2_next3 n : forall k c d, exists d', forall q,
    ab2_path Rops (repeat (F, h) n) (Some (F (row3 (aff3 (fst (ab2_pair33 h A k)) c q))))
      (row3 (aff3 (snd (ab2_pair33 h A k)) d q)) = row3 (aff3 (snd (ab2_pair33 h A (k + n))) d' q).
  Proof.
    induction n as [|n IH]; intros k c d.
    - exists d. intro q. rewrite Nat.add_0_r. reflexivity.
    - set (d1 := add3 d (scale3 h (add3 (scale3 (3/2) (aff3 A b d)) (scale3 (-1/2) (aff3 A b c))))).
      destruct (IH (S k) d d1) as (d' & H). exists d'. intro q. replace (k + S n)%nat with (S k + n)%nat by lia.
      rewrite <- H. cbn [repeat ab2_path]. rewrite ab2_3. cbn [ab2_pair33].
      destruct (ab2_pair33 h A k) as [P Q]. cbn [fst snd]. f_equal. f_equal.
      unfold d1. rewrite !aff3_add, !app33_madd, !app33_mscal, !app33_madd, !app33_mscal, !app33_mul, !app33_add.
      generalize (app33 A (app33 Q q)), (app33 A (app33 P q)), (app33 A d), (app33 A c), (app33 Q q). intros.
      apply vec3_eq; push3; field.
  Qed.

  Lemma linear_path3 m n : exists c, forall q,
    path Rops m (repeat (F, h) n) (row3 q) = row3 (aff3 (propagator3 m A h n) c q).
  Proof.
    destruct m; cbn [path propagator3].
    - destruct (step_path3 _ _ _ euler3 n id33 (0, 0, 0)) as (c & H). exists c. intro q. rewrite mul33_id in H.
      rewrite <- H, aff3_id. clear. generalize (row3 q). induction n as [|n IH]; intro x; [reflexivity|].
      cbn [repeat euler_path]. rewrite IH, iter_comm. reflexivity.
    - destruct n as [|n].
      + exists (0, 0, 0). intro q. cbn [repeat ab2_path ab2_pair33 fst]. rewrite aff3_id. reflexivity.
      + destruct (ab2_next3 n 0 (0, 0, 0) (scale3 h b)) as (c & H). exists c. intro q.
        cbn [repeat ab2_path]. rewrite euler3. specialize (H q). cbn [ab2_pair33 fst snd] in H. rewrite aff3_id in H.
        cbn [Nat.add] in H. rewrite H. cbn [ab2_pair33]. destruct (ab2_pair33 h A n). reflexivity.
    - destruct rk4_3 as (c0 & H0).
      destruct (step_path3 _ _ _ H0 n id33 (0, 0, 0)) as (c & H). exists c. intro q. rewrite mul33_id in H.
      rewrite <- H, aff3_id. clear. generalize (row3 q). induction n as [|n IH]; intro x; [reflexivity|].
      cbn [repeat rk4_path]. rewrite IH, iter_comm. reflexivity.
  Qed.
End Three.

Lemma run_fields_const {T S P} (src : source T S P) F :
  run_fields src (fun _ => F) = repeat (F, src_timestep src) (src_steps src).
Proof.
  unfold run_fields. generalize 0%nat. induction (src_steps src) as [|n IH]; intro i; cbn; [reflexivity|]. f_equal. apply IH.
Qed.

Lemma period_R n (h : R) : IZR (Z.of_nat n - 1) * Rabs h = (INR n - 1) * Rabs h.
Proof. rewrite minus_IZR, <- INR_IZR_INZ. reflexivity. Qed.
Lemma period_nz n (h : R) : (2 <= n)%nat -> h <> 0 -> (INR n - 1) * Rabs h <> 0.
Proof.
  intros Hn Hh. apply Rmult_integral_contrapositive_currified.
  - apply le_INR in Hn. cbn in Hn. lra.
  - apply Rabs_no_R0, Hh.
Qed.

Lemma Forall2_const {A B X} (R0 : A -> B -> Prop) (F : A) (l : list X) out (y : B) :
  (forall x, R0 F x -> x = y) -> Forall2 R0 (map (fun _ => F) l) out -> out = map (fun _ => y) l.
Proof.
  intro H. revert out. induction l as [|a l IH]; intros out HF; cbn in HF; inversion HF; subst; [reflexivity|].
  cbn. f_equal; [apply H; assumption|apply IH; assumption].
Qed.

Section Runs.
  Context {S P W : Type}.
  Variable interpolate : S -> mat R -> S * res (mat R).
  Variable eigvals : m33 R -> res (R * R * R).
  Variable mems : nat -> memory (T := R).
  Variable write : W -> string -> list (xval R) -> mat R -> W * res unit.
  Variable I : (list R -> list R) -> S -> Prop.
  Hypothesis HI : samples_field interpolate I.

  Lemma linear2 sv (w : world R S P W) w0 m A b gs id :
    presents_fields I (s_source sv) (fun _ => on_rows2 (aff2 A b)) ->
    I w0 (w_interp w) -> w_integrator w = fresh m -> s_writer sv = false ->
    src_id (s_source sv) = Ok id -> src_particles (s_source sv) (w_source w) = mk_particles Rops (layout2 gs) ->
    Forall axis_aligned2 gs -> (2 <= src_steps (s_source sv))%nat -> src_timestep (s_source sv) <> 0 ->
    let n := src_steps (s_source sv) in let h := src_timestep (s_source sv) in
    exists s, spectral_norm_2 (propagator2 m A h n) s /\
      snd (run Rops interpolate eigvals mems write sv w) =
        Ok (Some (map (fun _ => ftle_value s ((INR n - 1) * Rabs h)) gs)).
  Proof.
    intros HP Hs Hf Ew Eid Ep Hg Hn Hh n h. rewrite mk_particles_2 in Ep.
    destruct (spectral_norm_2_exists (propagator2 m A h n)) as (s & Hsn). exists s. split; [exact Hsn|].
    destruct (linear_path2 A b h m n) as (c & Hc).
    rewrite (run_moved2 Rops interpolate eigvals mems write I HI sv _ m w gs id w0 (aff2 (propagator2 m A h n) c) HP Hs Hf Eid Ep Ew).
    2:{ intro q. rewrite run_fields_const. apply Hc. }
    unfold compute_ftle. cbn [moved2 set_positions mk2 num_neighbors Nat.eqb].
    change (set_positions (mk2 Rops gs) (layout2 (map (image2 (aff2 (propagator2 m A h n) c)) gs)))
      with (moved2 Rops (aff2 (propagator2 m A h n) c) gs).
    unfold moved2. unfold aff2.
    rewrite (jac2_affine gs (propagator2 m A h n) c (mk2 Rops gs) (mk_particles_2 Rops gs) Hg). cbn [bind o_mul o_ofZ o_abs Rops].
    rewrite period_R. fold h n.
    destruct (ftle2_spec (map (fun _ => propagator2 m A h n) gs) ((INR n - 1) * Rabs h) (period_nz _ _ Hn Hh)) as (out & Eo & Ho).
    rewrite Eo. cbn [bind]. do 2 f_equal. refine (Forall2_const _ _ _ _ _ _ Ho).
    intros x (t & Ht & ->). rewrite (spectral_norm_2_unique _ _ _ Ht Hsn). reflexivity.
  Qed.

  Lemma linear3 sv (w : world R S P W) w0 m A b gs id : eigvals_ok eigvals ->
    presents_fields I (s_source sv) (fun _ => on_rows3 (aff3 A b)) ->
    I w0 (w_interp w) -> w_integrator w = fresh m -> s_writer sv = false ->
    src_id (s_source sv) = Ok id -> src_particles (s_source sv) (w_source w) = mk_particles Rops (layout3 gs) ->
    Forall axis_aligned3 gs -> (2 <= src_steps (s_source sv))%nat -> src_timestep (s_source sv) <> 0 ->
    let n := src_steps (s_source sv) in let h := src_timestep (s_source sv) in
    exists s, spectral_norm_3 (propagator3 m A h n) s /\
      snd (run Rops interpolate eigvals mems write sv w) =
        Ok (Some (map (fun _ => ftle_value s ((INR n - 1) * Rabs h)) gs)).
  Proof.
    intros He HP Hs Hf Ew Eid Ep Hg Hn Hh n h. rewrite mk_particles_3 in Ep.
    destruct (spectral_norm_3_exists (propagator3 m A h n)) as (s & Hsn). exists s. split; [exact Hsn|].
    destruct (linear_path3 A b h m n) as (c & Hc).
    rewrite (run_moved3 Rops interpolate eigvals mems write I HI sv _ m w gs id w0 (aff3 (propagator3 m A h n) c) HP Hs Hf Eid Ep Ew).
    2:{ intro q. rewrite run_fields_const. apply Hc. }
    unfold compute_ftle. cbn [moved3 set_positions mk3 num_neighbors Nat.eqb].
    change (set_positions (mk3 Rops gs) (layout3 (map (image3 (aff3 (propagator3 m A h n) c)) gs)))
      with (moved3 Rops (aff3 (propagator3 m A h n) c) gs).
    unfold moved3. unfold aff3.
    rewrite (jac3_affine gs (propagator3 m A h n) c (mk3 Rops gs) (mk_particles_3 Rops gs) Hg). cbn [bind o_mul o_ofZ o_abs Rops].
    rewrite period_R. fold h n.
    destruct (ftle3_spec eigvals (map (fun _ => propagator3 m A h n) gs) ((INR n - 1) * Rabs h) He (period_nz _ _ Hn Hh)) as (out & Eo & Ho).
    rewrite Eo. cbn [bind]. do 2 f_equal. refine (Forall2_const _ _ _ _ _ _ Ho).
    intros x (t & Ht & ->). rewrite (spectral_norm_3_unique _ _ _ Ht Hsn). reflexivity.
  Qed.
End Runs.
