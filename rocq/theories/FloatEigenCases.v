(** An eigenvalue routine that is accurate in the sense of SpecEigen.v, and whole 3D runs in binary64. *)
From Coq Require Import String Reals Lia Lra Psatz Floats.
From Flocq Require Import Core BinarySingleNaN PrimFloat.
From Verif Require Import Base Num Particles Jacobian Ftle Integrate DataSource Solver SpecFtle SpecSeeds SpecIntegrate SpecSolver SpecOrder
  SpecFloat64 SpecAccuracy SpecFloatGrid SpecConverge SpecFloatJac SpecRounding SpecFloatRun SpecEigen SpecFloatRun3 FtleFacts3 OrderFacts ConvergeCases BatchFloat FloatArith FloatGrid
  FloatKernel FloatAxis FtleAccuracy FtleAccuracyMain FloatJac FloatRuns FloatFtleRun FloatFtleCases FloatEigen FloatFtleRun3.
Local Open Scope R_scope.

(** The nearest binary64 number. *)
Definition round64 (x : R) : PrimFloat.float :=
  B2Prim (binary_normalize prec emax Hprec Hmax mode_NE (ZnearestE (scaled_mantissa radix2 fexp64 x)) (cexp radix2 fexp64 x) false).

Lemma round64_rep x : Rabs x <= bpow radix2 900 -> represents (round64 x) (rnd64 x).
Proof.
  intro Hx. unfold round64.
  pose proof (binary_normalize_correct prec emax Hprec Hmax mode_NE (ZnearestE (scaled_mantissa radix2 fexp64 x)) (cexp radix2 fexp64 x) false) as H.
  cbv zeta in H. change (round_mode mode_NE) with ZnearestE in H.
  change (SpecFloat.fexp prec emax) with fexp64 in H. change emax with 1024%Z in H.
  change (F2R (Float radix2 (ZnearestE (scaled_mantissa radix2 fexp64 x)) (cexp radix2 fexp64 x))) with (rnd64 x) in H.
  assert (E : round radix2 fexp64 ZnearestE (rnd64 x) = rnd64 x).
  { apply round_generic; [apply valid_rnd_N|]. apply generic_format_round; [apply FLT_exp_valid; reflexivity|apply valid_rnd_N]. }
  rewrite E in H. rewrite Rlt_bool_true in H.
  2:{ apply rnd_lt. apply Rle_trans with (1 := Hx). apply bpow_le. lia. }
  destruct H as (Hv & Hf & _). rewrite represents_B, Prim2B_B2Prim. split; [exact Hf|exact Hv].
Qed.

Definition value (x : PrimFloat.float) : R := SF2R radix2 (Prim2SF x).
Definition eigvals_rounded (C : m33 PrimFloat.float) : res (PrimFloat.float * PrimFloat.float * PrimFloat.float) :=
  match eig3 (M33 (value (b00 C)) (value (b01 C)) (value (b02 C)) (value (b10 C)) (value (b11 C)) (value (b12 C)) (value (b20 C)) (value (b21 C)) (value (b22 C))) with
  | (x, y, z) => Ok (round64 x, round64 y, round64 z)
  end.

Lemma root_bound S N e l : symmetric_3 S -> roots_of_charpoly S e -> Forall (fun x => Rabs x <= N) (entries3 S) ->
  l = fst (fst e) \/ l = snd (fst e) \/ l = snd e -> Rabs l <= 3 * N.
Proof.
  intros HS He HN Hl.
  assert (Hd : det33 (shift33 S l) = 0).
  { change (charpoly33 S l = 0). rewrite He. destruct Hl as [->|[->| ->]]; ring. }
  destruct (singular_kernel _ Hd) as (u & Hu & Hk). destruct (normalize u Hu) as (k & w & Hk0 & -> & Hw).
  rewrite app33_scale in Hk.
  assert (Hz : dot3v w (scale3 k (app33 (shift33 S l) w)) = 0) by (rewrite Hk; unfold dot3v, v0, v1, v2; simpl; ring).
  assert (Hq : k * (dot3v w (app33 S w) - l * dot3v w w) = 0).
  { rewrite <- Hz. unfold dot3v, scale3, app33, shift33, v0, v1, v2. simpl. ring. }
  assert (El : dot3v w (app33 S w) = l) by (rewrite Hw in Hq; nra).
  rewrite <- El. apply quad_bound; assumption.
Qed.

Lemma eigvals_rounded_accurate : accurate_eigvals eigvals_rounded.
Proof.
  intros C S N ((H00 & H01 & H02) & (H10 & H11 & H12) & (H20 & H21 & H22)) HS HN [NL NU].
  assert (E : M33 (value (b00 C)) (value (b01 C)) (value (b02 C)) (value (b10 C)) (value (b11 C)) (value (b12 C)) (value (b20 C)) (value (b21 C)) (value (b22 C)) = S).
  { unfold value. rewrite (proj2 H00), (proj2 H01), (proj2 H02), (proj2 H10), (proj2 H11), (proj2 H12), (proj2 H20), (proj2 H21), (proj2 H22). destruct S; reflexivity. }
  pose proof (eig3_roots S HS) as Hr. unfold eigvals_rounded. rewrite E. set (e := eig3 S) in *. clearbody e. clear E H00 H01 H02 H10 H11 H12 H20 H21 H22.
  pose proof (root_bound S N e (fst (fst e)) HS Hr HN ltac:(tauto)) as BX. pose proof (root_bound S N e (snd (fst e)) HS Hr HN ltac:(tauto)) as BY.
  pose proof (root_bound S N e (snd e) HS Hr HN ltac:(tauto)) as BZ. destruct e as [[A B] D]. cbn [fst snd] in *.
  assert (P : 0 < / 2 ^ 420) by (apply Rinv_0_lt_compat, pow_lt; lra).
  assert (U : 3 * N <= bpow radix2 900).
  { apply Rle_trans with (4 * 2 ^ 420); [lra|]. rewrite pow_bpow. change 4 with (bpow radix2 2). rewrite <- bpow_plus. apply bpow_le. lia. }
  assert (T : tiny <= / 2 ^ 41 * N).
  { apply Rle_trans with (/ 2 ^ 41 * / 2 ^ 420).
    - unfold tiny. rewrite !pow_bpow, <- !bpow_opp, <- bpow_plus. apply bpow_le. lia.
    - apply Rmult_le_compat_l; [left; apply Rinv_0_lt_compat, pow_lt; lra|exact NL]. }
  assert (K : forall x, Rabs x <= 3 * N -> represents (round64 x) (rnd64 x) /\ Rabs (rnd64 x - x) <= / 2 ^ 40 * N).
  { intros x Hx. split; [apply round64_rep; lra|]. destruct (rnd_err x) as (d & h & Hd & Hh & ->).
    replace (x * (1 + d) + h - x) with (x * d + h) by ring. eapply Rle_trans; [apply Rabs_triang|].
    pose proof (abs_mul_le _ _ _ _ Hx Hd). revert T. rewrite !pow_bpow. change (bpow radix2 (Z.of_nat 40)) with 1099511627776.
    change (bpow radix2 (Z.of_nat 41)) with 2199023255552. unfold uround in *. lra. }
  destruct (K A BX) as [R1 D1]. destruct (K B BY) as [R2 D2]. destruct (K D BZ) as [R3 D3].
  exists (round64 A), (round64 B), (round64 D), (rnd64 A), (rnd64 B), (rnd64 D), A, B, D.
  split; [reflexivity|]. exact (conj R1 (conj R2 (conj R3 (conj Hr (conj D1 (conj D2 D3)))))).
Qed.

(* ---- the field (x, y, z) -> (y, x, z) around one seed ---- *)
Definition swirl {T} (x : list T) : list T := match x with [a; b; c] => [b; a; c] | _ => x end.
Definition swirl_source lnF hF n : source PrimFloat.float (list PrimFloat.float -> list PrimFloat.float) unit :=
  Source (Ok "case"%string) hF n (fun _ => mk_particles (Fops lnF) (layout3 [seed3_F])) (fun k _ => k) (fun _ _ => (swirl, Ok tt)).
Definition swirl_solver lnF hF n := Solver (swirl_source lnF hF n) false false.
Definition swirl_world m : world PrimFloat.float (list PrimFloat.float -> list PrimFloat.float) unit unit :=
  World (fresh m) swirl tt [] tt 0.

Lemma swirl_presents lnF hF n : presents_fields held (s_source (swirl_solver lnF hF n)) (fun _ => swirl).
Proof. intros j w s _ _. exists swirl. split; reflexivity. Qed.

Lemma swirl_evaluates B : 0 <= B -> evaluates 3 B 0 swirl swirl.
Proof.
  intros HB x X HX Sx SX. destruct X as [|a [|b [|c [|]]]]; try discriminate. inversion Sx as [|? ? ? ? Ra Sx1]; subst.
  inversion Sx1 as [|? ? ? ? Rb Sx2]; subst. inversion Sx2 as [|? ? ? ? Rc Sx3]; subst. inversion Sx3; subst. exists [b; a; c]. split; [|apply near_refl].
  cbn. apply Forall2_cons; [exact Rb|]. apply Forall2_cons; [exact Ra|]. apply Forall2_cons; [exact Rc|]. apply Forall2_nil.
Qed.
Lemma swirl_speed B : speed 3 B B swirl.
Proof.
  intros X HX SX. destruct X as [|a [|b [|c [|]]]]; try discriminate. intro i. pose proof (SX 0%nat) as A. pose proof (SX 1%nat) as C.
  pose proof (SX 2%nat) as D. pose proof (SX 3%nat) as E. cbn in A, C, D, E. destruct i as [|[|[|i]]]; cbn; [exact C|exact A|exact D|]. destruct i; exact E.
Qed.
Lemma swirl_lipschitz : lipschitz_field 3 1 (fun _ => swirl).
Proof.
  split.
  - intros t x Hx. destruct x as [|a [|b [|c [|]]]]; try discriminate. reflexivity.
  - intros t x y e Hx Hy [_ N]. destruct x as [|a [|b [|c [|]]]]; try discriminate. destruct y as [|a' [|b' [|c' [|]]]]; try discriminate.
    split; [reflexivity|]. pose proof (N 0%nat) as A. pose proof (N 1%nat) as C. pose proof (N 2%nat) as D. pose proof (N 3%nat) as E. cbn in A, C, D, E.
    rewrite Rmult_1_l. intro i. destruct i as [|[|[|i]]]; cbn; [exact C|exact A|exact D|]. destruct i; exact E.
Qed.
Lemma swirl_ok n (v : nat -> list R -> list R) : v = (fun _ => swirl) ->
  forall k, (k < n)%nat -> evaluates 3 8 0 swirl (v k) /\ speed 3 8 8 (v k) /\ lipschitz_field 3 1 (fun _ => v k).
Proof. intros -> k _. split; [apply swirl_evaluates; lra|]. split; [apply swirl_speed|exact swirl_lipschitz]. Qed.
Lemma swirl_len (x : list PrimFloat.float) : length x = 3%nat -> length (swirl x) = 3%nat.
Proof. destruct x as [|a [|b [|c [|]]]]; try discriminate. reflexivity. Qed.

Lemma seed3_seated : Forall2 seated3 [seed3_F] [seed3_R].
Proof. constructor; [exact (proj1 jac_case_3)|constructor]. Qed.
Lemma seed3_spaced : Forall spaced3 [seed3_R].
Proof. constructor; [exact (proj1 (proj2 jac_case_3))|constructor]. Qed.
Lemma seed3_within : Forall (within3 1) [seed3_R].
Proof.
  constructor; [|constructor]. unfold within3, corners3, seed3_R. cbn [h_left h_right h_top h_bottom h_front h_back].
  do 6 (apply Forall_cons; [intros [|[|[|[|i]]]]; cbn; apply Rabs_le; lra|]). constructor.
Qed.
Lemma seed3_side : side3 seed3_R = 2.
Proof.
  unfold side3, seed3_R, v0, v1, v2. cbn [h_left h_right h_top h_bottom h_front h_back fst snd]. replace (1 - -1) with 2 by ring.
  rewrite (Rabs_pos_eq 2) by lra. rewrite (Rmin_left 2 2) by lra. apply Rmin_left. lra.
Qed.

Lemma scaled_sqrt k a b : 0 <= k -> a <= k * k * b -> R_sqrt.sqrt a <= k * R_sqrt.sqrt b.
Proof.
  intros Hk H. rewrite <- (sqrt_square k) at 1 by exact Hk. rewrite <- sqrt_mult_alt by nra. apply sqrt_le_1_alt. exact H.
Qed.

Lemma block_norm c s : 0 <= c -> 0 <= s -> spectral_norm_3 (M33 c s 0 s c 0 0 0 (c + s)) (c + s).
Proof.
  intros Hc Hs. split.
  - intros [[x y] z]. unfold norm3, dot3v, app33, v0, v1, v2. cbn [fst snd b00 b01 b02 b10 b11 b12 b20 b21 b22].
    apply scaled_sqrt; [lra|].
    assert (0 <= c * s) by (apply Rmult_le_pos; assumption).
    assert (0 <= (x - y) * (x - y)) by apply Rle_0_sqr. nra.
  - exists (0, 0, 1). unfold norm3, dot3v, app33, v0, v1, v2. cbn [fst snd b00 b01 b02 b10 b11 b12 b20 b21 b22]. split.
    + replace (0 * 0 + 0 * 0 + 1 * 1) with 1 by ring. apply sqrt_1.
    + match goal with |- R_sqrt.sqrt ?a = _ => replace a with ((c + s) * (c + s)) by ring end. apply sqrt_square. lra.
Qed.

(* ---- two Euler steps of 1/16, in exact arithmetic ---- *)
Definition two_steps3 (x : vec3) : vec3 :=
  (257 / 256 * v0 x + 1 / 8 * v1 x, 1 / 8 * v0 x + 257 / 256 * v1 x, 289 / 256 * v2 x).

Lemma two_steps3_path x : path Rops MEuler (steps (fun _ => swirl) (1 / 16) 2) (row3 x) = row3 (two_steps3 x).
Proof. destruct x as [[p q] r]. unfold two_steps3, v0, v1, v2. cbn. f_equal; [|f_equal; [|f_equal]]; field. Qed.

Lemma two_steps3_gradient : gradient3 seed3_R (image3 two_steps3 seed3_R) = M33 (257 / 256) (1 / 8) 0 (1 / 8) (257 / 256) 0 0 0 (257 / 256 + 1 / 8).
Proof. unfold gradient3, image3, two_steps3, seed3_R, v0, v1, v2. cbn. f_equal; field. Qed.

Lemma two_steps3_resolved : resolved3 (rounding_bound 2 (1 / 16) 0 8 1) two_steps3 seed3_R (289 / 256).
Proof.
  unfold resolved3. rewrite two_steps3_gradient, seed3_side.
  split. { replace (289 / 256) with (257 / 256 + 1 / 8) by lra. apply block_norm; lra. }
  split. { split; [apply le_inv_pow; [cbn; lra|lia]|apply ge_pow; [cbn; lra|lia]]. }
  split.
  - pose proof two_steps_rounding as X. replace (2 ^ 6) with 64 by (cbn; lra).
    apply Rle_trans with (64 * / 2 ^ 40); [apply Rmult_le_compat_l; [lra|exact X]|]. cbn [pow]. lra.
  - unfold corners3, two_steps3, seed3_R, v0, v1, v2. cbn [h_left h_right h_top h_bottom h_front h_back fst snd].
    do 6 (apply Forall_cons; [cbn [fst snd]; split; [|split]; apply below_199; apply Rabs_le; lra|]). constructor.
Qed.

Lemma exact_case3 : forall mems write,
  exists x r, snd (run (Fops lnR_rounded) holds eigvals_rounded mems write (swirl_solver lnR_rounded 0.0625%float 2) (swirl_world MEuler))
      = Ok (Some [XVal x]) /\ represents x r /\ Rabs (r - ln (289 / 256) / (1 / 16)) <= / 2 ^ 29.
Proof.
  intros mems write. set (E := rounding_bound 2 (1 / 16) 0 8 1).
  assert (I2 : INR 2 = 2) by (cbn; lra). assert (A : Rabs (1 / 16) = 1 / 16) by (apply Rabs_pos_eq; lra).
  assert (HE : E <= / 2 ^ 40) by exact two_steps_rounding.
  destruct (run_exact_F3 (P := unit) lnR_rounded holds eigvals_rounded mems write held holds_samples MEuler 8 1 8 0 1 2 (1 / 16) 0.0625%float (fun _ => swirl) (fun _ => swirl)
    lnR_rounded_accurate eigvals_rounded_accurate) with (gs := [seed3_F]) (Gs := [seed3_R]) (phi := two_steps3) (E := E) (sv := swirl_solver lnR_rounded 0.0625%float 2) (w := swirl_world MEuler)
    (w0 := @swirl PrimFloat.float) (id := "case"%string) as (xs & Exs & Hxs).
  - apply saddle_tame; rewrite ?I2; try lra; try lia.
  - exact rep_16th.
  - apply swirl_ok. reflexivity.
  - intros k x. apply swirl_len.
  - exact seed3_seated.
  - exact seed3_spaced.
  - exact seed3_within.
  - intros G x _ _. apply two_steps3_path.
  - reflexivity.
  - apply below_199. apply Rle_trans with (1 := HE). cbn [pow]. lra.
  - constructor; [|constructor]. exists (289 / 256). exact two_steps3_resolved.
  - apply swirl_presents.
  - reflexivity.
  - reflexivity.
  - reflexivity.
  - reflexivity.
  - reflexivity.
  - reflexivity.
  - reflexivity.
  - inversion Hxs as [|? x ? l (s & Rs & r & Rr & Hr) Hl]; subst. inversion Hl; subst. exists x, r.
    split; [exact Exs|]. split; [exact Rr|].
    rewrite (spectral_norm_3_unique _ _ _ Rs (proj1 two_steps3_resolved)), I2, A, seed3_side in Hr.
    replace ((2 - 1) * (1 / 16)) with (1 / 16) in Hr by lra. apply Rle_trans with (1 := Hr).
    replace (12 * E / (289 / 256 * 2)) with (12 * 128 / 289 * E) by field.
    revert HE. cbn [pow]. intro HE. lra.
Qed.

(* ---- eight AB2 steps of 1/64, beside the flow ---- *)
Definition hyper3 (t : R) (x : vec3) : vec3 := (fst (hyper t (v0 x, v1 x)), snd (hyper t (v0 x, v1 x)), v2 x * exp t).

Lemma tail_zero3 (i : nat) : match i with O => 0 | S _ => 0 end = 0.
Proof. destruct i; reflexivity. Qed.

Lemma exp_scaled c t : Rabs c <= 1 -> 0 <= t <= 1 / 8 -> Rabs (c * exp t) <= 4.
Proof.
  intros Hc Ht. replace (c * exp t) with (2 * (c / 2 * exp t + 0 * exp (- t))) by field.
  destruct (pair_bounded (c / 2) 0 t) as [B _]; [apply Rabs_le_inv in Hc; apply Rabs_le; lra|rewrite Rabs_R0; lra|exact Ht|].
  rewrite Rabs_mult, (Rabs_pos_eq 2) by lra. lra.
Qed.
Lemma exp_rate c s t : Rabs c <= 1 -> 0 <= s <= 1 / 8 -> 0 <= t <= 1 / 8 -> Rabs (c * exp s - c * exp t) <= 4 * Rabs (s - t).
Proof.
  intros Hc Hs Ht. replace (c * exp s - c * exp t) with (2 * (c / 2 * exp s + 0 * exp (- s) - (c / 2 * exp t + 0 * exp (- t)))) by field.
  destruct (pair_rate (c / 2) 0 s t) as [B _]; [apply Rabs_le_inv in Hc; apply Rabs_le; lra|rewrite Rabs_R0; lra|exact Hs|exact Ht|].
  rewrite Rabs_mult, (Rabs_pos_eq 2) by lra. lra.
Qed.
Lemma double_rate x s t : Rabs x <= 2 * Rabs (s - t) -> Rabs x <= 4 * Rabs (s - t).
Proof. pose proof (Rabs_pos (s - t)). lra. Qed.

Lemma hyper3_flows m T x : T = 1 / 8 -> Rabs ((v0 x + v1 x) / 2) <= 1 / 2 -> Rabs ((v0 x - v1 x) / 2) <= 1 / 2 -> Rabs (v2 x) <= 1 ->
  flow_along3 (regular m (fun _ => swirl) 0 (0 + T) 4 4 4) (fun _ => swirl) 0 (0 + T) (hyper3 (0 + T)) x.
Proof.
  intros -> Ha Hb Hc. destruct x as [[p q] c]. unfold v0, v1, v2 in *. cbn [fst snd] in *. set (a := (p + q) / 2) in *. set (b := (p - q) / 2) in *.
  assert (BT : forall t, between 0 (0 + 1 / 8) t -> 0 <= t <= 1 / 8).
  { intros t [H1 H2]. revert H1 H2. rewrite Rmin_left, Rmax_right by lra. lra. }
  exists (fun t => row3 (hyper3 t (p, q, c))). unfold hyper3, hyper, v0, v1, v2. cbn [fst snd row3]. fold a b.
  split. { replace (- 0) with 0 by ring. rewrite exp_0. unfold a, b. f_equal; [field|f_equal; [field|f_equal; ring]]. }
  split. { split; [reflexivity|]. intros t _ [|[|[|i]]]; unfold coord; cbn [swirl nth].
    - apply exp_pair_derivative.
    - apply exp_pair_derivative'.
    - apply exp_derivative.
    - destruct i; apply derivable_pt_lim_const. }
  split; [reflexivity|]. split.
  - intros s t Hs Ht [|[|[|i]]]; unfold coord; cbn [swirl nth].
    + apply double_rate, pair_rate; auto.
    + apply double_rate, pair_rate; auto.
    + apply exp_rate; auto.
    + rewrite tail_zero3, Rminus_0_r, Rabs_R0. pose proof (Rabs_pos (s - t)). lra.
  - destruct m; [exact I| |].
    + exists (fun t => row3 (hyper3 t (p, q, c))). unfold hyper3, hyper, v0, v1, v2. cbn [fst snd row3]. fold a b. split.
      * intros t _ [|[|[|i]]]; unfold coord; cbn [swirl nth].
        -- apply exp_pair_derivative'.
        -- apply exp_pair_derivative.
        -- apply exp_derivative.
        -- destruct i; apply derivable_pt_lim_const.
      * intros s t Hs Ht [|[|[|i]]]; unfold coord; cbn [swirl nth].
        -- apply double_rate, pair_rate; auto.
        -- apply double_rate, pair_rate; auto.
        -- apply exp_rate; auto.
        -- rewrite tail_zero3, Rminus_0_r, Rabs_R0. pose proof (Rabs_pos (s - t)). lra.
    + intros t i Ht. apply BT in Ht. destruct (pair_bounded a b t Ha Hb Ht) as [B1 B2]. pose proof (exp_scaled c t Hc Ht) as B3.
      destruct i as [|[|[|i]]]; unfold coord; cbn [swirl nth]; [lra|lra|exact B3|]. rewrite tail_zero3, Rabs_R0. lra.
Qed.

Lemma hyper3_gradient T : gradient3 seed3_R (image3 (hyper3 T) seed3_R) =
  M33 ((exp T + exp (- T)) / 2) ((exp T - exp (- T)) / 2) 0 ((exp T - exp (- T)) / 2) ((exp T + exp (- T)) / 2) 0 0 0 ((exp T + exp (- T)) / 2 + (exp T - exp (- T)) / 2).
Proof. unfold gradient3, image3, hyper3, hyper, seed3_R, v0, v1, v2. cbn. f_equal; field. Qed.

Definition hyper3_error : R := rounding_bound 8 (1 / 64) 0 8 1 + truncation MAB2 8 (1 / 64) 1 4 4 4.

Lemma hyper3_error_small : 0 <= hyper3_error <= / 600.
Proof.
  unfold hyper3_error, rounding_bound, truncation. rewrite (Rabs_pos_eq (1 / 64)) by lra. replace (INR 8) with 8 by (cbn; lra).
  replace (2 * (8 * (1 / 64) * 1)) with (1 / 8 + 1 / 8) by lra. rewrite exp_plus.
  destruct exp_eighth as [L U]. set (e := exp (1 / 8)) in *. assert (X : 0 <= e * e <= 64 / 49) by nra.
  replace (2 ^ 50) with 1125899906842624 by (cbn [pow]; lra). set (z := e * e) in *. clearbody z. lra.
Qed.

Lemma hyper3_resolved : resolved3 hyper3_error (hyper3 (0 + INR 8 * (1 / 64))) seed3_R (exp (1 / 8)).
Proof.
  replace (0 + INR 8 * (1 / 64)) with (1 / 8) by (cbn; lra).
  unfold resolved3. rewrite hyper3_gradient, seed3_side.
  destruct exp_eighth as [L U]. assert (L' : exp (- (1 / 8)) <= 1).
  { replace 1 with (exp 0) at 2 by apply exp_0. left. apply exp_increasing. lra. }
  pose proof (exp_pos (- (1 / 8))) as P. pose proof hyper3_error_small as X.
  split. { replace (exp (1 / 8)) with ((exp (1 / 8) + exp (- (1 / 8))) / 2 + (exp (1 / 8) - exp (- (1 / 8))) / 2) at 7 by field. apply block_norm; lra. }
  split. { split; [apply le_inv_pow; [cbn; lra|lia]|apply ge_pow; [cbn; lra|lia]]. }
  split.
  - replace (2 ^ 6) with 64 by (cbn; lra). lra.
  - assert (K : forall a b c, Rabs a <= 1 / 2 -> Rabs b <= 1 / 2 -> Rabs c <= 1 -> Rabs (a * exp (1 / 8) + b * exp (- (1 / 8))) <= 2 ^ 199 /\ Rabs (a * exp (1 / 8) - b * exp (- (1 / 8))) <= 2 ^ 199
        /\ Rabs (c * exp (1 / 8)) <= 2 ^ 199).
    { intros a b c Ha Hb Hc. destruct (pair_bounded a b (1 / 8) Ha Hb ltac:(lra)). pose proof (exp_scaled c (1 / 8) Hc ltac:(lra)). split; [|split]; apply below_199; lra. }
    unfold corners3, hyper3, hyper, seed3_R, v0, v1, v2. cbn [h_left h_right h_top h_bottom h_front h_back fst snd].
    do 6 (apply Forall_cons; [cbn [fst snd]; apply K; apply Rabs_le; lra|]). constructor.
Qed.

Lemma flow_case3 : forall mems write,
  exists x r, snd (run (Fops lnR_rounded) holds eigvals_rounded mems write (swirl_solver lnR_rounded 0.015625%float 8) (swirl_world MAB2))
      = Ok (Some [XVal x]) /\ represents x r /\ Rabs (r - (1 / 8) / (7 / 64)) <= / 10.
Proof.
  intros mems write.
  assert (I8 : INR 8 = 8) by (cbn; lra). assert (A : Rabs (1 / 64) = 1 / 64) by (apply Rabs_pos_eq; lra).
  pose proof hyper3_error_small as HE.
  destruct (run_flow_F3 (P := unit) lnR_rounded holds eigvals_rounded mems write held holds_samples MAB2 8 1 8 0 1 8 (1 / 64) 0.015625%float (fun _ => swirl) (fun _ => swirl) 0
    lnR_rounded_accurate eigvals_rounded_accurate) with (gs := [seed3_F]) (Gs := [seed3_R]) (phi := hyper3 (0 + INR 8 * (1 / 64))) (K := 4) (J := 4) (V := 4) (E := hyper3_error)
    (sv := swirl_solver lnR_rounded 0.015625%float 8) (w := swirl_world MAB2) (w0 := @swirl PrimFloat.float) (id := "case"%string) as (xs & Exs & Hxs).
  - apply saddle_tame; rewrite ?I8; try lra; try lia.
  - exact rep_64th.
  - exact swirl_lipschitz.
  - intros k _. split; [apply swirl_evaluates; lra|apply swirl_speed].
  - intros k x. apply swirl_len.
  - exact seed3_seated.
  - exact seed3_spaced.
  - exact seed3_within.
  - lra.
  - lra.
  - lra.
  - reflexivity.
  - apply below_199. lra.
  - intros G x [<-|[]] Hx. apply hyper3_flows; [rewrite I8; lra| | |];
      (cbn in Hx; destruct Hx as [<-|[<-|[<-|[<-|[<-|[<-|[]]]]]]]; unfold v0, v1, v2; cbn [fst snd]; apply Rabs_le; lra).
  - constructor; [|constructor]. eexists. exact hyper3_resolved.
  - apply swirl_presents.
  - reflexivity.
  - reflexivity.
  - reflexivity.
  - reflexivity.
  - reflexivity.
  - reflexivity.
  - reflexivity.
  - inversion Hxs as [|? x ? l (s & Rs & r & Rr & Hr) Hl]; subst. inversion Hl; subst. exists x, r.
    split; [exact Exs|]. split; [exact Rr|].
    rewrite (spectral_norm_3_unique _ _ _ Rs (proj1 hyper3_resolved)), I8, A, seed3_side, ln_exp in Hr.
    replace ((8 - 1) * (1 / 64)) with (7 / 64) in Hr by lra. apply Rle_trans with (1 := Hr).
    destruct exp_eighth as [L U]. set (e := exp (1 / 8)) in *.
    assert (X : 12 * hyper3_error / (e * 2) <= 6 * hyper3_error).
    { replace (12 * hyper3_error / (e * 2)) with (6 * hyper3_error * / e) by (field; lra). rewrite <- (Rmult_1_r (6 * hyper3_error)) at 2.
      apply Rmult_le_compat_l; [lra|]. rewrite <- Rinv_1. apply Rinv_le_contravar; lra. }
    replace (2 ^ 34) with 17179869184 by (cbn [pow]; lra). lra.
Qed.

(** A 3D matrix for the FTLE formula alone: diag(2, 1, 1/2). *)
Definition diag3_F : m33 PrimFloat.float := (M33 2 0 0 0 1 0 0 0 0.5)%float.
Definition diag3_R : m33 R := M33 2 0 0 0 1 0 0 0 (/ 2).
Lemma diag3_case : stands_for3 diag3_F diag3_R /\ moderate3 diag3_R /\ spectral_norm_3 diag3_R 2.
Proof.
  pose proof rep_0. pose proof rep_1. pose proof rep_2. pose proof rep_half.
  split; [exact (conj (conj H1 (conj H H)) (conj (conj H (conj H0 H)) (conj H (conj H H2))))|]. split; [split|split].
  - unfold entries3, diag3_R. cbn [b00 b01 b02 b10 b11 b12 b20 b21 b22].
    do 9 (apply Forall_cons; [apply le_200, Rabs_le; lra|]). constructor.
  - left. unfold diag3_R. cbn [b00]. rewrite Rabs_pos_eq by lra. apply Rle_trans with (/ 1); [|lra]. apply Rinv_le_contravar; [lra|]. apply pow_R1_Rle. lra.
  - intros [[x y] z]. unfold norm3, dot3v, app33, v0, v1, v2, diag3_R. cbn [fst snd b00 b01 b02 b10 b11 b12 b20 b21 b22].
    apply scaled_sqrt; [lra|]. nra.
  - exists (1, 0, 0). unfold norm3, dot3v, app33, v0, v1, v2, diag3_R. cbn [fst snd b00 b01 b02 b10 b11 b12 b20 b21 b22]. split.
    + replace (1 * 1 + 0 * 0 + 0 * 0) with 1 by ring. apply sqrt_1.
    + match goal with |- R_sqrt.sqrt ?a = _ => replace a with (2 * 2) by ring end. apply sqrt_square. lra.
Qed.
