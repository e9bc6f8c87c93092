(** Facts about analytical tasks. *)
From Coq Require Import Reals Lra Lia.
From Verif Require Import Base Num NdArray Text Particles Jacobian Ftle Integrate Interpolate DataSource Solver Batches FileRun AnalyticalRun
  SpecFtle SpecSeeds SpecIntegrate SpecSolver SpecAnalytical TextFacts BatchFacts SolverSim FtleFacts2 ParticleFacts SolverCases SolverMain SolverLinear.

(** C46: only the velocity at time 0 matters. *)
Section Zero.
  Context {T : Type} (O : ops T) (scp : scipy T).
  Variable imems : nat -> memory (T := T).
  Definition agree (s t : istate scp) : Prop := exists f g, fst s = IAnalytical (Analytical f (o_zero O)) /\
    fst t = IAnalytical (Analytical g (o_zero O)) /\ (forall q, f (o_zero O) q = g (o_zero O) q).
  Lemma agree_query s t q : agree s t -> agree (fst (i_interpolate O scp imems s q)) (fst (i_interpolate O scp imems t q)) /\
    snd (i_interpolate O scp imems s q) = snd (i_interpolate O scp imems t q).
  Proof.
    destruct s as [i1 c1], t as [i2 c2]. intros (f & g & E1 & E2 & E3). cbn in E1, E2. subst.
    unfold i_interpolate. cbn. split; [exists f, g; auto|apply E3].
  Qed.
  Lemma time_zero {W} format eigvals mems (write : W -> string -> list (xval T) -> mat T -> W * res unit) f g p name wr q h ts w1 w2 use :
    (forall x, f (o_zero O) x = g (o_zero O) x) ->
    analytical_start O scp f p name wr = Ok w1 -> analytical_start O scp g p name wr = Ok w2 ->
    let task := analytical_batch format h ts in
    snd (analytical_worker O scp imems eigvals mems write task q use w1) =
    snd (analytical_worker O scp imems eigvals mems write task q use w2) /\
    w_writer (fst (analytical_worker O scp imems eigvals mems write task q use w1)) =
    w_writer (fst (analytical_worker O scp imems eigvals mems write task q use w2)).
  Proof.
    intros H H1 H2. cbn zeta. unfold analytical_worker.
    unfold analytical_start in H1, H2. cbn in H1, H2. destruct (create_integrator name) as [g0|e]; [|discriminate].
    cbn in H1, H2. injection H1 as <-. injection H2 as <-.
    destruct (run_sim O (i_interpolate O scp imems) (i_interpolate O scp imems) eigvals mems write agree agree_query
        (analytical_batch format h ts) (analytical_batch format h ts) eq_refl eq_refl eq_refl (fun _ => eq_refl) (fun _ _ => eq_refl)) 
        with (w1 := World g0 (IAnalytical (Analytical f (o_zero O)) : interp scp, 0) p [] wr 0)
             (w2 := World g0 (IAnalytical (Analytical g (o_zero O)) : interp scp, 0) p [] wr 0) (queue := q) (writer := use) as [X Y].
    - intros j s t A. split; [exact A|reflexivity].
    - unfold simW; cbn. repeat split. exists f, g. auto.
    - split; [exact Y|]. apply X.
  Qed.

  (** C46 for steady fields. *)
  Definition steady (s t : istate scp) : Prop := exists f a b, (forall u u' q, f u q = f u' q :> res (mat T)) /\
    fst s = IAnalytical (Analytical f a) /\ fst t = IAnalytical (Analytical f b).
  Lemma steady_query s t q : steady s t -> steady (fst (i_interpolate O scp imems s q)) (fst (i_interpolate O scp imems t q)) /\
    snd (i_interpolate O scp imems s q) = snd (i_interpolate O scp imems t q).
  Proof.
    destruct s as [i1 c1], t as [i2 c2]. intros (f & a & b & Hf & E1 & E2). cbn in E1, E2. subst.
    unfold i_interpolate. cbn. split; [exists f, a, b; auto|apply Hf].
  Qed.
  Lemma steady_times {W} format eigvals mems (write : W -> string -> list (xval T) -> mat T -> W * res unit) f p name wr q h ts w use :
    (forall u u' x, f u x = f u' x) -> analytical_start O scp f p name wr = Ok w ->
    snd (analytical_worker O scp imems eigvals mems write (analytical_batch format h ts) q use w) =
    snd (analytical_worker O scp imems eigvals mems write (at_times scp format h ts) q use w) /\
    w_writer (fst (analytical_worker O scp imems eigvals mems write (analytical_batch format h ts) q use w)) =
    w_writer (fst (analytical_worker O scp imems eigvals mems write (at_times scp format h ts) q use w)).
  Proof.
    intros H H1. unfold analytical_worker.
    unfold analytical_start in H1. cbn in H1. destruct (create_integrator name) as [g0|e]; [|discriminate].
    cbn in H1. injection H1 as <-.
    destruct (run_sim O (i_interpolate O scp imems) (i_interpolate O scp imems) eigvals mems write steady steady_query
        (analytical_batch format h ts) (at_times scp format h ts) eq_refl eq_refl eq_refl (fun _ => eq_refl) (fun _ _ => eq_refl))
        with (w1 := World g0 (IAnalytical (Analytical f (o_zero O)) : interp scp, 0) p [] wr 0)
             (w2 := World g0 (IAnalytical (Analytical f (o_zero O)) : interp scp, 0) p [] wr 0) (queue := q) (writer := use) as [X Y].
    - intros j [i1 c1] [i2 c2] (f' & a & b & Hf & E1 & E2). cbn in E1, E2. subst. cbn.
      destruct (nth_error ts j) as [t|]; cbn; (split; [|reflexivity]).
      + exists f', a, t. auto.
      + exists f', a, b. auto.
    - unfold simW; cbn. repeat split. exists f, (o_zero O), (o_zero O). auto.
    - split; [exact Y|]. apply X.
  Qed.
End Zero.

(* ---- C46, an unsteady field ---- *)
Local Open Scope R_scope.
(** At rest at time 0, v(x) = x at all other times. *)
Definition pulse (t : R) : list R -> list R :=
  if Req_EM_T t 0 then on_rows2 (fun _ => (0, 0)) else on_rows2 (aff2 id22 (0, 0)).
Definition pulse_fn (t : R) (q : mat R) : res (mat R) := Ok (Mat (mcols q) (map (pulse t) (mrows q))).
Section Pulse.
  Variable scp : scipy R.
  Variable imems : nat -> memory (T := R).
  Definition pulses (v : list R -> list R) (s : istate scp) : Prop :=
    exists t, fst s = IAnalytical (Analytical pulse_fn t) /\ v = pulse t.
  Lemma pulses_ok : samples_field (i_interpolate Rops scp imems) pulses.
  Proof.
    intros v [i c] m (t & E & ->). cbn in E. subst i. eexists. split; [reflexivity|]. exists t. auto.
  Qed.
  Definition pulses0 (v : list R -> list R) (s : istate scp) : Prop :=
    fst s = IAnalytical (Analytical pulse_fn 0) /\ v = pulse 0.
  Lemma pulses0_ok : samples_field (i_interpolate Rops scp imems) pulses0.
  Proof. intros v [i c] m (E & ->). cbn in E. subst i. eexists. split; [reflexivity|]. split; reflexivity. Qed.

  Lemma pulse_0 : pulse 0 = on_rows2 (fun _ => (0, 0)).
  Proof. unfold pulse. destruct (Req_EM_T 0 0); [reflexivity|congruence]. Qed.
  Lemma pulse_1 t : t <> 0 -> pulse t = on_rows2 (aff2 id22 (0, 0)).
  Proof. intro H. unfold pulse. destruct (Req_EM_T t 0); [contradiction|reflexivity]. Qed.

  Lemma times_refuted eigvals mems (write : unit -> string -> list (xval R) -> mat R -> unit * res unit) :
    exists task w, nth_error (analytical_tasks Rops scp format6 2 2 1) 1 = Some task /\
      analytical_start Rops scp pulse_fn (mk2 Rops [seed1]) "euler" tt = Ok w /\
      snd (analytical_worker Rops scp imems eigvals mems write task false false w) = Ok (Some [XVal 0]) /\
      snd (analytical_worker Rops scp imems eigvals mems write (at_times scp format6 1 [1; 2]) false false w) = Ok (Some [XVal (ln 4)]) /\
      ln 4 <> 0.
  Proof.
    eexists. eexists. split; [reflexivity|]. split; [reflexivity|]. split; [|split].
    - unfold analytical_worker.
      refine (run_uniform2 (i_interpolate Rops scp imems) eigvals mems write pulses0 pulses0_ok _ _ (pulse 0) MEuler (fun _ => (0, 0)) [seed1] _ _ _ _ _ _ _ _ _ _).
      + intros j w s _ [H ->]. exists s. split; [reflexivity|]. split; [exact H|]. symmetry. apply pulse_0.
      + split; reflexivity.
      + reflexivity.
      + reflexivity.
      + reflexivity.
      + symmetry. apply mk_particles_2.
      + exact seed1_aligned.
      + exact (le_n 2).
      + exact R1_neq_R0.
    - unfold analytical_worker.
      destruct (linear2 (i_interpolate Rops scp imems) eigvals mems write pulses pulses_ok
        (Solver (at_times scp format6 1 [1; 2]) false false)
        (World (Euler None) (IAnalytical (Analytical pulse_fn (o_zero Rops)) : interp scp, 0%nat) (mk2 Rops [seed1]) [] tt 0)
        (pulse 0) MEuler id22 (0, 0) [seed1] (format6 1)) as (s & Hs & E).
      + intros j w s Hj (t & E & ->). destruct s as [i c]. cbn in E. subst i. cbn in Hj.
        assert (G : nth_error [1; 2] j = Some (INR (1 + j))).
        { destruct j as [|[|j]]; [reflexivity| |lia]. cbn. f_equal. }
        eexists. split.
        { cbn [s_source src_update at_times fst snd]. rewrite G. reflexivity. }
        exists (INR (1 + j)). split; [reflexivity|]. symmetry. apply pulse_1. apply not_0_INR. lia.
      + exists 0. split; reflexivity.
      + reflexivity.
      + reflexivity.
      + reflexivity.
      + symmetry. apply mk_particles_2.
      + exact seed1_aligned.
      + exact (le_n 2).
      + exact R1_neq_R0.
      + rewrite E. cbn [s_source at_times src_steps src_timestep length map]. clear E. do 3 f_equal.
        assert (s = 4) as ->.
        { refine (spectral_norm_2_unique _ _ _ Hs _).
          replace (propagator2 MEuler id22 _ _) with (scal22 4 id22); [apply norm_scaled; lra|].
          cbn [s_source src_steps src_timestep at_times length propagator2 pow22]. unfold scal22, mul22, add22, id22. cbn. apply m22_eq; ring. }
        unfold ftle_value. destruct (Req_EM_T 4 0); [lra|]. rewrite Rabs_R1. f_equal. cbn. field.
    - assert (0 < ln 4) by (rewrite <- ln_1; apply ln_increasing; lra). lra.
  Qed.
End Pulse.

(* ---- C49 ---- *)
Lemma rhe_bounds x : x - 1/2 <= IZR (round_half_even x) <= x + 1/2.
Proof.
  unfold round_half_even. destruct (base_Int_part x) as [H1 H2]. set (k := Int_part x) in *.
  destruct (Rlt_dec (x - IZR k) (1/2)); [lra|]. destruct (Rlt_dec (1/2) (x - IZR k)).
  - rewrite plus_IZR. lra.
  - destruct (Z.even k); rewrite ?plus_IZR; lra.
Qed.
Lemma rhe_nonneg x : 0 <= x -> (0 <= round_half_even x)%Z.
Proof.
  intro H. destruct (rhe_bounds x) as [B _]. assert (-1 < IZR (round_half_even x)) by lra.
  apply (lt_IZR (-1)) in H0. lia.
Qed.
Lemma rhe_int z : round_half_even (IZR z) = z.
Proof.
  unfold round_half_even. assert (E : Int_part (IZR z) = z).
  { destruct (base_Int_part (IZR z)) as [H1 H2]. apply le_IZR in H1.
    assert (H3 : IZR (z - 1) < IZR (Int_part (IZR z))) by (rewrite minus_IZR; lra). apply lt_IZR in H3. lia. }
  rewrite E. destruct (Rlt_dec (IZR z - IZR z) (1/2)); [reflexivity|lra].
Qed.
Lemma million : IZR (10 ^ 6) = 1000000.
Proof. reflexivity. Qed.
(** Numbers of one sign more than 1e-6 apart are shown differently. *)
Lemma format6_far x y : 1/1000000 < Rabs (Rabs x - Rabs y) -> format6 x <> format6 y.
Proof.
  intros H E. apply fixed6_inj in E. rewrite million in E.
  pose proof (Rabs_pos x) as Px. pose proof (Rabs_pos y) as Py.
  apply Z2Nat.inj in E; [|apply rhe_nonneg; lra|apply rhe_nonneg; lra].
  destruct (rhe_bounds (Rabs x * 1000000)) as [A1 A2]. destruct (rhe_bounds (Rabs y * 1000000)) as [B1 B2].
  rewrite E in A1, A2. revert H. unfold Rabs at 1. destruct (Rcase_abs (Rabs x - Rabs y)); lra.
Qed.
Lemma format6_steps i j h : 1/1000000 <= Rabs h -> i <> j -> format6 (INR i * h) <> format6 (INR j * h).
Proof.
  intros Hh Hij.
  assert (A : forall n, Rabs (INR n * h) = INR n * Rabs h).
  { intro n. rewrite Rabs_mult, (Rabs_pos_eq (INR n)) by apply pos_INR. reflexivity. }
  destruct (Req_EM_T (Rabs h) (1/1000000)) as [E|E].
  - (* exactly one millionth: no rounding *)
    intro F. apply fixed6_inj in F. rewrite million, !A, E in F.
    replace (INR i * (1/1000000) * 1000000) with (IZR (Z.of_nat i)) in F by (rewrite INR_IZR_INZ; field).
    replace (INR j * (1/1000000) * 1000000) with (IZR (Z.of_nat j)) in F by (rewrite INR_IZR_INZ; field).
    rewrite !rhe_int, !Nat2Z.id in F. contradiction.
  - apply format6_far. rewrite !A. replace (INR i * Rabs h - INR j * Rabs h) with ((INR i - INR j) * Rabs h) by ring.
    rewrite Rabs_mult, Rabs_Rabsolu.
    assert (1 <= Rabs (INR i - INR j)).
    { rewrite !INR_IZR_INZ, <- minus_IZR, <- abs_IZR. apply IZR_le. lia. }
    apply Rlt_le_trans with (1 * Rabs h); [lra|]. apply Rmult_le_compat_r; [apply Rabs_pos|assumption].
Qed.
Lemma format6_collide x : 0 <= x -> x < 1/2000000 -> format6 x = format6 0.
Proof.
  intros H1 H2. unfold format6. rewrite million. f_equal.
  - destruct (Rlt_dec x 0); [lra|]. destruct (Rlt_dec 0 0); [lra|reflexivity].
  - f_equal. rewrite (Rabs_pos_eq x H1), Rabs_R0. replace (0 * 1000000) with (IZR 0) by (cbn; ring). rewrite rhe_int.
    destruct (rhe_bounds (x * 1000000)) as [A1 A2]. assert (P : (0 <= round_half_even (x * 1000000))%Z) by (apply rhe_nonneg; lra).
    assert (Q : IZR (round_half_even (x * 1000000)) < 1) by lra. apply (lt_IZR _ 1) in Q. lia.
Qed.

(** The id of task [i]. *)
Lemma task_id (scp : scipy R) m n h i task : (0 < n)%nat ->
  nth_error (analytical_tasks Rops scp format6 (Z.of_nat m) (Z.of_nat n) h) i = Some task ->
  src_id task = Ok (format6 (INR i * h)).
Proof.
  intros Hn H. unfold analytical_tasks in H. rewrite nth_error_map in H.
  destruct (times_real m n h) as [L Ht].
  destruct (nth_error (time_batches Rops (Z.of_nat m) (Z.of_nat n) h) i) as [ts|] eqn:E; [|discriminate].
  injection H as <-. assert (Hi : (i < m)%nat) by (rewrite <- L; apply nth_error_Some; congruence).
  destruct (Ht i Hi) as (ts' & E' & Lt & Hj). rewrite E' in E. injection E as <-.
  specialize (Hj 0%nat Hn). destruct ts' as [|t0 ts']; [discriminate|]. cbn in Hj |- *. injection Hj as ->. rewrite Nat.add_0_r. reflexivity.
Qed.
Lemma ids_distinct (scp : scipy R) m n h i j a b : (0 < n)%nat -> 1/1000000 <= Rabs h -> i <> j ->
  nth_error (analytical_tasks Rops scp format6 (Z.of_nat m) (Z.of_nat n) h) i = Some a ->
  nth_error (analytical_tasks Rops scp format6 (Z.of_nat m) (Z.of_nat n) h) j = Some b ->
  src_id a <> src_id b.
Proof.
  intros Hn Hh Hij Ha Hb E. rewrite (task_id scp m n h i a Hn Ha), (task_id scp m n h j b Hn Hb) in E. injection E as E.
  exact (format6_steps i j h Hh Hij E).
Qed.
Lemma ids_collide (scp : scipy R) n h : (0 < n)%nat -> 0 < h < 1/2000000 -> exists a b,
  nth_error (analytical_tasks Rops scp format6 2 (Z.of_nat n) h) 0 = Some a /\
  nth_error (analytical_tasks Rops scp format6 2 (Z.of_nat n) h) 1 = Some b /\ src_id a = src_id b.
Proof.
  intros Hn Hh. assert (L : length (analytical_tasks Rops scp format6 2 (Z.of_nat n) h) = 2%nat) by reflexivity.
  destruct (nth_error (analytical_tasks Rops scp format6 2 (Z.of_nat n) h) 0) as [a|] eqn:Ea; [|apply nth_error_None in Ea; lia].
  destruct (nth_error (analytical_tasks Rops scp format6 2 (Z.of_nat n) h) 1) as [b|] eqn:Eb; [|apply nth_error_None in Eb; lia].
  exists a, b. split; [reflexivity|]. split; [reflexivity|].
  rewrite (task_id scp 2 n h 0 a Hn Ea), (task_id scp 2 n h 1 b Hn Eb). f_equal.
  rewrite Rmult_0_l, Rmult_1_l. symmetry. apply format6_collide; lra.
Qed.
