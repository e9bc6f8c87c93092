(** Runs of the command line program on data at scattered points, in binary64. *)
From Coq Require Import Reals Lia Lra Psatz Floats.
From Verif Require Import Base Num NdArray NdFacts Text Particles Jacobian Ftle Integrate GridInterp Interpolate Readers DataSource Solver FileRun Writers Batches FileUtils
  Hyper Manager Monitor Executor ManagerRun Jobs Decorators Program SpecExecutor SpecWriters SpecProgram SpecSeeds SpecInterp SpecFtle SpecGrid
  SpecFiles SpecIntegrate SpecOrder SpecConverge SpecFloat64 SpecAccuracy SpecFloatGrid SpecFloatJac SpecRounding SpecFloatRun SpecGridRun SpecGridProgram SpecScatter SpecScatterProgram
  FtleAccuracyMain ScipyFacts GridProgramMain ScatterMain WindowRun.
Local Open Scope R_scope.

Lemma scatter_created lnF (scp : scipy PrimFloat.float) name k : case_variant name (option_of k) -> exists ip, create_interpolator (Fops lnF) scp name None None = Ok ip.
Proof.
  intro Hn. destruct (create_spec (Fops lnF) scp name None None) as (_ & _ & Hc & Hl & Hne & _). destruct k; cbn [option_of] in Hn.
  - rewrite (Hc Hn). eexists. reflexivity.
  - rewrite (Hl Hn). eexists. reflexivity.
  - rewrite (Hne Hn). eexists. reflexivity.
Qed.

Lemma scatter_program lnF (scp : scipy PrimFloat.float) parse_float imems mems eigvals texts inputs c a :
  accurate_log lnF -> parse_args parse_float c = Ok a ->
  forall m hF h n vs cs ps fmt name k,
  integrator_name a = Some (method_name m) -> interpolator_name a = Some name -> case_variant name (option_of k) ->
  flow_grid_shape a = None -> output_format a = Some fmt -> (fmt = "mat" \/ fmt = "vtk")%string -> (0 < num_processes a)%Z ->
  Manager.snapshot_timestep a = hF -> represents hF h -> represents (flow_map_period a) ((INR n - 1) * Rabs h) ->
  listed texts (list_velocity_files a) vs -> listed texts (list_coordinate_files a) cs -> listed texts (list_particle_files a) ps ->
  (n <= length vs)%nat -> NoDup (map stem vs) -> cs <> [] -> ps <> [] ->
  forall (D : R * R -> Prop) B M delta L rho v t0, bounded_by B D -> tame_on_grid m B M delta L rho n h ->
  lipschitz_field 2 L v ->
  (forall t q, between t0 (t0 + INR (length vs) * h) t -> D q -> sized M (v t (row2 q))) ->
  scatter_series inputs scp k D delta v t0 h (run_order h vs) (run_order h cs) ->
  forall gs Gs, (forall p, In p ps -> seeded_in inputs rho D p (gs p) (Gs p)) ->
  (forall p, In p ps -> fits (particles_grid_shape a) (length (Gs p))) ->
  forall phi K J V E, 0 <= K -> 0 <= J -> 0 <= V -> E = rounding_bound n h delta B L + truncation m n h L K J V -> E <= 2 ^ 199 ->
  (forall i p, (i + n <= length vs)%nat -> nth_error (run_order h ps) (i mod length ps) = Some p ->
     let t := t0 + INR i * h in
     (forall G x, In G (Gs p) -> In x (corners2 G) -> flow_along (regular m v t (t + INR n * h) K J V) v t (t + INR n * h) (phi i) x) /\
     Forall (fun G => exists s, resolved2 E (phi i) G s) (Gs p)) ->
  forall fs, settled_files fs ->
  (exists fs', main_ends (Fops lnF) scp parse_float imems mems eigvals texts inputs c fs (false, Ok tt) fs') /\
  forall b r fs', main_ends (Fops lnF) scp parse_float imems mems eigvals texts inputs c fs (b, r) fs' ->
  r = Ok tt /\
  (b = true -> exists mg ts s, manager_init (Fops lnF) scp texts a = Ok mg /\ manager_batches (Fops lnF) scp mg = Ok ts /\
     Executor.steps (map (manager_task (Fops lnF) scp imems mems eigvals inputs mg) (indexed ts)) (num_processes a) (start [] false fs) s /\ killed s) /\
  (b = false ->
     (forall i f p, (i + n <= length vs)%nat -> nth_error (run_order h vs) i = Some f -> nth_error (run_order h ps) (i mod length ps) = Some p ->
        exists xs x,
          Forall2 (fun G x => exists s, spectral_norm_2 (gradient2 G (image2 (phi i) G)) s /\ ftle_within E (side2 G) s ((INR n - 1) * Rabs h) x) (Gs p) xs /\
          fs' (result_file (experiment_name a) fmt (particles_grid_shape a) f) = Some (Whole x) /\
          field_file (Fops lnF) fmt (particles_grid_shape a) (length (Gs p)) (map XVal xs) (arr2 (map (mean2 (Fops lnF)) (gs p))) x) /\
     (forall q, (forall i f, (i + n <= length vs)%nat -> nth_error (run_order h vs) i = Some f -> q <> result_file (experiment_name a) fmt (particles_grid_shape a) f) -> fs' q = fs q)).
Proof.
  intros Hln Ha m hF h n vs cs ps fmt name kind Im Ii Hname If Io Hfmt Hproc EhF Rh Rp Lv Lc Lp Hn Nv Hcs Hps
    D B M delta L rho v t0 HB Ht HL Hsp Hser gs Gs Hseed Hlay phi K J V E HK HJ HV EE HE Hphi fs Hset.
  pose proof Ht as (_ & _ & _ & _ & Hn2 & Hn47 & Hnh & _).
  assert (Hh0 : h <> 0).
  { intros ->. rewrite Rabs_R0, Rmult_0_r in Hnh. pose proof (pow_lt 2 199 ltac:(lra)). pose proof (Rinv_0_lt_compat _ H). lra. }
  destruct (scatter_created lnF scp name kind Hname) as (ip & Hip).
  destruct (windows_program lnF scp parse_float imems mems eigvals texts inputs c a
    (fun i p x => exists xs,
          Forall2 (fun G x => exists s, spectral_norm_2 (gradient2 G (image2 (phi i) G)) s /\ ftle_within E (side2 G) s ((INR n - 1) * Rabs h) x) (Gs p) xs /\
          field_file (Fops lnF) fmt (particles_grid_shape a) (length (Gs p)) (map XVal xs) (arr2 (map (mean2 (Fops lnF)) (gs p))) x) Ha)
    with (m := m) (hF := hF) (h := h) (n := n) (vs := vs) (cs := cs) (ps := ps) (fmt := fmt) (iname := name) (ip := ip) (fs := fs) as (R0 & RR); auto.
  - rewrite If. exact Hip.
  - intros i p first rest coordinates src w wr Bi Hp Hpin Hlen Hv Hc Hsrc Hwr W1 W2 W3 r.
    destruct (Hseed p Hpin) as ((d & Ed & Hd) & HG & HS & HC). pose proof (Hlay p Hpin) as Hl. destruct (Hphi i p Bi Hp) as [Hflow Hres].
    destruct (scatter_run_flow lnF scp (imems i) eigvals (mems i) (write (Fops lnF) wr) inputs name None kind D m B M delta L rho n h hF v
      (t0 + INR i * h) Hln Hname HB Ht Rh HL) with (first := first) (rest := rest) (coordinates := coordinates) (particle := p) (period := Z.of_nat n)
      (src := src) (seeds := d) (gs := gs p) (Gs := Gs p) (phi := phi i) (K := K) (J := J) (V := V) (E := E) (queue := true) (writer := true) (w := w)
      as (xs & Hxs & _ & Hw); auto.
    + intros t q Hbt Hq. apply Hsp; auto. exact (window_times t0 h i n (length vs) t Bi Hbt).
    + intros j Hj. rewrite Hlen in Hj. rewrite (Hv j Hj), (Hc j Hj).
      assert (G1 : (i + j < length (run_order h vs))%nat) by (rewrite run_order_length; lia). apply nth_error_Some in G1.
      assert (G2 : ((i + j) mod length cs < length (run_order h cs))%nat).
      { rewrite run_order_length. apply Nat.mod_upper_bound. destruct cs; [congruence|discriminate]. }
      apply nth_error_Some in G2.
      destruct (nth_error (run_order h vs) (i + j)) as [fv|] eqn:Ev; [|congruence].
      destruct (nth_error (run_order h cs) ((i + j) mod length cs)) as [fc|] eqn:Ec; [|congruence].
      destruct (Hser (i + j)%nat fv fc Ev) as (dv & dc & points & values & answer & D1 & D2 & D3 & D4 & D5 & D6 & D7); [rewrite run_order_length; exact Ec|].
      exists fv, fc, dv, dc, points, values. do 7 (split; [assumption || reflexivity|]). exists answer. split; [exact D6|].
      replace (t0 + INR i * h + INR j * h) with (t0 + INR (i + j) * h) by (rewrite plus_INR; ring). exact D7.
    + etransitivity; [exact Hip|]. apply (f_equal Ok). symmetry. exact (f_equal fst W1).
    + specialize (Hw eq_refl). cbv zeta in Hw. fold r in Hw. destruct Hw as [Hw1 Hw2].
      destruct (layout_write (Fops lnF) fmt (path_join "outputs" (experiment_name a)) (particles_grid_shape a) (length (Gs p)) wr (stem first) (map XVal xs)
        (arr2 (map (mean2 (Fops lnF)) (gs p))) Hwr Hl) as (st & x & Ew & Hfile & HA).
      { apply seeds_arr2; [exact (Fops lnF)|rewrite map_length; symmetry; exact (Forall2_len _ _ _ Hxs)|rewrite map_length; exact (Forall2_len _ _ _ HG)]. }
      rewrite W3, Ew in Hw1, Hw2. cbn [fst snd bind] in Hw1, Hw2. exists x. split; [exact Hw2|]. rewrite Hw1. split; [exact Hfile|]. exists xs. auto.
  - split; [exact R0|]. intros b r fs' Hends. destruct (RR b r fs' Hends) as (R1 & R2 & R3). split; [exact R1|]. split; [exact R2|].
    intro Hb'. destruct (R3 Hb') as [W1 W2]. split; [|exact W2].
    intros i f p Bi Hf Hp. destruct (W1 i f p Bi Hf Hp) as (x & Ex & xs & Q1 & Q2). exists xs, x. auto.
Qed.
