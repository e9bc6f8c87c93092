(** What the notebooks show: the image of a run on the seeds of the recipe (Notebook.v). *)
From Coq Require Import String Lia Reals Lra.
From Verif Require Import Base Num NdArray NdFacts Particles Jacobian Ftle Integrate Interpolate DataSource Solver FileRun AnalyticalRun Writers Batches
  Monitor Executor Jobs SpecExecutor SpecProgram SpecSeeds SpecFtle SpecSolver SpecIntegrate SpecConverge SpecRounding SpecGridProgram
  ParticleFacts JacobianFacts FtleFacts2 FtleFacts3 SolverFacts SolverField SolverLinear BatchFacts ConvergeMain GridProgramMain ApiFacts AnalyticalProgramMain MonitorFacts
  Readers SpecFiles ReaderFacts Notebook SpecNotebook NotebookFacts.
Local Open Scope list_scope.
Local Open Scope R_scope.

Lemma group2_eq (a b c d a' b' c' d' : R * R) : a = a' -> b = b' -> c = c' -> d = d' -> Group2 a b c d = Group2 a' b' c' d'.
Proof. congruence. Qed.
Lemma shifted_around2 s x y : shifted2 Rops s x y = around2 s x y.
Proof. unfold shifted2, around2, o_zero. cbn. apply group2_eq; f_equal; ring. Qed.
Lemma shifted_around3 s x y z : shifted3 Rops s x y z = around3 s x y z.
Proof. reflexivity. Qed.
Lemma groups_around2 s xs ys : groups2 Rops s xs ys = map (fun c => around2 s (fst c) (snd c)) (cells2 xs ys).
Proof. rewrite groups2_cells. apply map_ext. intros c. apply shifted_around2. Qed.
Lemma groups_around3 s xs ys zs : groups3 Rops s xs ys zs = map (fun c => around3 s (fst (fst c)) (snd (fst c)) (snd c)) (cells3 xs ys zs).
Proof. apply groups3_cells. Qed.

Lemma mean_around2 s x y : mean2 Rops (around2 s x y) = (x, y).
Proof. unfold mean2, around2. cbn. f_equal; field. Qed.
Lemma mean_around3 s x y z : mean3 Rops (around3 s x y z) = (x, y, z).
Proof. unfold mean3, around3. cbn. f_equal; [f_equal|]; field. Qed.

Lemma seeds_grid2 xs ys s : exists pos p, positions_2d Rops xs ys s = Ok pos /\ mk_particles Rops pos = Ok p /\
  particles_len p = (length ys * length xs)%nat /\
  forall r c x y, nth_error ys r = Some y -> nth_error xs c = Some x ->
    nth_error (mrows (initial_centroid p)) (r * length xs + c) = Some [x; y] /\
    nth_error (mrows (initial_delta_right_left p)) (r * length xs + c) = Some [2 * s; 0] /\
    nth_error (mrows (initial_delta_top_bottom p)) (r * length xs + c) = Some [0; 2 * s].
Proof.
  exists (layout2 (groups2 Rops s xs ys)), (mk2 Rops (groups2 Rops s xs ys)). split; [apply positions_rows|].
  split; [apply mk_particles_2|]. rewrite len_2, groups_around2, map_length, length_cells2. split; [reflexivity|].
  intros r c x y Hy Hx. pose proof (nth_cells2 xs ys r c x y Hy Hx) as H. unfold mk2, arr2. cbn [initial_centroid initial_delta_right_left initial_delta_top_bottom mrows].
  rewrite !map_map, !nth_error_map, H. cbn [option_map fst snd]. rewrite mean_around2. split; [reflexivity|].
  split; unfold rl2, tb2, pt2, around2; cbn; do 2 f_equal; try ring; f_equal; ring.
Qed.

Lemma seeds_grid3 xs ys zs s : exists pos p, positions_3d Rops xs ys zs s = Ok pos /\ mk_particles Rops pos = Ok p /\
  particles_len p = (length xs * (length ys * length zs))%nat /\
  forall i j k x y z, nth_error xs i = Some x -> nth_error ys j = Some y -> nth_error zs k = Some z ->
    let e := (i * (length ys * length zs) + (j * length zs + k))%nat in
    nth_error (mrows (initial_centroid p)) e = Some [x; y; z] /\
    nth_error (mrows (initial_delta_right_left p)) e = Some [2 * s; 0; 0] /\
    nth_error (mrows (initial_delta_top_bottom p)) e = Some [0; 2 * s; 0] /\
    nth_error (mrows (initial_delta_front_back p)) e = Some [0; 0; 2 * s].
Proof.
  exists (layout3 (groups3 Rops s xs ys zs)), (mk3 Rops (groups3 Rops s xs ys zs)). split; [apply positions_rows3|].
  split; [apply mk_particles_3|]. rewrite len_3, groups_around3, map_length, length_cells3. split; [reflexivity|].
  intros i j k x y z Hx Hy Hz. pose proof (nth_cells3 xs ys zs i j k x y z Hx Hy Hz) as H. cbv zeta. unfold mk3, arr3.
  cbn [initial_centroid initial_delta_right_left initial_delta_top_bottom initial_delta_front_back mrows].
  rewrite !map_map, !nth_error_map, H. cbn [option_map fst snd]. rewrite mean_around3. split; [reflexivity|].
  repeat split; unfold rl3, tb3, fb3, pt3, around3; cbn; do 2 f_equal; try ring; f_equal; try ring; f_equal; ring.
Qed.

Lemma aligned2 s x y : s <> 0 -> axis_aligned2 (around2 s x y).
Proof. intro H. unfold axis_aligned2, around2. cbn. repeat split; intro; lra. Qed.
Lemma aligned3 s x y z : s <> 0 -> axis_aligned3 (around3 s x y z).
Proof. intro H. unfold axis_aligned3, around3, v0, v1, v2. cbn. repeat split; intro; lra. Qed.
Lemma gradient_around2 phi s x y : s <> 0 -> gradient2 (around2 s x y) (image2 phi (around2 s x y)) = central2 phi s x y.
Proof.
  intro H. unfold gradient2, central2, around2, image2. cbn [g_left g_right g_top g_bottom fst snd].
  replace (x + s - (x - s)) with (2 * s) by ring. replace (y + s - (y - s)) with (2 * s) by ring. reflexivity.
Qed.
Lemma gradient_around3 phi s x y z : s <> 0 -> gradient3 (around3 s x y z) (image3 phi (around3 s x y z)) = central3 phi s x y z.
Proof.
  intro H. unfold gradient3, central3, around3, image3, v0, v1, v2. cbn [h_left h_right h_top h_bottom h_front h_back fst snd].
  replace (x + s - (x - s)) with (2 * s) by ring. replace (y + s - (y - s)) with (2 * s) by ring. replace (z + s - (z - s)) with (2 * s) by ring. reflexivity.
Qed.

(** ** Runs of AnalyticalSolver in exact arithmetic *)
Section Shown.
  Variables (scp : scipy R) (format : R -> string) (imems mems : nat -> nat -> memory (T := R)) (eigvals : m33 R -> res (R * R * R)) (wr : writer).
  Variables (fn : R -> mat R -> res (mat R)) (g : list R -> list R).
  Hypothesis Hfn : forall q, fn 0 q = Ok (Mat (mcols q) (map g (mrows q))).
  Variables (m : method) (n : nat) (h : R).
  Hypothesis Hn : (2 <= n)%nat.
  Hypothesis Hh : h <> 0.

  Definition at_zero (v : list R -> list R) (s : istate scp) : Prop := fst s = IAnalytical (Analytical fn 0) /\ v = g.
  Lemma at_zero_samples im : samples_field (i_interpolate Rops scp im) at_zero.
  Proof.
    intros v [i c] q (E & ->). cbn in E. subst i. unfold i_interpolate. cbn [fst snd interpolate velocity_fn a_time]. rewrite Hfn.
    eexists. split; [reflexivity|]. split; reflexivity.
  Qed.
  Lemma at_zero_presents ts : presents_fields at_zero (analytical_batch format h ts) (fun _ => g).
  Proof. intros j w s Hj [E _]. exists s. split; [reflexivity|]. split; [exact E|reflexivity]. Qed.

  Lemma start_real p w : analytical_start Rops scp fn p (method_name m) (WState (T := R) None no_files) = Ok w ->
    w = World (fresh m) (IAnalytical (Analytical fn 0) : interp scp, 0%nat) p [] (WState (T := R) None no_files) 0.
  Proof. intro H. destruct m; injection H as <-; reflexivity. Qed.

  Lemma sources_real count i t : nth_error (analytical_tasks Rops scp format count (Z.of_nat n) h) i = Some t ->
    exists ts id, t = analytical_batch format h ts /\ length ts = n /\ src_id t = Ok id.
  Proof.
    intros H. assert (Hi : (i < Z.to_nat count)%nat).
    { rewrite <- (sources_length Rops scp format count (Z.of_nat n) h). apply nth_error_Some. congruence. }
    assert (E : count = Z.of_nat (Z.to_nat count)) by lia.
    rewrite E in H. unfold analytical_tasks in H. rewrite nth_error_map in H.
    destruct (times Rops (Z.to_nat count) n h) as [_ Ht]. destruct (Ht i Hi) as (ts & E1 & E2 & E3).
    rewrite E1 in H. injection H as <-. exists ts. destruct ts as [|x ts]; [cbn in E2; lia|]. exists (format x). auto.
  Qed.

  (** One field for the seeds around the points [cs]. *)
  Lemma field_around2 phi s (cs : list (R * R)) w write queue im mem ts id : s <> 0 ->
    (forall q, path Rops m (steps (fun _ => g) h n) (row2 q) = row2 (phi q)) ->
    analytical_start Rops scp fn (mk2 Rops (map (fun c => around2 s (fst c) (snd c)) cs)) (method_name m) (WState (T := R) None no_files) = Ok w ->
    length ts = n -> src_id (analytical_batch (S := istate scp) format h ts) = Ok id ->
    exists f, snd (analytical_worker Rops scp im eigvals mem write (analytical_batch format h ts) queue false w) = Ok (Some f) /\
      Forall2 (fun c o => exists sg, spectral_norm_2 (central2 phi s (fst c) (snd c)) sg /\ o = ftle_value sg ((INR n - 1) * Rabs h)) cs f.
  Proof.
    intros Hs Hphi Hw Hts Hid. apply start_real in Hw. subst w. set (gs := map _ cs).
    assert (E := run_moved2 Rops (i_interpolate Rops scp im) eigvals mem write at_zero (at_zero_samples im) (Solver (analytical_batch format h ts) queue false) (fun _ => g) m
      (World (fresh m) (IAnalytical (Analytical fn 0) : interp scp, 0%nat) (mk2 Rops gs) [] (WState (T := R) None no_files) 0) gs id g phi
      (at_zero_presents ts) (conj eq_refl eq_refl) eq_refl Hid eq_refl eq_refl).
    unfold run_fields in E. cbn [s_source analytical_batch src_steps src_timestep] in E. rewrite Hts in E. specialize (E Hphi).
    rewrite compute_ftle_2, jacs_gradients2 in E.
    2:{ unfold gs. apply Forall_forall. intros x Hx. apply in_map_iff in Hx as (c & <- & _). apply aligned2, Hs. }
    cbn [bind] in E. change (o_mul Rops (o_ofZ Rops (Z.of_nat n - 1)) (o_abs Rops h)) with (IZR (Z.of_nat n - 1) * Rabs h) in E. rewrite period_R in E.
    destruct (ftle2_spec (map (fun x => gradient2 x (image2 phi x)) gs) ((INR n - 1) * Rabs h) (period_nz n h Hn Hh)) as (out & E1 & E2).
    rewrite E1 in E. cbn [bind] in E. exists out. split; [exact E|]. clear - E2 Hs. unfold gs in E2. rewrite map_map in E2.
    revert out E2. induction cs as [|c cs IH]; intros out E2; inversion E2; subst; constructor; [|auto].
    rewrite gradient_around2 in * by exact Hs. assumption.
  Qed.
  Lemma field_around3 phi s (cs : list (R * R * R)) w write queue im mem ts id : eigvals_ok eigvals -> s <> 0 ->
    (forall q, path Rops m (steps (fun _ => g) h n) (row3 q) = row3 (phi q)) ->
    analytical_start Rops scp fn (mk3 Rops (map (fun c => around3 s (fst (fst c)) (snd (fst c)) (snd c)) cs)) (method_name m) (WState (T := R) None no_files) = Ok w ->
    length ts = n -> src_id (analytical_batch (S := istate scp) format h ts) = Ok id ->
    exists f, snd (analytical_worker Rops scp im eigvals mem write (analytical_batch format h ts) queue false w) = Ok (Some f) /\
      Forall2 (fun c o => exists sg, spectral_norm_3 (central3 phi s (fst (fst c)) (snd (fst c)) (snd c)) sg /\ o = ftle_value sg ((INR n - 1) * Rabs h)) cs f.
  Proof.
    intros He Hs Hphi Hw Hts Hid. apply start_real in Hw. subst w. set (gs := map _ cs).
    assert (E := run_moved3 Rops (i_interpolate Rops scp im) eigvals mem write at_zero (at_zero_samples im) (Solver (analytical_batch format h ts) queue false) (fun _ => g) m
      (World (fresh m) (IAnalytical (Analytical fn 0) : interp scp, 0%nat) (mk3 Rops gs) [] (WState (T := R) None no_files) 0) gs id g phi
      (at_zero_presents ts) (conj eq_refl eq_refl) eq_refl Hid eq_refl eq_refl).
    unfold run_fields in E. cbn [s_source analytical_batch src_steps src_timestep] in E. rewrite Hts in E. specialize (E Hphi).
    rewrite compute_ftle_3, jacs_gradients3 in E.
    2:{ unfold gs. apply Forall_forall. intros x Hx. apply in_map_iff in Hx as (c & <- & _). apply aligned3, Hs. }
    cbn [bind] in E. change (o_mul Rops (o_ofZ Rops (Z.of_nat n - 1)) (o_abs Rops h)) with (IZR (Z.of_nat n - 1) * Rabs h) in E. rewrite period_R in E.
    destruct (ftle3_spec eigvals (map (fun x => gradient3 x (image3 phi x)) gs) ((INR n - 1) * Rabs h) He (period_nz n h Hn Hh)) as (out & E1 & E2).
    rewrite E1 in E. cbn [bind] in E. exists out. split; [exact E|]. clear - E2 Hs. unfold gs in E2. rewrite map_map in E2.
    revert out E2. induction cs as [|c cs IH]; intros out E2; inversion E2; subst; constructor; [|auto].
    rewrite gradient_around3 in * by exact Hs. assumption.
  Qed.
End Shown.

(** All fields of a run, when every task is known to give a field with some property. *)
Lemma returns_each (scp : scipy R) format imems mems eigvals wr fn m n h p w count processes (Q : list (xval R) -> Prop) N :
  (1 <= count)%Z -> (0 < processes)%Z -> (2 <= n)%nat ->
  analytical_start Rops scp fn p (method_name m) (WState (T := R) None no_files) = Ok w ->
  (forall f, Q f -> length f = N) ->
  (forall i ts id, length ts = n -> src_id (analytical_batch (S := istate scp) format h ts) = Ok id ->
     exists f, snd (analytical_worker Rops scp (imems i) eigvals (mems i) (write Rops wr) (analytical_batch format h ts) true false w) = Ok (Some f) /\ Q f) ->
  let tasks := map (fun t => job (fst t) (analytical_worker Rops scp (imems (fst t)) eigvals (mems (fst t)) (write Rops wr) (snd t) true false) w)
                 (indexed (analytical_tasks Rops scp format count (Z.of_nat n) h)) in
  forall q stop (fs : files R),
  (exists s rs, Executor.steps tasks processes (start q stop fs) s /\ st_main s = Exited (Ok rs)) /\
  forall s r, Executor.steps tasks processes (start q stop fs) s -> st_main s = Exited r ->
    (r = Err BrokenProcessPool /\ killed s) \/
    exists rows, length rows = Z.to_nat count /\ Forall Q rows /\
      ((count = 1)%Z -> exists f, rows = [f] /\ api_run false r = Ok (ReturnsField f)) /\
      ((2 <= count)%Z -> api_run false r = Ok (ReturnsStack rows)).
Proof.
  intros Hc Hp Hn Hw HN HQ tasks q stop fs.
  assert (Ewf : with_files w no_files = w) by (pose proof (start_real scp fn m p w Hw) as E; rewrite E; reflexivity).
  assert (Hrow : forall l i0, (forall i t, nth_error l i = Some t -> nth_error (analytical_tasks Rops scp format count (Z.of_nat n) h) (i0 + i) = Some t) ->
    exists rows, length rows = length l /\ Forall Q rows /\ forall i t, nth_error l i = Some t ->
      exists f, nth_error rows i = Some f /\ snd (analytical_worker Rops scp (imems (i0 + i)%nat) eigvals (mems (i0 + i)%nat) (write Rops wr) t true false w) = Ok (Some f)).
  { induction l as [|t l IH]; intros i0 Hl.
    - exists []. split; [reflexivity|]. split; [constructor|]. intros [|i] t H; discriminate.
    - destruct (IH (S i0)) as (rows & L & F & G). { intros i t' H. rewrite Nat.add_succ_comm. exact (Hl (S i) t' H). }
      destruct (sources_real scp format n h Hn count _ t (Hl 0%nat t eq_refl)) as (ts & id & -> & Lt & Hid).
      destruct (HQ i0 ts id Lt Hid) as (f & Ef & Qf). exists (f :: rows). split; [cbn; lia|]. split; [constructor; assumption|].
      intros [|i] t' H.
      + injection H as <-. exists f. rewrite Nat.add_0_r. split; [reflexivity|exact Ef].
      + destruct (G i t' H) as (f' & E1 & E2). exists f'. split; [exact E1|]. rewrite <- Nat.add_succ_comm. exact E2. }
  destruct (Hrow (analytical_tasks Rops scp format count (Z.of_nat n) h) 0%nat (fun i t H => H)) as (rows & L & F & G). clear Hrow.
  rewrite sources_length in L.
  set (row := fun i => nth i rows []).
  assert (HR : forall i t, nth_error (analytical_tasks Rops scp format count (Z.of_nat n) h) i = Some t ->
    snd (analytical_worker Rops scp (imems i) eigvals (mems i) (write Rops wr) t true false (with_files w no_files)) = Ok (Some (row i))).
  { intros i t Hi. destruct (G i t Hi) as (f & E1 & E2). rewrite Ewf. unfold row. rewrite (nth_error_nth _ _ _ E1). exact E2. }
  destruct (returns_total Rops scp format imems mems eigvals wr w count (Z.of_nat n) h processes Hc Hp row N q stop fs) as [H1 H2].
  { intros i Hi. apply HN. rewrite Forall_forall in F. apply F. unfold row. apply nth_In. lia. }
  { exact HR. }
  split; [exact H1|]. intros s r Hs Hm. destruct (H2 s r Hs Hm) as [H|H]; [left; exact H|right].
  assert (Er : map row (seq 0 (Z.to_nat count)) = rows).
  { apply nth_error_ext; [rewrite map_length, seq_length; lia|]. intros i Hi. rewrite map_length, seq_length in Hi.
    rewrite nth_error_map, (nth_error_nth' _ 0%nat) by (rewrite seq_length; exact Hi). rewrite seq_nth by exact Hi. cbn [option_map Nat.add].
    unfold row. symmetry. apply nth_error_nth'. lia. }
  exists rows. split; [exact L|]. split; [exact F|]. split.
  - intros ->. rewrite Z.eqb_refl in H. destruct rows as [|f [|]]; try discriminate. exists f. split; [reflexivity|exact H].
  - intros Hc2. rewrite H. destruct (Z.eqb_spec count 1); [lia|]. rewrite Er. reflexivity.
Qed.

Lemma image2_shows {A} (xs ys : list R) (P : R * R -> A -> Prop) f : Forall2 P (cells2 xs ys) f ->
  exists img, image_2d xs ys f = Ok img /\ shape img = [length ys; length xs] /\
    forall r c x y, nth_error ys r = Some y -> nth_error xs c = Some x -> exists o, nd_get img [r; c] = Ok o /\ P (x, y) o.
Proof.
  intro F. destruct (image_rows xs ys f) as (img & E & S & G). { rewrite <- (MonitorFacts.Forall2_length F). apply length_cells2. }
  exists img. split; [exact E|]. split; [exact S|]. intros r c x y Hy Hx.
  rewrite G; [|apply nth_error_Some; congruence|apply nth_error_Some; congruence].
  pose proof (nth_cells2 xs ys r c x y Hy Hx) as H. clear - F H. revert H. generalize (r * length xs + c)%nat as i. intros i H.
  revert i H. induction F as [|p o ps os Hp F IH]; intros [|i] H; cbn in *; try discriminate; [injection H as ->; exists o; auto|]. exact (IH i H).
Qed.
Lemma image3_shows {A} (xs ys zs : list R) (P : R * R * R -> A -> Prop) f : Forall2 P (cells3 xs ys zs) f ->
  exists img, image_3d xs ys zs f = Ok img /\ shape img = [length xs; length ys; length zs] /\
    forall i j k x y z, nth_error xs i = Some x -> nth_error ys j = Some y -> nth_error zs k = Some z -> exists o, nd_get img [i; j; k] = Ok o /\ P (x, y, z) o.
Proof.
  intro F. destruct (image_rows3 xs ys zs f) as (img & E & S & G). { rewrite <- (MonitorFacts.Forall2_length F). apply length_cells3. }
  exists img. split; [exact E|]. split; [exact S|]. intros i j k x y z Hx Hy Hz.
  rewrite G; [|apply nth_error_Some; congruence|apply nth_error_Some; congruence|apply nth_error_Some; congruence].
  pose proof (nth_cells3 xs ys zs i j k x y z Hx Hy Hz) as H. clear - F H. revert H. generalize (i * (length ys * length zs) + (j * length zs + k))%nat as e. intros e H.
  revert e H. induction F as [|p o ps os Hp F IH]; intros [|e] H; cbn in *; try discriminate; [injection H as ->; exists o; auto|]. exact (IH e H).
Qed.

Lemma notebook_image2 (scp : scipy R) format imems mems eigvals wr fn v m n h s xs ys phi pos p w count processes :
  (forall q, fn 0 q = Ok (Mat (mcols q) (map (on_rows2 v) (mrows q)))) ->
  (2 <= n)%nat -> h <> 0 -> s <> 0 -> (1 <= count)%Z -> (0 < processes)%Z ->
  (forall q, path Rops m (steps (fun _ => on_rows2 v) h n) (row2 q) = row2 (phi q)) ->
  positions_2d Rops xs ys s = Ok pos -> mk_particles Rops pos = Ok p ->
  analytical_start Rops scp fn p (method_name m) (WState (T := R) None no_files) = Ok w ->
  let tasks := map (fun t => job (fst t) (analytical_worker Rops scp (imems (fst t)) eigvals (mems (fst t)) (write Rops wr) (snd t) true false) w)
                 (indexed (analytical_tasks Rops scp format count (Z.of_nat n) h)) in
  forall q stop (fs : files R),
  (exists st rs, Executor.steps tasks processes (start q stop fs) st /\ st_main st = Exited (Ok rs)) /\
  forall st r, Executor.steps tasks processes (start q stop fs) st -> st_main st = Exited r ->
    (r = Err BrokenProcessPool /\ killed st) \/
    exists rows, length rows = Z.to_nat count /\
      ((count = 1)%Z -> exists f, rows = [f] /\ api_run false r = Ok (ReturnsField f)) /\
      ((2 <= count)%Z -> api_run false r = Ok (ReturnsStack rows)) /\
      forall f, In f rows -> exists img, image_2d xs ys f = Ok img /\ shape img = [length ys; length xs] /\
        forall a b x y, nth_error ys a = Some y -> nth_error xs b = Some x ->
          exists sg, spectral_norm_2 (central2 phi s x y) sg /\ nd_get img [a; b] = Ok (ftle_value sg ((INR n - 1) * Rabs h)).
Proof.
  intros Hfn Hn Hh Hs Hc Hp Hphi Epos Ep Hw tasks q stop fs.
  rewrite positions_rows in Epos. injection Epos as <-. rewrite mk_particles_2 in Ep. injection Ep as <-. rewrite groups_around2 in Hw.
  destruct (returns_each scp format imems mems eigvals wr fn m n h _ w count processes
    (fun f => Forall2 (fun c o => exists sg, spectral_norm_2 (central2 phi s (fst c) (snd c)) sg /\ o = ftle_value sg ((INR n - 1) * Rabs h)) (cells2 xs ys) f)
    (length (cells2 xs ys)) Hc Hp Hn Hw) with (q := q) (stop := stop) (fs := fs) as [H1 H2].
  - intros f F. symmetry. exact (MonitorFacts.Forall2_length F).
  - intros i ts id Hts Hid. exact (field_around2 scp format eigvals fn (on_rows2 v) Hfn m n h Hn Hh phi s (cells2 xs ys) w _ true (imems i) (mems i) ts id Hs Hphi Hw Hts Hid).
  - split; [exact H1|]. intros st r Hst Hm. destruct (H2 st r Hst Hm) as [H|(rows & L & F & R1 & R2)]; [left; exact H|right].
    exists rows. split; [exact L|]. split; [exact R1|]. split; [exact R2|]. intros f Hf. rewrite Forall_forall in F.
    destruct (image2_shows xs ys _ f (F f Hf)) as (img & E & S & G). exists img. split; [exact E|]. split; [exact S|].
    intros a b x y Hy Hx. destruct (G a b x y Hy Hx) as (o & Eo & sg & Hsg & ->). exists sg. auto.
Qed.

Lemma notebook_image3 (scp : scipy R) format imems mems eigvals wr fn v m n h s xs ys zs phi pos p w count processes :
  eigvals_ok eigvals ->
  (forall q, fn 0 q = Ok (Mat (mcols q) (map (on_rows3 v) (mrows q)))) ->
  (2 <= n)%nat -> h <> 0 -> s <> 0 -> (1 <= count)%Z -> (0 < processes)%Z ->
  (forall q, path Rops m (steps (fun _ => on_rows3 v) h n) (row3 q) = row3 (phi q)) ->
  positions_3d Rops xs ys zs s = Ok pos -> mk_particles Rops pos = Ok p ->
  analytical_start Rops scp fn p (method_name m) (WState (T := R) None no_files) = Ok w ->
  let tasks := map (fun t => job (fst t) (analytical_worker Rops scp (imems (fst t)) eigvals (mems (fst t)) (write Rops wr) (snd t) true false) w)
                 (indexed (analytical_tasks Rops scp format count (Z.of_nat n) h)) in
  forall q stop (fs : files R),
  (exists st rs, Executor.steps tasks processes (start q stop fs) st /\ st_main st = Exited (Ok rs)) /\
  forall st r, Executor.steps tasks processes (start q stop fs) st -> st_main st = Exited r ->
    (r = Err BrokenProcessPool /\ killed st) \/
    exists rows, length rows = Z.to_nat count /\
      ((count = 1)%Z -> exists f, rows = [f] /\ api_run false r = Ok (ReturnsField f)) /\
      ((2 <= count)%Z -> api_run false r = Ok (ReturnsStack rows)) /\
      forall f, In f rows -> exists img, image_3d xs ys zs f = Ok img /\ shape img = [length xs; length ys; length zs] /\
        forall a b c x y z, nth_error xs a = Some x -> nth_error ys b = Some y -> nth_error zs c = Some z ->
          exists sg, spectral_norm_3 (central3 phi s x y z) sg /\ nd_get img [a; b; c] = Ok (ftle_value sg ((INR n - 1) * Rabs h)).
Proof.
  intros He Hfn Hn Hh Hs Hc Hp Hphi Epos Ep Hw tasks q stop fs.
  rewrite positions_rows3 in Epos. injection Epos as <-. rewrite mk_particles_3 in Ep. injection Ep as <-. rewrite groups_around3 in Hw.
  destruct (returns_each scp format imems mems eigvals wr fn m n h _ w count processes
    (fun f => Forall2 (fun c o => exists sg, spectral_norm_3 (central3 phi s (fst (fst c)) (snd (fst c)) (snd c)) sg /\ o = ftle_value sg ((INR n - 1) * Rabs h)) (cells3 xs ys zs) f)
    (length (cells3 xs ys zs)) Hc Hp Hn Hw) with (q := q) (stop := stop) (fs := fs) as [H1 H2].
  - intros f F. symmetry. exact (MonitorFacts.Forall2_length F).
  - intros i ts id Hts Hid. exact (field_around3 scp format eigvals fn (on_rows3 v) Hfn m n h Hn Hh phi s (cells3 xs ys zs) w _ true (imems i) (mems i) ts id He Hs Hphi Hw Hts Hid).
  - split; [exact H1|]. intros st r Hst Hm. destruct (H2 st r Hst Hm) as [H|(rows & L & F & R1 & R2)]; [left; exact H|right].
    exists rows. split; [exact L|]. split; [exact R1|]. split; [exact R2|]. intros f Hf. rewrite Forall_forall in F.
    destruct (image3_shows xs ys zs _ f (F f Hf)) as (img & E & S & G). exists img. split; [exact E|]. split; [exact S|].
    intros a b c x y z Hx Hy Hz. destruct (G a b c x y z Hx Hy Hz) as (o & Eo & sg & Hsg & ->). exists sg. auto.
Qed.
