(** Runs of the command line program on gridded data, in binary64. *)
From Coq Require Import Reals Lia Lra Psatz Floats.
From Verif Require Import Base Num NdArray NdFacts Text Particles Jacobian Ftle Integrate GridInterp Interpolate Readers DataSource Solver FileRun Writers Batches FileUtils
  Hyper Manager Monitor Executor ManagerRun Jobs Decorators Program SpecExecutor SpecWriters SpecProgram SpecSeeds SpecInterp SpecFtle SpecGrid
  SpecFiles SpecIntegrate SpecOrder SpecConverge SpecFloat64 SpecAccuracy SpecFloatGrid SpecFloatJac SpecRounding SpecFloatRun SpecGridRun SpecGridProgram
  PathFacts FileUtilsFacts WriterFacts VtkFacts BatchFacts BatchFloat ManagerFacts ExecutorFacts ExecutorMain ExecutorProps ExecutorRuns JobFacts ProgramFacts FtleAccuracyMain GridRunMain.

(** ** The program, when all tasks are known to succeed *)

Section Total.
  Context {T : Type} (O : ops T) (scp : scipy T).
  Variable parse_float : string -> res T.
  Variables imems mems : nat -> nat -> memory (T := T).
  Variable eigvals : m33 T -> res (T * T * T).
  Variable texts : string -> option string.
  Variable inputs : filesystem T.
  Notation ends := (main_ends O scp parse_float imems mems eigvals texts inputs).
  Notation task_of := (manager_task O scp imems mems eigvals inputs).
  Notation path m f := (output_file scp m f).

  Lemma program_total c a m ts (Q : nat -> file_source T -> content T -> Prop) :
    parse_args parse_float c = Ok a -> manager_init O scp texts a = Ok m -> manager_batches O scp m = Ok ts ->
    ts <> [] -> (0 < m_processes m)%Z -> names_differ scp m ts ->
    (forall i f, nth_error ts i = Some f -> exists st x, 
       w_writer (fst (file_worker O scp (imems i) eigvals (mems i) (write O (m_writer m)) inputs f true true (manager_world scp m))) = st /\
       snd (file_worker O scp (imems i) eigvals (mems i) (write O (m_writer m)) inputs f true true (manager_world scp m)) = Ok None /\
       w_files st (path m f) = Some x /\ Q i f x) ->
    forall fs, settled_files fs -> (exists fs', ends c fs (false, Ok tt) fs') /\ forall b r fs', ends c fs (b, r) fs' ->
      r = Ok tt /\ (b = true -> exists s, Executor.steps (map (task_of m) (indexed ts)) (m_processes m) (start [] false fs) s /\ killed s) /\
      (b = false -> (forall i f, nth_error ts i = Some f -> exists x, fs' (path m f) = Some (Whole x) /\ Q i f x) /\
         (forall p, (forall f, In f ts -> p <> path m f) -> fs' p = fs p)).
  Proof.
    intros Ha Hm Hb Hne Hn Hd Hall fs Hset.
    assert (Ho : forall i f, nth_error ts i = Some f -> t_outcome (task_of m (i, f)) = Ok None).
    { intros i f Hi. destruct (Hall i f Hi) as (st & x & _ & E & _). exact E. }
    split.
    { set (tasks := map (task_of m) (indexed ts)).
      destruct (undisturbed tasks (m_processes m) [] false fs (start [] false fs) (steps_refl _ _ _)) as (s & Hs & Hf & Hk).
      assert (Hx : st_main s = Exited (Ok (map Some (map (fun _ => None) ts)))).
      { apply (results_in_order tasks (m_processes m) [] false fs); auto.
        - unfold tasks. rewrite !map_map. unfold indexed. clear - Ho. revert Ho. generalize (task_of m). intros tk Ho.
          assert (G : forall k, (forall i f, nth_error ts i = Some f -> t_outcome (tk ((k + i)%nat, f)) = Ok None) ->
            map (fun x => t_outcome (tk x)) (combine (seq k (length ts)) ts) = map (fun _ => Ok None) ts); [|exact (G 0%nat Ho)].
          clear Ho. induction ts as [|t l IH]; intros k Ho; [reflexivity|]. cbn. f_equal.
          + specialize (Ho 0%nat t eq_refl). rewrite Nat.add_0_r in Ho. exact Ho.
          + apply IH. intros i f Hi. specialize (Ho (S i) f Hi). rewrite Nat.add_succ_r in Ho. exact Ho.
        - unfold tasks. intro E. apply Hne. apply map_eq_nil in E. apply (f_equal (@length _)) in E. rewrite indexed_length in E. destruct ts; [reflexivity|discriminate].
        - intro K. specialize (Hk K). discriminate. }
      exists (st_world s). change (false, Ok tt) with (guarded (let* _ := Ok (A := list (option (option (list (xval T))))) (map Some (map (fun _ => None) ts)) in Ok tt)).
      apply (run_ends O scp parse_float imems mems eigvals texts inputs c fs m s); [rewrite Ha; exact Hm| |exact Hx].
      unfold run_states. rewrite Hb. cbn [bind]. exact Hs. }
    intros b r fs' H. inversion H as [e' Hi E1|m' s r' Hi Hs Hx E1]; subst; rewrite Ha in Hi; cbn [bind] in Hi; [congruence|].
    rewrite Hm in Hi. injection Hi as <-. unfold run_states in Hs. rewrite Hb in Hs. cbn [bind] in Hs.
    destruct r' as [rs|e].
    - cbn in E1. injection E1 as <- <-. split; [reflexivity|]. split; [discriminate|]. intros _. pose proof Hd as Hd'. apply differ in Hd'.
      destruct (run_writes _ _ _ _ (one O scp imems mems eigvals inputs m) (indexed ts) (indexed_num ts) (m_processes m)
        (fun f r _ => none_result O scp imems mems eigvals inputs m f r) [] false fs s rs Hd' Hset Hs Hx) as [H1 H2]. split.
      + intros i f Hi. destruct (H1 (i, f) (proj2 (indexed_in ts (i, f)) Hi)) as (x & Ex & Hw). cbn [fst snd] in *.
        exists x. split; [exact Hw|]. destruct (Hall i f Hi) as (st & x' & <- & _ & Ex' & HQ). unfold alone in Ex.
        replace x with x'; [exact HQ|]. unfold file_worker in Ex'.
        assert (Some x' = Some x); [rewrite <- Ex, <- Ex'; reflexivity|congruence].
      + intros p Hp. apply H2. intros f Hf. apply Hp. apply indexed_in in Hf. exact (nth_error_In _ _ Hf).
    - destruct (error_kinds _ _ _ _ _ _ _ Hs Hx) as [(i & t & Hi' & He & Hc)|[[Hk ->]|[[E _]|[E _]]]].
      + exfalso. rewrite nth_error_map, indexed_nth in Hi'. destruct (nth_error ts i) as [f|] eqn:Ef; [|discriminate].
        injection Hi' as <-. rewrite (Ho i f Ef) in He. discriminate.
      + cbn in E1. injection E1 as <- <-. split; [reflexivity|]. split; [|discriminate]. intros _. exists s. auto.
      + exfalso. apply Hne. apply map_eq_nil in E. apply (f_equal (@length _)) in E. rewrite indexed_length in E. destruct ts; [reflexivity|discriminate].
      + lia.
  Qed.
End Total.

(** ** Preparations *)
Local Open Scope R_scope.

Lemma direction_F lnF hF h {A} (l : list A) : represents hF h -> handle_direction (Fops lnF) hF l = run_order h l.
Proof.
  intro Rh. unfold handle_direction, run_order. change (o_ltb (Fops lnF) hF (o_zero (Fops lnF))) with (PrimFloat.ltb hF (o_zero (Fops lnF))).
  rewrite (FloatArith.ltb_rep hF _ h 0 Rh); [|exact (FloatGrid.int_rep 0 ltac:(cbn; lia))].
  destruct (Raux.Rlt_bool_spec h 0) as [H|H]; destruct (Rlt_dec h 0); (reflexivity || lra).
Qed.
Lemma run_order_length {A} h (l : list A) : length (run_order h l) = length l.
Proof. unfold run_order. destruct (Rlt_dec h 0); [apply rev_length|reflexivity]. Qed.
Lemma run_order_in {A} h (l : list A) x : In x (run_order h l) <-> In x l.
Proof. unfold run_order. destruct (Rlt_dec h 0); [symmetry; apply in_rev|reflexivity]. Qed.
Lemma run_order_NoDup {A} h (l : list A) : NoDup l -> NoDup (run_order h l).
Proof. unfold run_order. destruct (Rlt_dec h 0); [apply NoDup_rev|auto]. Qed.
Lemma run_order_map {A B} (f : A -> B) h l : map f (run_order h l) = run_order h (map f l).
Proof. unfold run_order. destruct (Rlt_dec h 0); [apply map_rev|reflexivity]. Qed.

Lemma run_integrator m : create_integrator (T := PrimFloat.float) (method_name m) = Ok (fresh m).
Proof. destruct m; reflexivity. Qed.
Lemma grid_variant : case_variant "grid" "grid".
Proof. cbn. unfold same_letter. tauto. Qed.

Lemma shape_nat nx ny : shape_of (Some [Z.of_nat nx; Z.of_nat ny]) = Some [nx; ny].
Proof. cbn. rewrite !Nat2Z.id. reflexivity. Qed.

Lemma join_ending dir s e : append (path_join dir (append "ftle_" s)) e = path_join dir (append (append "ftle_" s) e).
Proof. unfold path_join. cbn [append Ascii.eqb Bool.eqb]. destruct (String.eqb dir "" || ends_with_slash dir); rewrite !append_assoc; reflexivity. Qed.

(** What the writer of a new manager does. *)
Lemma layout_write {T} (O : ops T) fmt dir grid N wr name f (c : mat T) : create_writer fmt dir (shape_of grid) = Ok wr -> fits grid N -> seeds N 2 f c ->
  exists st x, write O wr (WState None no_files) (append "ftle_" name) f c = (st, Ok tt) /\
    w_files st (append (path_join dir (append "ftle_" name)) (ending fmt grid)) = Some x /\ field_file O fmt grid N f c x.
Proof.
  intros Hw Hg Hs. unfold create_writer in Hw. pose proof Hs as (_ & _ & Hlen & _). destruct (String.eqb_spec fmt "mat") as [-> |H1].
  - injection Hw as <-. unfold ending. cbn [String.eqb Ascii.eqb Bool.eqb]. rewrite join_ending. destruct Hg as [-> |(px & py & -> & HN)].
    + destruct (mat_points O dir None N 2 (WState None no_files) (append "ftle_" name) f c) as (st & F & X & Y & Z & E & [Hf _] & HA); auto; [left; reflexivity|].
      exists st, (MatFile F X Y Z). split; [exact E|]. split; [exact Hf|]. left. split; [reflexivity|].
      exists [N], (fun ix => match ix with [r] => r | _ => 0%nat end), F, X, Y, Z. split; [reflexivity|]. split; [left; auto|exact HA].
    + rewrite shape_nat.
      destruct (mat_grid O dir [px; py] px py 1 N 2 (WState None no_files) (append "ftle_" name) f c) as (st & F & X & Y & Z & E & [Hf _] & HA); auto; [lia|left; reflexivity|].
      exists st, (MatFile F X Y Z). split; [exact E|]. split; [exact Hf|]. left. split; [reflexivity|].
      exists [px; py; 1%nat], (fun ix => match ix with [i; j; k] => (i * py + j) * 1 + k | _ => 0 end)%nat, F, X, Y, Z. split; [reflexivity|].
      split; [right; exists px, py; auto|exact HA].
  - destruct (String.eqb_spec fmt "vtk") as [-> |H2]; [|discriminate]. injection Hw as <-. unfold ending. cbn [String.eqb Ascii.eqb Bool.eqb]. destruct Hg as [-> |(px & py & -> & HN)].
    + destruct (vtk_points O dir 2 (WState None no_files) (append "ftle_" name) f c N) as (st & points & E1 & [E2 _] & E3 & E4); auto; [left; reflexivity|].
      exists st, (VtpFile points f). split; [exact E1|]. split; [exact E2|]. right. left. split; [reflexivity|]. split; [reflexivity|]. exists points. auto.
    + rewrite shape_nat. subst N.
      destruct (vtk_grid2 O dir px py 2 (WState None no_files) (append "ftle_" name) f c) as (st & points & E1 & [E2 _] & E3 & E4); auto; [left; reflexivity|].
      exists st, (VtsFile (px, py, 1%nat) points true f). split; [exact E1|]. split; [exact E2|]. right. right. split; [reflexivity|]. exists px, py, points.
      repeat (split; [assumption || reflexivity|]). intros q Hq. destruct (E4 q Hq) as (x & y & Ep & Hx & Hy). exists (x, y, o_zero O). split; [exact Ep|].
      split; [exact Hx|]. split; [exact Hy|]. destruct Hs as (_ & Hc & _). split; [reflexivity|]. rewrite Hc. discriminate.
Qed.
Lemma seeds_arr2 {T} (O : ops T) N (xs : list (xval T)) (ps : list (T * T)) : length xs = N -> length ps = N -> seeds N 2 xs (arr2 ps).
Proof.
  intros H1 H2. split; [|split; [reflexivity|split; [exact H1|]]].
  - unfold arr2, wf_mat. cbn. apply Forall_map. apply Forall_forall. intros p _. destruct p; reflexivity.
  - unfold arr2, nrows. cbn. rewrite map_length. exact H2.
Qed.

Lemma Forall2_len {A B} (P : A -> B -> Prop) l m : Forall2 P l m -> length l = length m.
Proof. induction 1; cbn; congruence. Qed.

Lemma window_times t0 h (i n N : nat) t : (i + n <= N)%nat ->
  between (t0 + INR i * h) (t0 + INR i * h + INR n * h) t -> between t0 (t0 + INR N * h) t.
Proof.
  intros H Ht. apply le_INR in H. rewrite plus_INR in H. pose proof (pos_INR i). pose proof (pos_INR n). pose proof (pos_INR N). unfold between in *. revert Ht.
  destruct (Rle_lt_dec 0 h) as [Hh|Hh].
  - assert (0 <= INR n * h) by (apply Rmult_le_pos; lra). assert (0 <= INR N * h) by (apply Rmult_le_pos; lra).
    assert (0 <= INR i * h) by (apply Rmult_le_pos; lra). assert ((INR i + INR n) * h <= INR N * h) by (apply Rmult_le_compat_r; lra).
    rewrite !Rmin_left, !Rmax_right by lra. lra.
  - assert (0 <= INR n * - h) by (apply Rmult_le_pos; lra). assert (0 <= INR N * - h) by (apply Rmult_le_pos; lra).
    assert (0 <= INR i * - h) by (apply Rmult_le_pos; lra). assert ((INR i + INR n) * - h <= INR N * - h) by (apply Rmult_le_compat_r; lra).
    rewrite !Rmin_right, !Rmax_left by lra. lra.
Qed.
Lemma next_mod i m : (2 <= m)%nat -> (i mod m <> (i + 1) mod m)%nat.
Proof.
  intros Hm E. pose proof (Nat.div_mod i m ltac:(lia)) as D1. pose proof (Nat.div_mod (i + 1) m ltac:(lia)) as D2. rewrite <- E in D2.
  assert (m * ((i + 1) / m - i / m) = 1)%nat by (rewrite Nat.mul_sub_distr_l; lia).
  destruct ((i + 1) / m - i / m)%nat as [|k]; [lia|]. rewrite Nat.mul_succ_r in H. lia.
Qed.

(** ** The program on gridded data *)
Lemma grid_program lnF (scp : scipy PrimFloat.float) parse_float imems mems eigvals texts inputs c a :
  accurate_log lnF -> parse_args parse_float c = Ok a ->
  forall m hF h n nx ny vs cs ps fmt,
  integrator_name a = Some (method_name m) -> interpolator_name a = Some "grid"%string ->
  flow_grid_shape a = Some [Z.of_nat nx; Z.of_nat ny] -> output_format a = Some fmt -> (fmt = "mat" \/ fmt = "vtk")%string -> (0 < num_processes a)%Z ->
  Manager.snapshot_timestep a = hF -> represents hF h -> represents (flow_map_period a) ((INR n - 1) * Rabs h) ->
  listed texts (list_velocity_files a) vs -> listed texts (list_coordinate_files a) cs -> listed texts (list_particle_files a) ps ->
  (n <= length vs)%nat -> NoDup (map stem vs) -> NoDup cs -> (2 <= length cs)%nat -> ps <> [] ->
  forall x0 x1 y0 y1 B M eps L rho v t0,
  (2 <= nx)%nat -> (2 <= ny)%nat -> (Z.of_nat nx <= INT_MAX)%Z -> (Z.of_nat ny <= INT_MAX)%Z -> sane_extent x0 x1 -> sane_extent y0 y1 ->
  Rabs x0 <= B /\ Rabs x1 <= B -> Rabs y0 <= B /\ Rabs y1 <= B ->
  forall delta, delta = sampling_error nx ny x0 x1 y0 y1 L M eps -> tame_on_grid m B M delta L rho n h ->
  lipschitz_field 2 L v ->
  (forall t X Y, between t0 (t0 + INR (length vs) * h) t -> x0 <= X <= x1 -> y0 <= Y <= y1 -> sized M (v t [X; Y])) ->
  series inputs nx ny x0 x1 y0 y1 M eps v t0 h (run_order h vs) cs ->
  forall gs Gs, (forall p, In p ps -> seeded inputs x0 x1 y0 y1 rho p (gs p) (Gs p)) ->
  (forall p, In p ps -> fits (particles_grid_shape a) (length (Gs p))) ->
  forall phi K J V E, 0 <= K -> 0 <= J -> 0 <= V -> E = rounding_bound n h delta B L + truncation m n h L K J V -> E <= 2 ^ 199 ->
  (forall i p, (i + n <= length vs)%nat -> nth_error (run_order h ps) (i mod length ps) = Some p ->
     let t := t0 + INR i * h in
     (forall G x, In G (Gs p) -> In x (corners2 G) -> flow_along (regular m v t (t + INR n * h) K J V) v t (t + INR n * h) (phi i) x) /\
     Forall (fun G => exists s, resolved2 E (phi i) G s) (Gs p)) ->
  forall fs, settled_files fs ->
  (exists fs', main_ends (Fops lnF) scp parse_float imems mems eigvals texts inputs c fs (false, Ok tt) fs') /\
  forall b r fs', main_ends (Fops lnF) scp parse_float imems mems eigvals texts inputs c fs (b, r) fs' ->
  r = Ok tt /\
  (b = true -> exists mg ts s, manager_init (Fops lnF) scp texts a = Ok mg /\ manager_batches (Fops lnF) scp mg = Ok ts /\
     Executor.steps (map (manager_task (Fops lnF) scp imems mems eigvals inputs mg) (indexed ts)) (num_processes a) (start [] false fs) s /\ killed s) /\
  (b = false ->
     (forall i f p, (i + n <= length vs)%nat -> nth_error (run_order h vs) i = Some f -> nth_error (run_order h ps) (i mod length ps) = Some p ->
        exists xs x,
          Forall2 (fun G x => exists s, spectral_norm_2 (gradient2 G (image2 (phi i) G)) s /\ ftle_within E (side2 G) s ((INR n - 1) * Rabs h) x) (Gs p) xs /\
          fs' (result_file (experiment_name a) fmt (particles_grid_shape a) f) = Some (Whole x) /\
          field_file (Fops lnF) fmt (particles_grid_shape a) (length (Gs p)) (map XVal xs) (arr2 (map (mean2 (Fops lnF)) (gs p))) x) /\
     (forall q, (forall i f, (i + n <= length vs)%nat -> nth_error (run_order h vs) i = Some f -> q <> result_file (experiment_name a) fmt (particles_grid_shape a) f) -> fs' q = fs q)).
Proof.
  intros Hln Ha m hF h n nx ny vs cs ps fmt Im Ii If Io Hfmt Hproc EhF Rh Rp Lv Lc Lp Hn Nv Nc Hc2 Hps
    x0 x1 y0 y1 B M eps L rho v t0 Hnx Hny Bx By Ex Ey HBx HBy delta Edelta Ht HL Hsp Hser gs Gs Hseed Hlay phi K J V E HK HJ HV EE HE Hphi
    fs Hset.
  pose proof Ht as (_ & _ & _ & _ & Hn2 & Hn47 & Hnh & _).
  assert (Hh0 : h <> 0).
  { intros ->. rewrite Rabs_R0, Rmult_0_r in Hnh. pose proof (pow_lt 2 199 ltac:(lra)). pose proof (Rinv_0_lt_compat _ H). lra. }
  (* the manager *)
  set (dir := path_join "outputs" (experiment_name a)).
  assert (Hint : exists ip, create_interpolator (Fops lnF) scp "grid" (Some [nx; ny]) None = Ok ip) by (eexists; reflexivity).
  destruct Hint as (ip & Hip).
  assert (Hwr : exists wr, create_writer fmt dir (shape_of (particles_grid_shape a)) = Ok wr /\ wr_path wr = dir /\
     forall s, output_path wr (append "ftle_" s) = append (path_join dir (append "ftle_" s)) (ending fmt (particles_grid_shape a))).
  { destruct Hfmt as [-> | ->]; eexists; (split; [reflexivity|]); (split; [reflexivity|]); intro s; unfold output_path, extension, ending; cbn [wr_format wr_path wr_shape].
    - symmetry. apply join_ending.
    - destruct (particles_grid_shape a); reflexivity. }
  destruct Hwr as (wr & Hwr & Hdir & Hout).
  set (mg := Manager (run_order h vs) (run_order h cs) (run_order h ps) hF (flow_map_period a) (num_processes a) (fresh m) ip wr).
  assert (Hmg : manager_init (Fops lnF) scp texts a = Ok mg).
  { unfold manager_init. unfold listed in *. rewrite Lv, Lc, Lp. cbn [bind]. rewrite Ii, Im, If, Io, shape_nat. cbn [named bind].
    rewrite Hip. cbn [bind]. rewrite run_integrator. cbn [bind]. fold dir. rewrite Hwr. cbn [bind].
    rewrite !paths_some. cbn [bind]. rewrite EhF, !(direction_F lnF hF h) by exact Rh. reflexivity. }
  assert (Hwin : window_length (Fops lnF) (flow_map_period a) hF = Ok (Z.of_nat n)).
  { replace (Z.of_nat n) with (Z.of_nat n - 1 + 1)%Z by lia. apply (window_exact lnF _ _ h); auto.
    - rewrite Z.abs_eq by lia. apply le_IZR. rewrite minus_IZR, <- INR_IZR_INZ. 
      change (2 ^ 53)%Z with (2 ^ 47 * 64)%Z. rewrite mult_IZR. replace (IZR (2 ^ 47)) with (2 ^ 47) by (cbn; lra). pose proof (pow_lt 2 47 ltac:(lra)). lra.
    - rewrite minus_IZR, <- INR_IZR_INZ. exact Rp. }
  set (ts := map (task (run_order h vs) (run_order h cs) (run_order h ps) hF n) (seq 0 (length (run_order h vs) - n + 1))).
  assert (Hb : manager_batches (Fops lnF) scp mg = Ok ts).
  { unfold manager_batches, mg. cbn [m_snapshots m_coordinates m_particles m_period m_timestep]. apply create_ok; [exact Hwin|lia|rewrite run_order_length; exact Hn| |].
    - intro E0. apply (f_equal (@length _)) in E0. rewrite run_order_length in E0. cbn in E0. lia.
    - intro E0. apply Hps. apply (f_equal (@length _)) in E0. rewrite run_order_length in E0. destruct ps; [reflexivity|discriminate]. }
  assert (Hcs' : run_order h cs <> []).
  { intro E0. apply (f_equal (@length _)) in E0. rewrite run_order_length in E0. cbn in E0. lia. }
  assert (Hnth : forall i f, nth_error ts i = Some f -> (i + n <= length vs)%nat /\ f = task (run_order h vs) (run_order h cs) (run_order h ps) hF n i).
  { intros i f Hi. unfold ts in Hi. assert (Hlt : (i < length vs - n + 1)%nat).
    { assert (H : nth_error ts i <> None) by (unfold ts; congruence). apply nth_error_Some in H. unfold ts in H. rewrite map_length, seq_length, run_order_length in H. exact H. }
    rewrite nth_tasks in Hi by (rewrite run_order_length; exact Hlt). injection Hi as <-. split; [lia|reflexivity]. }
  assert (Hnth' : forall i, (i + n <= length vs)%nat -> nth_error ts i = Some (task (run_order h vs) (run_order h cs) (run_order h ps) hF n i)).
  { intros i Hi. unfold ts. apply nth_tasks. rewrite run_order_length. lia. }
  assert (Hpath : forall i f, (i + n <= length vs)%nat -> nth_error (run_order h vs) i = Some f ->
     output_file scp mg (task (run_order h vs) (run_order h cs) (run_order h ps) hF n i) = result_file (experiment_name a) fmt (particles_grid_shape a) f).
  { intros i f Hi Hf. unfold output_file, result_file. cbn [task file_id mg m_writer]. rewrite (nth_error_nth _ _ _ Hf). apply Hout. }
  assert (Hget : forall i, (i + n <= length vs)%nat -> exists f, nth_error (run_order h vs) i = Some f).
  { intros i Hi. assert (H : (i < length (run_order h vs))%nat) by (rewrite run_order_length; lia). apply nth_error_Some in H. destruct (nth_error _ i); [eauto|congruence]. }
  assert (Hgetp : forall i, exists p, nth_error (run_order h ps) (i mod length ps) = Some p /\ In p ps).
  { intro i. assert (H : (i mod length ps < length (run_order h ps))%nat).
    { rewrite run_order_length. apply Nat.mod_upper_bound. destruct ps; [congruence|discriminate]. }
    apply nth_error_Some in H. destruct (nth_error (run_order h ps) (i mod length ps)) as [p|] eqn:Ep; [|congruence]. exists p. split; [reflexivity|].
    apply nth_error_In in Ep. apply (run_order_in h ps). exact Ep. }
  set (Q := fun (i : nat) (f : file_source PrimFloat.float) (x : content PrimFloat.float) => forall p, nth_error (run_order h ps) (i mod length ps) = Some p ->
        exists xs,
          Forall2 (fun G x => exists s, spectral_norm_2 (gradient2 G (image2 (phi i) G)) s /\ ftle_within E (side2 G) s ((INR n - 1) * Rabs h) x) (Gs p) xs /\
          field_file (Fops lnF) fmt (particles_grid_shape a) (length (Gs p)) (map XVal xs) (arr2 (map (mean2 (Fops lnF)) (gs p))) x).
  destruct (program_total (Fops lnF) scp parse_float imems mems eigvals texts inputs c a mg ts Q Ha Hmg Hb) with (fs := fs)
    as (R0 & RR); auto.
  - intro E0. pose proof (Hnth' 0%nat ltac:(lia)) as H. rewrite E0 in H. discriminate.
  - intros i j f g Hi Hj Hij Epath. apply Hnth in Hi as [Bi ->]. apply Hnth in Hj as [Bj ->].
    unfold output_file in Epath. apply task_path_inj in Epath. cbn [task file_id] in Epath. apply Hij.
    destruct (Hget i Bi) as (f & Hf). destruct (Hget j Bj) as (g & Hg). rewrite (nth_error_nth _ _ _ Hf), (nth_error_nth _ _ _ Hg) in Epath.
    assert (Nv' : NoDup (map stem (run_order h vs))) by (rewrite run_order_map; apply run_order_NoDup; exact Nv).
    apply (proj1 (NoDup_nth_error (map stem (run_order h vs))) Nv'); [rewrite map_length, run_order_length; lia|].
    rewrite !nth_error_map, Hf, Hg. cbn. congruence.
  - intros i f Hi. apply Hnth in Hi as [Bi ->].
    set (f := task (run_order h vs) (run_order h cs) (run_order h ps) hF n i).
    destruct (Hget i Bi) as (vf & Hvf). destruct (Hgetp i) as (p & Hp & Hpin).
    destruct (Hseed p Hpin) as ((d & Ed & Hd) & HG & HS & HC). pose proof (Hlay p Hpin) as Hl.
    destruct (Hphi i p Bi Hp) as [Hflow Hres].
    assert (Ei : skipn i (run_order h vs) = vf :: skipn (1 + i) (run_order h vs)).
    { rewrite (skipn_cons _ ""%string) by (rewrite run_order_length; lia). rewrite (nth_error_nth _ _ _ Hvf). reflexivity. }
    assert (Efirst : firstn n (skipn i (run_order h vs)) = vf :: firstn (n - 1) (skipn (1 + i) (run_order h vs))).
    { rewrite Ei. destruct n as [|k]; [lia|]. cbn [firstn]. do 2 f_equal. lia. }
    set (first := vf) in *. set (rest := firstn (n - 1) (skipn (1 + i) (run_order h vs))) in *.
    assert (Hf : mk_file_source (first :: rest) (map (fun j => nth ((i + j) mod length (run_order h cs)) (run_order h cs) ""%string) (seq 0 n))
       (nth (i mod length (run_order h ps)) (run_order h ps) ""%string) hF (Z.of_nat n) = Ok f).
    { rewrite <- Efirst. apply mk_task; [lia|rewrite run_order_length; lia]. }
    assert (Epart : nth (i mod length (run_order h ps)) (run_order h ps) ""%string = p).
    { rewrite run_order_length. apply nth_error_nth. exact Hp. }
    rewrite Epart in Hf.
    destruct (grid_run_flow lnF scp (imems i) eigvals (mems i) (write (Fops lnF) (m_writer mg)) inputs "grid" None nx ny x0 x1 y0 y1 m B M eps L rho n h hF v
      (t0 + INR i * h) Hln grid_variant Hnx Hny Bx By Ex Ey HBx HBy delta Edelta Ht Rh HL) with (first := first) (rest := rest)
      (coordinates := map (fun j => nth ((i + j) mod length (run_order h cs)) (run_order h cs) ""%string) (seq 0 n)) (particle := p) (period := Z.of_nat n)
      (src := f) (seeds := d) (gs := gs p) (Gs := Gs p) (phi := phi i) (K := K) (J := J) (V := V) (E := E) (queue := true) (writer := true) (w := manager_world scp mg)
      as (xs & Hxs & _ & Hw); auto.
    + intros t X Y Hbt HX HY. apply Hsp; auto. exact (window_times t0 h i n (length vs) t Bi Hbt).
    + rewrite <- Efirst, firstn_length, skipn_length, run_order_length. lia.
    + intros k Hk. assert (Hk' : (k < n)%nat) by (rewrite <- Efirst, firstn_length, skipn_length, run_order_length in Hk; lia).
      assert (Hs1 : nth_error (first :: rest) k = nth_error (run_order h vs) (i + k)).
      { rewrite <- Efirst. apply (task_snapshot (run_order h vs) (run_order h cs) (run_order h ps) hF n i k Hk'). rewrite run_order_length. lia. }
      assert (Hs2 := task_coord (run_order h vs) (run_order h cs) (run_order h ps) hF n i k Hk' Hcs').
      cbn [task coordinate_files] in Hs2. rewrite Hs1, Hs2.
      assert (G1 : (i + k < length (run_order h vs))%nat) by (rewrite run_order_length; lia). apply nth_error_Some in G1.
      assert (G2 : ((i + k) mod length (run_order h cs) < length (run_order h cs))%nat) by (apply Nat.mod_upper_bound; rewrite run_order_length; lia). apply nth_error_Some in G2.
      destruct (nth_error (run_order h vs) (i + k)) as [fv|] eqn:Ev; [|congruence].
      destruct (nth_error (run_order h cs) _) as [fc|] eqn:Ec; [|congruence]. apply nth_error_In, run_order_in in Ec.
      destruct (proj1 Hser _ _ Ev) as (dv & D1 & D2). destruct (proj2 Hser _ Ec) as (dc & D3 & D4). exists fv, fc, dv, dc.
      replace (t0 + INR i * h + INR k * h) with (t0 + INR (i + k) * h) by (rewrite plus_INR; ring). auto 10.
    + set (g := fun j => nth ((i + j) mod length (run_order h cs)) (run_order h cs) ""%string). exists (g 0%nat), (g 1%nat).
      split; [apply in_map, in_seq; lia|]. split; [apply in_map, in_seq; lia|]. unfold g. intro Eg.
      assert (Lc' : length (run_order h cs) = length cs) by apply run_order_length. pose proof (run_order_NoDup h cs Nc) as Nc'. 
      apply (proj1 (NoDup_nth _ ""%string) Nc') in Eg; try (apply Nat.mod_upper_bound; lia). rewrite Lc' in Eg. revert Eg. rewrite Nat.add_0_r. apply next_mod. exact Hc2.
    + specialize (Hw eq_refl). cbv zeta in Hw. destruct Hw as [Hw1 Hw2].
      destruct (layout_write (Fops lnF) fmt dir (particles_grid_shape a) (length (Gs p)) wr (stem first) (map XVal xs)
        (arr2 (map (mean2 (Fops lnF)) (gs p))) Hwr Hl) as (st & x & Ew & Hfile & HA).
      { apply seeds_arr2; [exact (Fops lnF)|rewrite map_length; symmetry; exact (Forall2_len _ _ _ Hxs)|rewrite map_length; exact (Forall2_len _ _ _ HG)]. }
      cbn [m_writer mg manager_world w_writer] in Hw1, Hw2. rewrite Ew in Hw1, Hw2. cbn [fst snd bind] in Hw1, Hw2.
      exists st, x. split; [exact Hw1|]. split; [exact Hw2|]. split.
      * unfold f. rewrite (Hpath i first Bi Hvf). exact Hfile.
      * intros p' Hp'. rewrite Hp in Hp'. injection Hp' as <-. exists xs. auto.
  - split; [exact R0|]. intros b r fs' Hends. destruct (RR b r fs' Hends) as (R1 & R2 & R3). split; [exact R1|]. split.
    + intro Hb'. destruct (R2 Hb') as (s & Hs & Hk). exists mg, ts, s. auto.
    + intro Hb'. destruct (R3 Hb') as [W1 W2]. split.
      * intros i f p Bi Hf Hp. destruct (W1 i _ (Hnth' i Bi)) as (x & Ex' & HQ). rewrite (Hpath i f Bi Hf) in Ex'.
        destruct (HQ p Hp) as (xs & Q1 & Q2). exists xs, x. auto.
      * intros q Hq. apply W2. intros f Hf. destruct (In_nth_error _ _ Hf) as (i & Hi). apply Hnth in Hi as [Bi ->].
        destruct (Hget i Bi) as (vf & Hvf). rewrite (Hpath i vf Bi Hvf). exact (Hq i vf Bi Hvf).
Qed.
