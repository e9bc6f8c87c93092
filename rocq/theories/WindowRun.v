(** Runs of the command line program in binary64: from tasks to output files, for any interpolator. *)
From Coq Require Import Reals Lia Lra Psatz Floats.
From Verif Require Import Base Num NdArray NdFacts Text Particles Jacobian Ftle Integrate GridInterp Interpolate Readers DataSource Solver FileRun Writers Batches FileUtils
  Hyper Manager Monitor Executor ManagerRun Jobs Decorators Program SpecExecutor SpecWriters SpecProgram SpecIntegrate SpecFloat64 SpecGridProgram
  PathFacts FileUtilsFacts WriterFacts VtkFacts BatchFacts BatchFloat ManagerFacts ExecutorFacts ExecutorMain ExecutorProps ExecutorRuns JobFacts ProgramFacts GridProgramMain.
Local Open Scope R_scope.

(** If every window leaves what [Q] says in its output file, then so does the run. *)
Lemma windows_program lnF (scp : scipy PrimFloat.float) parse_float imems mems eigvals texts inputs c a (Q : nat -> string -> content PrimFloat.float -> Prop) :
  parse_args parse_float c = Ok a ->
  forall m hF h n vs cs ps fmt iname ip,
  integrator_name a = Some (method_name m) -> interpolator_name a = Some iname ->
  create_interpolator (Fops lnF) scp iname (shape_of (flow_grid_shape a)) None = Ok ip ->
  output_format a = Some fmt -> (fmt = "mat" \/ fmt = "vtk")%string -> (0 < num_processes a)%Z ->
  Manager.snapshot_timestep a = hF -> represents hF h -> h <> 0 -> represents (flow_map_period a) ((INR n - 1) * Rabs h) ->
  (2 <= n)%nat -> INR n <= 2 ^ 47 ->
  listed texts (list_velocity_files a) vs -> listed texts (list_coordinate_files a) cs -> listed texts (list_particle_files a) ps ->
  (n <= length vs)%nat -> NoDup (map stem vs) -> cs <> [] -> ps <> [] ->
  (forall i p first rest coordinates src (w : world PrimFloat.float (istate scp) unit (wstate (T := PrimFloat.float))) wr, (i + n <= length vs)%nat -> nth_error (run_order h ps) (i mod length ps) = Some p -> In p ps ->
     length (first :: rest) = n -> (forall k, (k < n)%nat -> nth_error (first :: rest) k = nth_error (run_order h vs) (i + k)) ->
     (forall k, (k < n)%nat -> nth_error coordinates k = nth_error (run_order h cs) ((i + k) mod length cs)) ->
     mk_file_source (first :: rest) coordinates p hF (Z.of_nat n) = Ok src ->
     create_writer fmt (path_join "outputs" (experiment_name a)) (shape_of (particles_grid_shape a)) = Ok wr ->
     w_interp w = (ip, 0%nat) -> w_integrator w = fresh m -> w_writer w = WState None no_files ->
     let r := file_worker (Fops lnF) scp (imems i) eigvals (mems i) (write (Fops lnF) wr) inputs src true true w in
     exists x, snd r = Ok None /\ w_files (w_writer (fst r)) (result_file (experiment_name a) fmt (particles_grid_shape a) first) = Some x /\ Q i p x) ->
  forall fs, settled_files fs ->
  (exists fs', main_ends (Fops lnF) scp parse_float imems mems eigvals texts inputs c fs (false, Ok tt) fs') /\
  forall b r fs', main_ends (Fops lnF) scp parse_float imems mems eigvals texts inputs c fs (b, r) fs' ->
  r = Ok tt /\
  (b = true -> exists mg ts s, manager_init (Fops lnF) scp texts a = Ok mg /\ manager_batches (Fops lnF) scp mg = Ok ts /\
     Executor.steps (map (manager_task (Fops lnF) scp imems mems eigvals inputs mg) (indexed ts)) (num_processes a) (start [] false fs) s /\ killed s) /\
  (b = false ->
     (forall i f p, (i + n <= length vs)%nat -> nth_error (run_order h vs) i = Some f -> nth_error (run_order h ps) (i mod length ps) = Some p ->
        exists x, fs' (result_file (experiment_name a) fmt (particles_grid_shape a) f) = Some (Whole x) /\ Q i p x) /\
     (forall q, (forall i f, (i + n <= length vs)%nat -> nth_error (run_order h vs) i = Some f -> q <> result_file (experiment_name a) fmt (particles_grid_shape a) f) -> fs' q = fs q)).
Proof.
  intros Ha m hF h n vs cs ps fmt iname ip Im Ii Hip Io Hfmt Hproc EhF Rh Hh0 Rp Hn2 Hn47 Lv Lc Lp Hn Nv Hcs Hps Htask fs Hset.
  (* the manager *)
  set (dir := path_join "outputs" (experiment_name a)).
  assert (Hwr : exists wr, create_writer fmt dir (shape_of (particles_grid_shape a)) = Ok wr /\ wr_path wr = dir /\
     forall s, output_path wr (append "ftle_" s) = append (path_join dir (append "ftle_" s)) (ending fmt (particles_grid_shape a))).
  { destruct Hfmt as [-> | ->]; eexists; (split; [reflexivity|]); (split; [reflexivity|]); intro s; unfold output_path, extension, ending; cbn [wr_format wr_path wr_shape].
    - symmetry. apply join_ending.
    - destruct (particles_grid_shape a); reflexivity. }
  destruct Hwr as (wr & Hwr & Hdir & Hout).
  set (mg := Manager (run_order h vs) (run_order h cs) (run_order h ps) hF (flow_map_period a) (num_processes a) (fresh m) ip wr).
  assert (Hmg : manager_init (Fops lnF) scp texts a = Ok mg).
  { unfold manager_init. unfold listed in *. rewrite Lv, Lc, Lp. cbn [bind]. rewrite Ii, Im, Io. cbn [named bind].
    rewrite Hip. cbn [bind]. rewrite run_integrator. cbn [bind]. fold dir. rewrite Hwr. cbn [bind].
    rewrite !paths_some. cbn [bind]. rewrite EhF, !(direction_F lnF hF h) by exact Rh. reflexivity. }
  assert (Hwin : window_length (Fops lnF) (flow_map_period a) hF = Ok (Z.of_nat n)).
  { replace (Z.of_nat n) with (Z.of_nat n - 1 + 1)%Z by lia. apply (window_exact lnF _ _ h); auto.
    - rewrite Z.abs_eq by lia. apply le_IZR. rewrite minus_IZR, <- INR_IZR_INZ. 
      change (2 ^ 53)%Z with (2 ^ 47 * 64)%Z. rewrite mult_IZR. replace (IZR (2 ^ 47)) with (2 ^ 47) by (cbn; lra). pose proof (pow_lt 2 47 ltac:(lra)). lra.
    - rewrite minus_IZR, <- INR_IZR_INZ. exact Rp. }
  set (ts := map (task (run_order h vs) (run_order h cs) (run_order h ps) hF n) (seq 0 (length (run_order h vs) - n + 1))).
  assert (Hb : manager_batches (Fops lnF) scp mg = Ok ts).
  { unfold manager_batches, mg. cbn [m_snapshots m_coordinates m_particles m_period m_timestep]. apply create_ok; [exact Hwin|lia|rewrite run_order_length; exact Hn| |].
    - intro E0. apply Hcs. apply (f_equal (@length _)) in E0. rewrite run_order_length in E0. destruct cs; [reflexivity|discriminate].
    - intro E0. apply Hps. apply (f_equal (@length _)) in E0. rewrite run_order_length in E0. destruct ps; [reflexivity|discriminate]. }
  assert (Hcs' : run_order h cs <> []).
  { intro E0. apply Hcs. apply (f_equal (@length _)) in E0. rewrite run_order_length in E0. destruct cs; [reflexivity|discriminate]. }
  assert (Hnth : forall i f, nth_error ts i = Some f -> (i + n <= length vs)%nat /\ f = task (run_order h vs) (run_order h cs) (run_order h ps) hF n i).
  { intros i f Hi. unfold ts in Hi. assert (Hlt : (i < length vs - n + 1)%nat).
    { assert (H : nth_error ts i <> None) by (unfold ts; congruence). apply nth_error_Some in H. unfold ts in H. rewrite map_length, seq_length, run_order_length in H. exact H. }
    rewrite nth_tasks in Hi by (rewrite run_order_length; exact Hlt). injection Hi as <-. split; [lia|reflexivity]. }
  assert (Hnth' : forall i, (i + n <= length vs)%nat -> nth_error ts i = Some (task (run_order h vs) (run_order h cs) (run_order h ps) hF n i)).
  { intros i Hi. unfold ts. apply nth_tasks. rewrite run_order_length. lia. }
  assert (Hpath : forall i f, (i + n <= length vs)%nat -> nth_error (run_order h vs) i = Some f ->
     output_file scp mg (task (run_order h vs) (run_order h cs) (run_order h ps) hF n i) = result_file (experiment_name a) fmt (particles_grid_shape a) f).
  { intros i f Hi Hf. unfold output_file, result_file. cbn [task file_id mg m_writer]. rewrite (nth_error_nth _ _ _ Hf). apply Hout. }
  assert (Hget : forall i, (i + n <= length vs)%nat -> exists f, nth_error (run_order h vs) i = Some f).
  { intros i Hi. assert (H : (i < length (run_order h vs))%nat) by (rewrite run_order_length; lia). apply nth_error_Some in H. destruct (nth_error _ i); [eauto|congruence]. }
  assert (Hgetp : forall i, exists p, nth_error (run_order h ps) (i mod length ps) = Some p /\ In p ps).
  { intro i. assert (H : (i mod length ps < length (run_order h ps))%nat).
    { rewrite run_order_length. apply Nat.mod_upper_bound. destruct ps; [congruence|discriminate]. }
    apply nth_error_Some in H. destruct (nth_error (run_order h ps) (i mod length ps)) as [p|] eqn:Ep; [|congruence]. exists p. split; [reflexivity|].
    apply nth_error_In in Ep. apply (run_order_in h ps). exact Ep. }
  destruct (program_total (Fops lnF) scp parse_float imems mems eigvals texts inputs c a mg ts
    (fun i _ x => forall p, nth_error (run_order h ps) (i mod length ps) = Some p -> Q i p x) Ha Hmg Hb) with (fs := fs)
    as (R0 & RR); auto.
  - intro E0. pose proof (Hnth' 0%nat ltac:(lia)) as H. rewrite E0 in H. discriminate.
  - intros i j f g Hi Hj Hij Epath. apply Hnth in Hi as [Bi ->]. apply Hnth in Hj as [Bj ->].
    unfold output_file in Epath. apply task_path_inj in Epath. cbn [task file_id] in Epath. apply Hij.
    destruct (Hget i Bi) as (f & Hf). destruct (Hget j Bj) as (g & Hg). rewrite (nth_error_nth _ _ _ Hf), (nth_error_nth _ _ _ Hg) in Epath.
    assert (Nv' : NoDup (map stem (run_order h vs))) by (rewrite run_order_map; apply run_order_NoDup; exact Nv).
    apply (proj1 (NoDup_nth_error (map stem (run_order h vs))) Nv'); [rewrite map_length, run_order_length; lia|].
    rewrite !nth_error_map, Hf, Hg. cbn. congruence.
  - intros i f Hi. apply Hnth in Hi as [Bi ->].
    set (f := task (run_order h vs) (run_order h cs) (run_order h ps) hF n i).
    destruct (Hget i Bi) as (vf & Hvf). destruct (Hgetp i) as (p & Hp & Hpin).
    assert (Ei : skipn i (run_order h vs) = vf :: skipn (1 + i) (run_order h vs)).
    { rewrite (skipn_cons _ ""%string) by (rewrite run_order_length; lia). rewrite (nth_error_nth _ _ _ Hvf). reflexivity. }
    assert (Efirst : firstn n (skipn i (run_order h vs)) = vf :: firstn (n - 1) (skipn (1 + i) (run_order h vs))).
    { rewrite Ei. destruct n as [|k]; [lia|]. cbn [firstn]. do 2 f_equal. lia. }
    set (first := vf) in *. set (rest := firstn (n - 1) (skipn (1 + i) (run_order h vs))) in *.
    assert (Hf : mk_file_source (first :: rest) (map (fun j => nth ((i + j) mod length (run_order h cs)) (run_order h cs) ""%string) (seq 0 n))
       (nth (i mod length (run_order h ps)) (run_order h ps) ""%string) hF (Z.of_nat n) = Ok f).
    { rewrite <- Efirst. apply mk_task; [lia|rewrite run_order_length; lia]. }
    assert (Epart : nth (i mod length (run_order h ps)) (run_order h ps) ""%string = p).
    { rewrite run_order_length. apply nth_error_nth. exact Hp. }
    rewrite Epart in Hf.
    destruct (Htask i p first rest (map (fun j => nth ((i + j) mod length (run_order h cs)) (run_order h cs) ""%string) (seq 0 n)) f (manager_world scp mg) wr Bi Hp Hpin) as (x & X1 & X2 & X3).
    + rewrite <- Efirst, firstn_length, skipn_length, run_order_length. lia.
    + intros k Hk. rewrite <- Efirst. apply (task_snapshot (run_order h vs) (run_order h cs) (run_order h ps) hF n i k Hk). rewrite run_order_length. lia.
    + intros k Hk. rewrite <- (run_order_length h cs). exact (task_coord (run_order h vs) (run_order h cs) (run_order h ps) hF n i k Hk Hcs').
    + exact Hf.
    + exact Hwr.
    + reflexivity.
    + reflexivity.
    + reflexivity.
    + eexists _, x. split; [reflexivity|]. split; [exact X1|]. split.
      * unfold f. rewrite (Hpath i first Bi Hvf). exact X2.
      * intros p' Hp'. rewrite Hp in Hp'. injection Hp' as <-. exact X3.
  - split; [exact R0|]. intros b r fs' Hends. destruct (RR b r fs' Hends) as (R1 & R2 & R3). split; [exact R1|]. split.
    + intro Hb'. destruct (R2 Hb') as (s & Hs & Hk). exists mg, ts, s. auto.
    + intro Hb'. destruct (R3 Hb') as [W1 W2]. split.
      * intros i f p Bi Hf Hp. destruct (W1 i _ (Hnth' i Bi)) as (x & Ex' & HQ). rewrite (Hpath i f Bi Hf) in Ex'. exists x. auto.
      * intros q Hq. apply W2. intros f Hf. destruct (In_nth_error _ _ Hf) as (i & Hi). apply Hnth in Hi as [Bi ->].
        destruct (Hget i Bi) as (vf & Hvf). rewrite (Hpath i vf Bi Hvf). exact (Hq i vf Bi Hvf).
Qed.
