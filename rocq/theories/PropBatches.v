(** Properties C41, C42, C44 and C46 to C49: the tasks of a run, src/pyftle/__main__.py and api.py. *)
From Coq Require Import Reals Floats.
From Flocq Require Import Core.
From Verif Require Import Base Num Text NdArray Particles Integrate Interpolate Readers DataSource Solver Batches FileRun Writers AnalyticalRun
  SpecSeeds SpecFloat64 SpecPaths SpecAnalytical ParticleFacts StructMain SolverCases BatchFacts PathFacts BatchFloat AnalyticalFacts BatchCases.

(** C41.  With n velocity files, windows of p files, m coordinate files and k particle files, a run
    forward in time makes n-p+1 tasks; task i uses the velocity files i, ..., i+p-1 in order, in step j
    the coordinate file (i+j) mod m, and the particle file i mod k. *)
Theorem C41_windows : forall (T : Type) (O : ops T) velocities coordinates particle_files period h (p : nat),
  o_ltb O h (o_zero O) = false -> window_length O period h = Ok (Z.of_nat p) ->
  0 < p <= length velocities -> coordinates <> [] -> particle_files <> [] ->
  exists tasks, file_tasks O velocities coordinates particle_files period h = Ok tasks /\
    length tasks = length velocities - p + 1 /\
    forall i, i < length velocities - p + 1 -> exists f, nth_error tasks i = Some f /\
      length (snapshot_files f) = p /\ length (coordinate_files f) = p /\
      (forall j, j < p -> nth_error (snapshot_files f) j = nth_error velocities (i + j) /\
                          nth_error (coordinate_files f) j = nth_error coordinates ((i + j) mod length coordinates)) /\
      Some (particle_file f) = nth_error particle_files (i mod length particle_files) /\ snapshot_timestep f = h.
Proof. exact @windows. Qed.
Print Assumptions C41_windows.

(** The window length p is the number of snapshots whose span (p-1)|h| is at most the period. *)
Theorem C41_window_length : forall period h : R, (0 <= period -> h <> 0 -> exists p : nat, (0 < p)%nat /\
  window_length Rops period h = Ok (Z.of_nat p) /\ (INR p - 1) * Rabs h <= period < INR p * Rabs h)%R.
Proof. exact window_real. Qed.
Print Assumptions C41_window_length.

Example C41_case : window_length Rops 1%R (1/2)%R = Ok 3%Z /\ o_ltb Rops (1/2)%R (o_zero Rops) = false.
Proof. exact window_case. Qed.

(** C42 is false: in a run backward in time with m coordinate files, if m does not divide the number of
    velocity files, then the first step of the first task pairs the last velocity file with another
    coordinate file than the forward run does. *)
Theorem C42_backward_refuted : forall (T : Type) (O : ops T) velocities coordinates particle_files period h (p : nat),
  o_ltb O h (o_zero O) = true -> window_length O period h = Ok (Z.of_nat p) ->
  0 < p <= length velocities -> coordinates <> [] -> particle_files <> [] -> NoDup coordinates ->
  length velocities mod length coordinates <> 0 ->
  exists f rest, file_tasks O velocities coordinates particle_files period h = Ok (f :: rest) /\
    nth_error (snapshot_files f) 0 = nth_error velocities (length velocities - 1) /\
    nth_error (coordinate_files f) 0 <> nth_error coordinates ((length velocities - 1) mod length coordinates).
Proof. exact @backward_mismatch. Qed.
Print Assumptions C42_backward_refuted.

(** If the numbers of coordinate and particle files divide the number of velocity files, the backward
    run pairs them as the forward run does, and its windows are the mirrored ones: the velocity file
    with index v has the coordinate file with index v mod m. *)
Theorem C42_backward_partial : forall (T : Type) (O : ops T) velocities coordinates particle_files period h (p : nat),
  o_ltb O h (o_zero O) = true -> window_length O period h = Ok (Z.of_nat p) ->
  0 < p <= length velocities -> coordinates <> [] -> particle_files <> [] ->
  length velocities mod length coordinates = 0 -> length velocities mod length particle_files = 0 ->
  exists tasks, file_tasks O velocities coordinates particle_files period h = Ok tasks /\
    length tasks = length velocities - p + 1 /\
    forall i, i < length velocities - p + 1 -> exists f, nth_error tasks i = Some f /\
      length (snapshot_files f) = p /\ length (coordinate_files f) = p /\
      (forall j, j < p -> let v := length velocities - 1 - i - j in
         nth_error (snapshot_files f) j = nth_error velocities v /\
         nth_error (coordinate_files f) j = nth_error coordinates (v mod length coordinates)) /\
      Some (particle_file f) = nth_error particle_files ((length velocities - 1 - i) mod length particle_files) /\
      snapshot_timestep f = h.
Proof. exact @backward_divides. Qed.
Print Assumptions C42_backward_partial.

(** What a backward run does for any lengths. *)
Theorem C42_backward_exact : forall (T : Type) (O : ops T) velocities coordinates particle_files period h (p : nat),
  o_ltb O h (o_zero O) = true -> window_length O period h = Ok (Z.of_nat p) ->
  0 < p <= length velocities -> coordinates <> [] -> particle_files <> [] ->
  exists tasks, file_tasks O velocities coordinates particle_files period h = Ok tasks /\
    length tasks = length velocities - p + 1 /\
    forall i, i < length velocities - p + 1 -> exists f, nth_error tasks i = Some f /\
      length (snapshot_files f) = p /\ length (coordinate_files f) = p /\
      (forall j, j < p ->
         nth_error (snapshot_files f) j = nth_error velocities (length velocities - 1 - i - j) /\
         nth_error (coordinate_files f) j =
           nth_error coordinates (length coordinates - 1 - (i + j) mod length coordinates)) /\
      Some (particle_file f) = nth_error particle_files (length particle_files - 1 - i mod length particle_files) /\
      snapshot_timestep f = h.
Proof. exact @backward. Qed.
Print Assumptions C42_backward_exact.

Example C42_case : window_length Rops 1%R (-(1/2))%R = Ok 3%Z /\ o_ltb Rops (-(1/2))%R (o_zero Rops) = true.
Proof. exact window_back_case. Qed.

(** C44 is false in binary64: with the timestep 0.1 and the period 0.3 = 3 * 0.1 the window has 3
    snapshots instead of 4. *)
Theorem C44_decimal_refuted : forall lnF, exists period h,
  nearest h (1/10)%R /\ nearest period (IZR 3 * Rabs (1/10))%R /\ window_length (Fops lnF) period h = Ok 3%Z.
Proof. exact decimal_refuted. Qed.
Print Assumptions C44_decimal_refuted.

(** In binary64 the window has k or k+1 snapshots, ... *)
Theorem C44_decimal_near : forall lnF period h d k,
  nearest h d -> nearest period (IZR k * Rabs d)%R -> (bpow radix2 (-1000) <= Rabs d)%R -> (1 <= k <= 2 ^ 50)%Z ->
  window_length (Fops lnF) period h = Ok k \/ window_length (Fops lnF) period h = Ok (k + 1)%Z.
Proof. exact window_near. Qed.
Print Assumptions C44_decimal_near.

Example C44_near_case : nearest f01 (1/10)%R /\ nearest f03 (IZR 3 * Rabs (1/10))%R /\ (bpow radix2 (-1000) <= Rabs (1/10))%R.
Proof. exact (conj near_01 (conj near_03 small_01)). Qed.

(** ... and k+1 if the period is a multiple of the timestep as binary64 numbers. *)
Theorem C44_exact_partial : forall lnF period h d k,
  represents h d -> d <> 0%R -> (Z.abs k <= 2 ^ 53)%Z -> represents period (IZR k * Rabs d)%R ->
  window_length (Fops lnF) period h = Ok (k + 1)%Z.
Proof. exact window_exact. Qed.
Print Assumptions C44_exact_partial.

Example C44_exact_case : represents 0x1p-2%float (1/4)%R /\ represents 0x1.8p-1%float (IZR 3 * Rabs (1/4))%R.
Proof. exact exact_case. Qed.

(** In exact arithmetic it always has k+1. *)
Theorem C44_real : forall k h, h <> 0%R -> window_length Rops (IZR k * Rabs h)%R h = Ok (k + 1)%Z.
Proof. exact window_multiple. Qed.
Print Assumptions C44_real.

(** C46 is false: for the field that is at rest at time 0 and v(x) = x at all other times, the second of
    two tasks with timestep 1 (times 1 and 2) yields the FTLE 0; evaluating the velocity at the task's
    times yields ln 4. *)
Theorem C46_times_refuted : forall (scp : scipy R) imems eigvals mems
  (write : unit -> string -> list (xval R) -> mat R -> unit * res unit),
  exists task w, nth_error (analytical_tasks Rops scp format6 2 2 1%R) 1 = Some task /\
    analytical_start Rops scp pulse_fn (mk2 Rops [seed1]) "euler" tt = Ok w /\
    snd (analytical_worker Rops scp imems eigvals mems write task false false w) = Ok (Some [XVal 0%R]) /\
    snd (analytical_worker Rops scp imems eigvals mems write (at_times scp format6 1%R [1; 2]%R) false false w)
      = Ok (Some [XVal (ln 4)]) /\
    (ln 4 <> 0)%R.
Proof. exact times_refuted. Qed.
Print Assumptions C46_times_refuted.

(** What happens instead: every task of every solver evaluates the velocity at time 0 only, so two
    velocity functions that agree at time 0 give the same results and files. *)
Theorem C46_only_time_zero : forall (T : Type) (O : ops T) (scp : scipy T) imems (W : Type) format eigvals mems
  (write : W -> string -> list (xval T) -> mat T -> W * res unit) f g p name wr q h ts w1 w2 use,
  (forall x, f (o_zero O) x = g (o_zero O) x) ->
  analytical_start O scp f p name wr = Ok w1 -> analytical_start O scp g p name wr = Ok w2 ->
  let task := analytical_batch format h ts in
  snd (analytical_worker O scp imems eigvals mems write task q use w1) =
  snd (analytical_worker O scp imems eigvals mems write task q use w2) /\
  w_writer (fst (analytical_worker O scp imems eigvals mems write task q use w1)) =
  w_writer (fst (analytical_worker O scp imems eigvals mems write task q use w2)).
Proof. exact @time_zero. Qed.
Print Assumptions C46_only_time_zero.

(** For velocity functions that do not depend on time the results are the documented ones. *)
Theorem C46_steady_partial : forall (T : Type) (O : ops T) (scp : scipy T) imems (W : Type) format eigvals mems
  (write : W -> string -> list (xval T) -> mat T -> W * res unit) f p name wr q h ts w use,
  (forall t t' x, f t x = f t' x) -> analytical_start O scp f p name wr = Ok w ->
  snd (analytical_worker O scp imems eigvals mems write (analytical_batch format h ts) q use w) =
  snd (analytical_worker O scp imems eigvals mems write (at_times scp format h ts) q use w) /\
  w_writer (fst (analytical_worker O scp imems eigvals mems write (analytical_batch format h ts) q use w)) =
  w_writer (fst (analytical_worker O scp imems eigvals mems write (at_times scp format h ts) q use w)).
Proof. exact @steady_times. Qed.
Print Assumptions C46_steady_partial.

Example C46_case : exists w, analytical_start Rops node_scipy pulse_fn (mk2 Rops [seed1]) "rk4" tt = Ok w.
Proof. eexists. reflexivity. Qed.

(** C47.  With num_ftles = m and num_snapshots = n there are m tasks; task i covers n times, the j-th
    being i*h + j*h, rounded as the arithmetic rounds, ... *)
Theorem C47_times : forall (T : Type) (O : ops T) (m n : nat) h,
  length (time_batches O (Z.of_nat m) (Z.of_nat n) h) = m /\
  forall i, i < m -> exists ts, nth_error (time_batches O (Z.of_nat m) (Z.of_nat n) h) i = Some ts /\ length ts = n /\
    forall j, j < n -> nth_error ts j =
      Some (o_add O (o_mul O (o_ofZ O (Z.of_nat i)) h) (o_mul O (o_ofZ O (Z.of_nat j)) h)).
Proof. exact @times. Qed.
Print Assumptions C47_times.

(** ... which is (i+j) h in exact arithmetic. *)
Theorem C47_times_real : forall (m n : nat) (h : R),
  length (time_batches Rops (Z.of_nat m) (Z.of_nat n) h) = m /\
  forall i, (i < m)%nat -> exists ts, nth_error (time_batches Rops (Z.of_nat m) (Z.of_nat n) h) i = Some ts /\ length ts = n /\
    forall j, (j < n)%nat -> nth_error ts j = Some (INR (i + j) * h)%R.
Proof. exact times_real. Qed.
Print Assumptions C47_times_real.
Example C47_case : time_batches Rops 2 3 (1/2)%R = [[0; 1/2; 1]; [1/2; 1; 3/2]]%R.
Proof. cbv -[Rmult Rplus Rdiv Rinv IZR]. repeat (apply f_equal2; [repeat (apply f_equal2; [field|]); reflexivity|]). reflexivity. Qed.

(** C48 is false: two velocity files of the same name in different directories are the starts of two
    tasks with the same output file. *)
Theorem C48_same_name_refuted : forall (T : Type) (O : ops T) period h,
  o_ltb O h (o_zero O) = false -> window_length O period h = Ok 1%Z ->
  exists f g, file_tasks O ["run1/v.mat"; "run2/v.mat"]%string ["c.mat"]%string ["p.mat"]%string period h = Ok [f; g] /\
    snapshot_files f = ["run1/v.mat"]%string /\ snapshot_files g = ["run2/v.mat"]%string /\
    forall wr, output_path wr (append "ftle_" (file_id f)) = output_path wr (append "ftle_" (file_id g)).
Proof. exact @same_name. Qed.
Print Assumptions C48_same_name_refuted.

Example C48_refuted_case : window_length Rops (IZR 0 * Rabs 1)%R 1%R = Ok 1%Z.
Proof. exact (window_multiple 0 1 R1_neq_R0). Qed.

(** If the velocity files are files with distinct names and the same extension in one directory, two
    tasks have distinct output files, and running one of them leaves the other's file as it is. *)
Theorem C48_distinct_names_partial : forall (T : Type) (O : ops T) (scp : scipy T) imems eigvals mems fs wr
  d e names coordinates particle_files period h tasks i j f g qu use (w : world T (istate scp) unit wstate),
  has_char "/" e = false -> has_char "." e = false -> e <> ""%string ->
  (forall a, In a names -> has_char "/" a = false /\ a <> ""%string) -> NoDup names ->
  file_tasks O (map (fun a => plain_file d a e) names) coordinates particle_files period h = Ok tasks ->
  nth_error tasks i = Some f -> nth_error tasks j = Some g -> i <> j ->
  let p := output_path wr (append "ftle_" (file_id f)) in
  p <> output_path wr (append "ftle_" (file_id g)) /\
  w_files (w_writer (fst (file_worker O scp imems eigvals mems (write O wr) fs g qu use w))) p = w_files (w_writer w) p.
Proof. exact @outputs_kept. Qed.
Print Assumptions C48_distinct_names_partial.

Example C48_case : map (fun a => plain_file "d" a "mat") ["v0"; "v1"; "v2"; "v3"]%string = ["d/v0.mat"; "d/v1.mat"; "d/v2.mat"; "d/v3.mat"]%string /\
  exists tasks, file_tasks Rops ["d/v0.mat"; "d/v1.mat"; "d/v2.mat"; "d/v3.mat"]%string ["c.mat"]%string ["p.mat"]%string 1%R (1/2)%R = Ok tasks /\
    length tasks = 2.
Proof. exact (conj eq_refl names_case). Qed.

(** C49 is false: with a timestep below 5e-7 the first two tasks have the same id, hence the same
    output file. *)
Theorem C49_small_timestep_refuted : forall (scp : scipy R) n h, 0 < n -> (0 < h < 1/2000000)%R -> exists a b x,
  nth_error (analytical_tasks Rops scp format6 2 (Z.of_nat n) h) 0 = Some a /\
  nth_error (analytical_tasks Rops scp format6 2 (Z.of_nat n) h) 1 = Some b /\ src_id a = Ok x /\ src_id b = Ok x.
Proof. exact analytical_collide. Qed.
Print Assumptions C49_small_timestep_refuted.

(** With a timestep of at least 1e-6, forward or backward, all tasks have distinct output files. *)
Theorem C49_distinct_partial : forall (scp : scipy R) imems eigvals mems wr (m n : nat) h i j a b x y qu use
  (w : world R (istate scp) (particles R) (@wstate R)),
  0 < n -> (1/1000000 <= Rabs h)%R -> i <> j ->
  nth_error (analytical_tasks Rops scp format6 (Z.of_nat m) (Z.of_nat n) h) i = Some a ->
  nth_error (analytical_tasks Rops scp format6 (Z.of_nat m) (Z.of_nat n) h) j = Some b ->
  src_id a = Ok x -> src_id b = Ok y ->
  let p := output_path wr (append "ftle_" x) in
  p <> output_path wr (append "ftle_" y) /\
  w_files (w_writer (fst (analytical_worker Rops scp imems eigvals mems (write Rops wr) b qu use w))) p = w_files (w_writer w) p.
Proof. exact analytical_kept. Qed.
Print Assumptions C49_distinct_partial.

(** Every task has an id. *)
Example C49_case : forall (scp : scipy R) m n h i task, 0 < n ->
  nth_error (analytical_tasks Rops scp format6 (Z.of_nat m) (Z.of_nat n) h) i = Some task ->
  src_id task = Ok (format6 (INR i * h)%R).
Proof. exact task_id. Qed.
