(** Property C122: adding snapshots to the end of a series. *)
From Coq Require Import Reals String PrimFloat.
From Verif Require Import Base Num NdArray Text Particles Jacobian Integrate Interpolate Readers DataSource Solver FileRun Writers Batches FileUtils
  Hyper Manager Monitor Executor ManagerRun Jobs Decorators Program SpecProgram SpecGrow SpecGridProgram
  BatchFacts BatchCases ProgramCases GrowFacts GrowCases.
Local Open Scope nat_scope.
Local Open Scope list_scope.

(** C122, forward in time.  Velocity files are added at the end of the list; the lists of coordinate and particle files stay or
    are extended along ([grown], SpecGrow).  The tasks of the shorter series are the first tasks of the longer one: the same
    velocity, coordinate and particle files, time step and output name. *)
Theorem C122_forward_partial : forall (T : Type) (O : ops T) velocities more coordinates coordinates' particle_files particle_files'
    period h (p : nat) tasks,
  o_ltb O h (o_zero O) = false -> window_length O period h = Ok (Z.of_nat p) ->
  0 < p <= length velocities -> coordinates <> [] -> particle_files <> [] ->
  grown (length velocities) coordinates coordinates' -> grown (length velocities) particle_files particle_files' ->
  file_tasks O velocities coordinates particle_files period h = Ok tasks ->
  exists new, file_tasks O (velocities ++ more) coordinates' particle_files' period h = Ok (tasks ++ new) /\ length new = length more.
Proof. exact @appended. Qed.
Print Assumptions C122_forward_partial.

(** And for the whole program: the lists in the text files have become longer, everything else is as before.  Both runs report no
    failure.  Then each window of the shorter series has the same output file with the same contents after both, whatever
    the schedules, and whatever was on disk before. *)
Theorem C122_files_partial : forall (T : Type) (O : ops T) scp parse_float imems mems eigvals inputs texts texts' c a fmt
    vs more cs cs' ps ps' (p : nat) before before' after after',
  parse_args parse_float c = Ok a -> o_ltb O (snapshot_timestep a) (o_zero O) = false -> output_format a = Some fmt ->
  window_length O (flow_map_period a) (snapshot_timestep a) = Ok (Z.of_nat p) -> 0 < p <= length vs -> cs <> [] -> ps <> [] ->
  listed texts (list_velocity_files a) vs -> listed texts (list_coordinate_files a) cs -> listed texts (list_particle_files a) ps ->
  listed texts' (list_velocity_files a) (vs ++ more) -> listed texts' (list_coordinate_files a) cs' -> listed texts' (list_particle_files a) ps' ->
  grown (length vs) cs cs' -> grown (length vs) ps ps' -> NoDup (map stem (vs ++ more)) ->
  settled_files before -> settled_files before' ->
  main_ends O scp parse_float imems mems eigvals texts inputs c before (false, Ok tt) after ->
  main_ends O scp parse_float imems mems eigvals texts' inputs c before' (false, Ok tt) after' ->
  forall i v, i + p <= length vs -> nth_error vs i = Some v ->
    let file := result_file (experiment_name a) fmt (particles_grid_shape a) v in
    exists x, after file = Some (Whole x) /\ after' file = Some (Whole x).
Proof. exact @appended_files. Qed.
Print Assumptions C122_files_partial.

(** Backward in time it is false: if the number of particle files does not divide the number of added velocity files, the first
    window of the shorter series (same velocity files, same output name) gets other seeds. *)
Theorem C122_backward_refuted : forall (T : Type) (O : ops T) velocities more coordinates coordinates' particle_files period h (p : nat),
  o_ltb O h (o_zero O) = true -> window_length O period h = Ok (Z.of_nat p) ->
  0 < p <= length velocities -> coordinates <> [] -> coordinates' <> [] -> particle_files <> [] -> NoDup particle_files ->
  length more mod length particle_files <> 0 ->
  exists f g tasks tasks', file_tasks O velocities coordinates particle_files period h = Ok tasks /\
    file_tasks O (velocities ++ more) coordinates' particle_files period h = Ok tasks' /\
    nth_error tasks 0 = Some f /\ nth_error tasks' (length more) = Some g /\
    snapshot_files g = snapshot_files f /\ file_id g = file_id f /\ particle_file g <> particle_file f.
Proof. exact @back_mismatch. Qed.
Print Assumptions C122_backward_refuted.

(** It holds if the lists are extended by as many files as the velocity files, or have a length that divides this number. *)
Theorem C122_backward_partial : forall (T : Type) (O : ops T) velocities more coordinates coordinates' particle_files particle_files'
    period h (p : nat) tasks,
  o_ltb O h (o_zero O) = true -> window_length O period h = Ok (Z.of_nat p) ->
  0 < p <= length velocities -> coordinates <> [] -> particle_files <> [] ->
  grown_back (length velocities) (length more) coordinates coordinates' ->
  grown_back (length velocities) (length more) particle_files particle_files' ->
  file_tasks O velocities coordinates particle_files period h = Ok tasks ->
  exists new, file_tasks O (velocities ++ more) coordinates' particle_files' period h = Ok (new ++ tasks) /\ length new = length more.
Proof. exact @appended_back. Qed.
Print Assumptions C122_backward_partial.

Example C122_case : window_length Rops 1%R (-(1/2))%R = Ok 3%Z /\ o_ltb Rops (-(1/2))%R (o_zero Rops) = true /\
  NoDup ["p.mat"; "q.mat"]%string /\ length ["v4.mat"]%string mod length ["p.mat"; "q.mat"]%string <> 0 /\
  grown_back 3 1 ["c.mat"]%string ["c.mat"]%string /\ grown_back 3 1 ["c1"; "c2"; "c3"]%string ["c1"; "c2"; "c3"; "c4"]%string.
Proof.
  split; [exact (proj1 window_back_case)|]. split; [exact (proj2 window_back_case)|].
  split; [repeat constructor; cbn; intuition congruence|]. split; [discriminate|].
  split; [left; auto|]. right. split; [auto|]. exists ["c4"%string]. auto.
Qed.

(** Two whole runs in binary64, on three velocity files and on four. *)
Example C122_files_case : forall lnF imems mems eigvals,
  (exists after, main_ends (Fops lnF) fscipy one_float imems mems eigvals (lists other) toys (command "2") no_files (false, Ok tt) after) /\
  (exists after, main_ends (Fops lnF) fscipy one_float imems mems eigvals (lists (other ++ ["a/v4.mat"%string])) toys (command "2") no_files (false, Ok tt) after) /\
  listed (lists other) "v.txt" other /\ listed (lists (other ++ ["a/v4.mat"%string])) "v.txt" (other ++ ["a/v4.mat"%string]) /\
  window_length (Fops lnF) 1%float 1%float = Ok 2%Z /\ o_ltb (Fops lnF) 1%float (o_zero (Fops lnF)) = false /\ settled_files (T := float) no_files.
Proof.
  intros. split; [destruct (clean_case lnF imems mems eigvals) as (fs & H & _); exists fs; exact H|].
  split; [exact (longer_runs lnF imems mems eigvals)|]. repeat split; try (vm_compute; reflexivity). intros p l. discriminate.
Qed.
