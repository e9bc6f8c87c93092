(** Properties C132 and C133: windows that occur in two runs. *)
From Coq Require Import String PrimFloat.
From Verif Require Import Base Num NdArray Text Particles Jacobian Integrate Interpolate Readers DataSource Solver FileRun Writers Batches FileUtils
  Manager Executor Jobs Program SpecProgram SpecMem SpecParts SpecGridProgram ProgramCases PartsFacts PartsCases.
Local Open Scope nat_scope.
Local Open Scope list_scope.

(** C132.  Two runs with the same options, up to the number of processes and the lists of files, that report no failure.  The window [i] of
    the first consists of the same files as the window [j] of the second, and these files hold the same data.  Then both runs
    leave the same result for it.  No other file matters, nor the place of the window in the series. *)
Theorem C132_window : forall (T : Type) (O : ops T) scp parse_float eigvals imems mems imems' mems' inputs inputs' texts texts' c c' a a' fmt
    vs cs ps vs' cs' ps' (p i j : nat) before before' after after',
  parse_args parse_float c = Ok a -> parse_args parse_float c' = Ok a' ->
  experiment_name a' = experiment_name a -> snapshot_timestep a' = snapshot_timestep a -> flow_map_period a' = flow_map_period a ->
  integrator_name a' = integrator_name a -> interpolator_name a' = interpolator_name a -> output_format a' = output_format a ->
  flow_grid_shape a' = flow_grid_shape a -> particles_grid_shape a' = particles_grid_shape a -> output_format a = Some fmt ->
  listed texts (list_velocity_files a) vs -> listed texts (list_coordinate_files a) cs -> listed texts (list_particle_files a) ps ->
  listed texts' (list_velocity_files a') vs' -> listed texts' (list_coordinate_files a') cs' -> listed texts' (list_particle_files a') ps' ->
  NoDup (map stem vs) -> NoDup (map stem vs') -> cs <> [] -> ps <> [] -> cs' <> [] -> ps' <> [] ->
  window_length O (flow_map_period a) (snapshot_timestep a) = Ok (Z.of_nat p) -> 0 < p -> i + p <= length vs -> j + p <= length vs' ->
  let r := in_order O (snapshot_timestep a) in
  let w := window (r vs) (r cs) (r ps) p i in
  window (r vs') (r cs') (r ps') p j = w -> (forall x, In x (window_files w) -> inputs' x = inputs x) ->
  whole_arrays inputs' -> (forall m, manager_init O scp texts' a' = Ok m -> not_scattered_in_space inputs' a' m) ->
  settled_files before -> settled_files before' ->
  main_ends O scp parse_float imems mems eigvals texts inputs c before (false, Ok tt) after ->
  main_ends O scp parse_float imems' mems' eigvals texts' inputs' c' before' (false, Ok tt) after' ->
  let file := result_file (experiment_name a) fmt (particles_grid_shape a) (nth i (r vs) ""%string) in
  exists x, after file = Some (Whole x) /\ after' file = Some (Whole x).
Proof. exact @same_window. Qed.
Print Assumptions C132_window.

(** C133.  One run on the series [front ++ vs ++ back] and one on its part [vs], forward or backward.  All windows in the part have
    the same results. *)
Theorem C133_part : forall (T : Type) (O : ops T) scp parse_float eigvals imems mems imems' mems' inputs texts texts' c c' a a' fmt
    front vs back cs ps cs' ps' (p : nat) before before' after after',
  parse_args parse_float c = Ok a -> parse_args parse_float c' = Ok a' ->
  experiment_name a' = experiment_name a -> snapshot_timestep a' = snapshot_timestep a -> flow_map_period a' = flow_map_period a ->
  integrator_name a' = integrator_name a -> interpolator_name a' = interpolator_name a -> output_format a' = output_format a ->
  flow_grid_shape a' = flow_grid_shape a -> particles_grid_shape a' = particles_grid_shape a -> output_format a = Some fmt ->
  listed texts (list_velocity_files a) (front ++ vs ++ back) -> listed texts (list_coordinate_files a) cs -> listed texts (list_particle_files a) ps ->
  listed texts' (list_velocity_files a') vs -> listed texts' (list_coordinate_files a') cs' -> listed texts' (list_particle_files a') ps' ->
  part_of (length front) (length vs) (length back) cs cs' -> part_of (length front) (length vs) (length back) ps ps' ->
  NoDup (map stem (front ++ vs ++ back)) ->
  window_length O (flow_map_period a) (snapshot_timestep a) = Ok (Z.of_nat p) -> 0 < p ->
  whole_arrays inputs -> (forall m, manager_init O scp texts' a' = Ok m -> not_scattered_in_space inputs a' m) ->
  settled_files before -> settled_files before' ->
  main_ends O scp parse_float imems mems eigvals texts inputs c before (false, Ok tt) after ->
  main_ends O scp parse_float imems' mems' eigvals texts' inputs c' before' (false, Ok tt) after' ->
  forall j v, j + p <= length vs -> nth_error (in_order O (snapshot_timestep a) vs) j = Some v ->
    let file := result_file (experiment_name a) fmt (particles_grid_shape a) v in
    exists x, after file = Some (Whole x) /\ after' file = Some (Whole x).
Proof. exact @part_files. Qed.
Print Assumptions C133_part.

(** Whole runs in binary64 on four snapshots and on the two in the middle; for the second one the other two files are gone. *)
Example C132_case : forall lnF imems mems eigvals,
  (exists after, main_ends (Fops lnF) fscipy one_float imems mems eigvals series toys (series_command "v.txt" "2") no_files (false, Ok tt) after) /\
  (exists after, main_ends (Fops lnF) fscipy one_float imems mems eigvals series fewer_toys (series_command "w.txt" "1") no_files (false, Ok tt) after) /\
  parse_args one_float (series_command "v.txt" "2") = Ok (series_args "v.txt" 2) /\ parse_args one_float (series_command "w.txt" "1") = Ok (series_args "w.txt" 1) /\
  listed series "v.txt" whole_series /\ listed series "w.txt" part_series /\ listed series "c.txt" ["c.mat"]%string /\ listed series "p.txt" ["p.mat"]%string /\
  window_length (Fops lnF) 1%float 1%float = Ok 2%Z /\
  window part_series ["c.mat"]%string ["p.mat"]%string 2 0 = window whole_series ["c.mat"]%string ["p.mat"]%string 2 1 /\
  (forall x, In x (window_files (window whole_series ["c.mat"]%string ["p.mat"]%string 2 1)) -> fewer_toys x = toys x) /\
  whole_series = ["a/v1.mat"]%string ++ part_series ++ ["a/v4.mat"]%string /\ part_of 1 2 1 ["c.mat"]%string ["c.mat"]%string /\
  whole_arrays toys /\ whole_arrays fewer_toys /\
  (forall m, manager_init (Fops lnF) fscipy series (series_args "w.txt" 1) = Ok m -> not_scattered_in_space fewer_toys (series_args "w.txt" 1) m).
Proof. exact parts_case. Qed.
