(** Theorems about the number of files that the command line program leaves, and about the program with one coordinate file. *)
From Coq Require Import Reals Floats.
From Flocq Require Import Core.
From Verif Require Import Base Num NdArray Text Particles Ftle Integrate Interpolate Readers DataSource FileRun Writers Batches FileUtils
  Manager Executor ManagerRun Jobs Program SpecProgram SpecGridProgram SpecFloat64 SpecCount BatchCases ProgramCases CountFacts CountCases.

(** The README says that there are N_snapshots - flow_map_period / snapshot_timestep results.  This is so in exact arithmetic.  It is
    stated for runs that end without an error, in which the files are named by different velocity files. *)
Theorem C130_real_partial : forall (scp : scipy R) parse_float imems mems eigvals texts inputs c a vs cs ps k fs fs',
  parse_args parse_float c = Ok a ->
  listed texts (list_velocity_files a) vs -> listed texts (list_coordinate_files a) cs -> listed texts (list_particle_files a) ps ->
  cs <> [] -> ps <> [] -> NoDup (map stem vs) -> settled_files fs ->
  (Manager.snapshot_timestep a <> 0)%R -> (flow_map_period a = INR k * Rabs (Manager.snapshot_timestep a))%R -> k < length vs ->
  main_ends Rops scp parse_float imems mems eigvals texts inputs c fs (false, Ok tt) fs' -> new_files (length vs - k) fs fs'.
Proof. exact count_real. Qed.
Print Assumptions C130_real_partial.

(** In binary64 it is so when the step and the period are exactly representable. *)
Theorem C130_exact_partial : forall lnF (scp : scipy PrimFloat.float) parse_float imems mems eigvals texts inputs c a vs cs ps k h fs fs',
  parse_args parse_float c = Ok a ->
  listed texts (list_velocity_files a) vs -> listed texts (list_coordinate_files a) cs -> listed texts (list_particle_files a) ps ->
  cs <> [] -> ps <> [] -> NoDup (map stem vs) -> settled_files fs ->
  represents (Manager.snapshot_timestep a) h -> (h <> 0)%R -> represents (flow_map_period a) (INR k * Rabs h)%R -> (Z.of_nat k <= 2 ^ 53)%Z -> k < length vs ->
  main_ends (Fops lnF) scp parse_float imems mems eigvals texts inputs c fs (false, Ok tt) fs' -> new_files (length vs - k) fs fs'.
Proof. exact count_exact. Qed.
Print Assumptions C130_exact_partial.

(** In general there can be one file too many, and no other number. *)
Theorem C130_decimal_partial : forall lnF (scp : scipy PrimFloat.float) parse_float imems mems eigvals texts inputs c a vs cs ps k h fs fs',
  parse_args parse_float c = Ok a ->
  listed texts (list_velocity_files a) vs -> listed texts (list_coordinate_files a) cs -> listed texts (list_particle_files a) ps ->
  cs <> [] -> ps <> [] -> NoDup (map stem vs) -> settled_files fs ->
  nearest (Manager.snapshot_timestep a) h -> (bpow radix2 (-1000) <= Rabs h)%R -> nearest (flow_map_period a) (INR k * Rabs h)%R ->
  (1 <= Z.of_nat k <= 2 ^ 50)%Z -> k < length vs ->
  main_ends (Fops lnF) scp parse_float imems mems eigvals texts inputs c fs (false, Ok tt) fs' ->
  new_files (length vs - k) fs fs' \/ new_files (length vs - k + 1) fs fs'.
Proof. exact count_decimal. Qed.
Print Assumptions C130_decimal_partial.

(** Four snapshots at distance 0.1 and a period of 0.3 give two files in place of one. *)
Theorem C130_refuted : forall lnF imems mems eigvals, exists c a vs k fs',
  parse_args tenths c = Ok a /\ listed (lists vs) (list_velocity_files a) vs /\ NoDup (map stem vs) /\
  nearest (Manager.snapshot_timestep a) (1/10)%R /\ nearest (flow_map_period a) (INR k * Rabs (1/10))%R /\ k < length vs /\
  main_ends (Fops lnF) fscipy tenths imems mems eigvals (lists vs) toys c no_files (false, Ok tt) fs' /\
  new_files (length vs - k + 1) no_files fs' /\ ~ new_files (length vs - k) no_files fs'.
Proof. exact count_refuted. Qed.
Print Assumptions C130_refuted.

(** The run of the refutation meets all hypotheses of [C130_decimal_partial]. *)
Example C130_case : forall lnF imems mems eigvals,
  parse_args tenths command3 = Ok args3 /\ listed (lists four) (list_velocity_files args3) four /\
  listed (lists four) (list_coordinate_files args3) ["c.mat"]%string /\ listed (lists four) (list_particle_files args3) ["p.mat"; "q.mat"]%string /\
  settled_files (T := PrimFloat.float) no_files /\ (bpow radix2 (-1000) <= Rabs (1/10))%R /\
  exists fs', main_ends (Fops lnF) fscipy tenths imems mems eigvals (lists four) toys command3 no_files (false, Ok tt) fs'.
Proof. exact decimal_case. Qed.

(** One file of coordinates for all snapshots and the grid interpolator: however the program ends, no file is written or changed, and it
    does not end without an error.  There is such an end. *)
Theorem C83_program_refuted : forall {T} (O : ops T) scp parse_float imems mems eigvals texts inputs c a vs c0 ps p fs,
  parse_args parse_float c = Ok a -> interpolator_name a = Some "grid"%string ->
  listed texts (list_velocity_files a) vs -> listed texts (list_coordinate_files a) [c0] -> listed texts (list_particle_files a) ps ->
  window_length O (flow_map_period a) (Manager.snapshot_timestep a) = Ok (Z.of_nat p) -> 2 <= p <= length vs -> ps <> [] -> settled_files fs ->
  (exists b r fs', main_ends O scp parse_float imems mems eigvals texts inputs c fs (b, r) fs') /\
  forall b r fs', main_ends O scp parse_float imems mems eigvals texts inputs c fs (b, r) fs' -> (b, r) <> (false, Ok tt) /\ forall q, fs' q = fs q.
Proof. exact @static_ends. Qed.
Print Assumptions C83_program_refuted.

(** A command line as in examples/02_File-based_IO.ipynb, for four velocity files. *)
Example C83_program_case : forall lnF, parse_args tenths command_static = Ok args_static /\
  interpolator_name args_static = Some "grid"%string /\ listed (lists four) (list_velocity_files args_static) four /\
  listed (lists four) (list_coordinate_files args_static) ["c.mat"]%string /\ listed (lists four) (list_particle_files args_static) ["p.mat"; "q.mat"]%string /\
  window_length (Fops lnF) (flow_map_period args_static) (Manager.snapshot_timestep args_static) = Ok (Z.of_nat 3) /\
  exists m, manager_init (Fops lnF) fscipy (lists four) args_static = Ok m.
Proof. exact static_case. Qed.
