(** Specification vocabulary for runs that are stopped and repeated. *)
From Verif Require Import Base Num NdArray Particles Jacobian Integrate Interpolate Readers DataSource
  Solver Writers FileRun FileUtils Hyper AnalyticalRun Manager Monitor Executor ManagerRun Jobs Program SpecProgram.

(** The files when the program is gone, at whatever moment it was stopped: what was being written is left as it is, and nobody writes any more. *)
Definition torn {T} (fs : files T) : files T :=
  fun p => match fs p with Some (Unfinished _) => Some Other | e => e end.

Section Spec.
  Context {T : Type} (O : ops T) (scp : scipy T).

  (** The paths of the output files that the command line [c] asks for. *)
  Definition asked_for (parse_float : string -> res T) (texts : string -> option string) (c : command_line) (p : string) : Prop :=
    exists a m ts f, parse_args parse_float c = Ok a /\ manager_init O scp texts a = Ok m /\ manager_batches O scp m = Ok ts /\
      In f ts /\ p = output_file scp m f.

  (** [left_behind outputs fs fs']: the disk had the files [fs], then the program was run any number of times, one run after the other, and the
      disk has the files [fs'].  Each run was stopped at any moment: when it had ended, with or without failures, or before, because
      everything was killed.  Each run had its own command line, its own input files and found its own values in fresh memory; it asked
      only for output files among [outputs]. *)
  Inductive left_behind (outputs : string -> Prop) (fs : files T) : files T -> Prop :=
  | never_run : left_behind outputs fs fs
  | stopped fs1 parse_float imems mems eigvals texts inputs c a m ts s :
      left_behind outputs fs fs1 ->
      parse_args parse_float c = Ok a -> manager_init O scp texts a = Ok m -> manager_batches O scp m = Ok ts ->
      (forall f, In f ts -> outputs (output_file scp m f)) ->
      steps (map (manager_task O scp imems mems eigvals inputs m) (indexed ts)) (m_processes m) (start [] false fs1) s ->
      left_behind outputs fs (torn (st_world s)).

  (** The same for AnalyticalSolver with a writer: each run had its own solver and its own objects, whose file names are among [outputs]. *)
  Inductive left_behind_analytical (outputs : string -> Prop) (fs : files T) : files T -> Prop :=
  | never_run_analytical : left_behind_analytical outputs fs fs
  | stopped_analytical fs1 imems mems eigvals wr w ts n q stop s :
      left_behind_analytical outputs fs fs1 ->
      (forall t id, In t ts -> src_id t = Ok id -> outputs (output_path wr (append "ftle_" id))) ->
      steps (map (saving_task O scp imems mems eigvals wr w) (indexed ts)) n (start q stop fs1) s ->
      left_behind_analytical outputs fs (torn (st_world s)).
End Spec.
