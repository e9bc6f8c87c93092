(** The same command in minutes and in seconds. *)
From Coq Require Import Lia Reals Lra.
From Verif Require Import Base Num NdArray Text Interpolate DataSource FileUtils Manager Program SpecUnits SpecTimescale SpecGridProgram ReverseCases.

Definition clock_of (s : string) : res R :=
  if String.eqb s "1" then Ok 1%R else if String.eqb s "2" then Ok 2%R else if String.eqb s "60" then Ok 60%R else if String.eqb s "120" then Ok 120%R else Err ValueError.
Definition timed_command (step period : string) : command_line :=
  CommandLine (Some "run") (Some "v.txt") (Some "c.txt") (Some "p.txt") (Some step) (Some period) (Some "rk4") (Some "linear") (Some "4") (Some "vtk") None None.
Definition timed_args (step period : R) : program_args R :=
  ProgramArgs "run" "v.txt" "c.txt" "p.txt" step period (Some "rk4"%string) (Some "linear"%string) 4%Z (Some "vtk"%string) None None.

Lemma units_case : parse_args clock_of (timed_command "1" "2") = Ok (timed_args 1 2) /\ parse_args clock_of (timed_command "60" "120") = Ok (timed_args 60 120) /\
  Manager.snapshot_timestep (timed_args 60 120) = (60 * Manager.snapshot_timestep (timed_args 1 2))%R /\
  Manager.flow_map_period (timed_args 60 120) = (60 * Manager.flow_map_period (timed_args 1 2))%R /\ homogeneous 60 nearest_scipy.
Proof. do 2 (split; [reflexivity|]). split; [cbn; ring|]. split; [cbn; ring|]. apply nearest_homogeneous. Qed.
