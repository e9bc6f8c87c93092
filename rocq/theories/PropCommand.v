(** Property C119: which command lines the program accepts. *)
From Coq Require Import String Reals.
From Verif Require Import Base Num Manager Jobs Program SpecConfig SpecCommand HyperFacts GridProgramCases CommandFacts MemCases CommandCases.

(** The options are accepted exactly if they are as documented ([acceptable]). *)
Theorem C119_accepted : forall (T : Type) (parse_float : string -> res T) c,
  (exists a, parse_args parse_float c = Ok a) <-> acceptable parse_float c.
Proof. exact @args_accepted. Qed.
Print Assumptions C119_accepted.

(** Then the program works with the options given. *)
Theorem C119_as_given : forall (T : Type) (parse_float : string -> res T) c a, parse_args parse_float c = Ok a -> as_given parse_float c a.
Proof. exact @args_given. Qed.
Print Assumptions C119_as_given.

(** Otherwise the program exits with SystemExit, says nothing about a failure of its own, and leaves all files alone. *)
Theorem C119_refused : forall (T : Type) (parse_float : string -> res T) (O : ops T) scp imems mems eigvals texts inputs c fs,
  ~ acceptable parse_float c ->
  main_ends O scp parse_float imems mems eigvals texts inputs c fs (false, Err SystemExit) fs /\
  forall out fs', main_ends O scp parse_float imems mems eigvals texts inputs c fs out fs' -> out = (false, Err SystemExit) /\ fs' = fs.
Proof. exact @refused. Qed.
Print Assumptions C119_refused.

(** A command line that is accepted, one without a period, and one with an integrator that does not exist. *)
Example C119_case : acceptable read_one still_command /\ ~ acceptable read_one no_period /\ ~ acceptable read_one no_such_integrator.
Proof. exact command_case. Qed.
