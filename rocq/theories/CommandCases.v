(** Command lines for C119. *)
From Coq Require Import String.
From Verif Require Import Base Manager SpecConfig SpecCommand CommandFacts MemCases.

Definition no_period : command_line :=
  CommandLine (Some "run") (Some "v.txt") (Some "c.txt") (Some "p.txt") (Some "1") None (Some "euler") (Some "nearest") (Some "1") (Some "mat") None None.
Definition no_such_integrator : command_line :=
  CommandLine (Some "run") (Some "v.txt") (Some "c.txt") (Some "p.txt") (Some "1") (Some "1") (Some "rk45") (Some "nearest") (Some "1") (Some "mat") None None.
Lemma command_case : acceptable read_one still_command /\ ~ acceptable read_one no_period /\ ~ acceptable read_one no_such_integrator.
Proof.
  split; [apply args_accepted; exists still_args; exact still_parsed|].
  split; intro H; apply args_accepted in H; destruct H as (a & H); vm_compute in H; discriminate.
Qed.
