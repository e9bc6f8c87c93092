(** Specification vocabulary for file names. *)
From Verif Require Import Base.

(** The character [c] occurs in [s]. *)
Fixpoint has_char (c : ascii) (s : string) : bool :=
  match s with EmptyString => false | String a s' => Ascii.eqb a c || has_char c s' end.

(** The file [a.e] in the directory [d]. *)
Definition plain_file (d a e : string) : string := append d (append "/" (append a (append "." e))).
