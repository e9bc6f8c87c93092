(** Model of examples/02_File-based_IO.ipynb: the names of the velocity files and the function [generate_list_of_filenames] that
    users are told to copy.  No proofs here. *)
From Verif Require Import Base Text FileUtils.
Open Scope string_scope.

(** [str.zfill] of a string without sign, called in cell 8. *)
Fixpoint zeros (n : nat) : string := match n with 0 => "" | S n' => String "0" (zeros n') end.
(** The string itself, in cell 8. *)
Definition zfill (width : nat) (s : string) : string := append (zeros (width - String.length s)) s.

(** Cell 8 (counting from 0), "timestep = 0.001": [f"velocity{str(i+1).zfill(4)}.mat"], here for the number [i+1] and any width. *)
Definition numbered (width : nat) (i : nat) : string := append (zfill width (decimal i)) ".mat".
(** The name without its suffix, in cell 8. *)
Definition velocity_name (width i : nat) : string := append "velocity" (numbered width i).

(** [s.endswith(e)], called in cells 12 and 14. *)
Fixpoint ends_with (e s : string) : bool :=
  String.eqb e s || match s with EmptyString => false | String _ s' => ends_with e s' end.

(** [os.path.join(directory, filename)], called in cells 12 and 14, for a directory that is not empty and does not end with "/", and a file name
    without "/". *)
Definition join (directory filename : string) : string := append directory (append "/" filename).

(** Cells 12 and 14, [generate_list_of_filenames]: the contents of the list; [entries] is what [os.listdir(directory)] returns. *)
Definition generate_list (pattern directory : string) (entries : list string) : string :=
  list_text (map (join directory) (sorted (filter (fun f => prefix pattern f && ends_with ".mat" f) entries))).
