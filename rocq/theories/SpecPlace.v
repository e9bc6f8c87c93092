(** Specification vocabulary for where output files are put. *)
From Verif Require Import Base.

(** A path that starts at the root. *)
Definition absolute (s : string) : Prop := exists r, s = String "/" r.
(** A directory to which a name can be appended as it is: the current one, written as the empty string, or one written with a slash at its end. *)
Definition open_ended (dir : string) : Prop := dir = EmptyString \/ exists d, dir = append d "/".
(** [path] is the file [name] of directory [dir]. *)
Definition placed (dir name path : string) : Prop :=
  (absolute name -> path = name) /\
  (~ absolute name -> open_ended dir -> path = append dir name) /\
  (~ absolute name -> ~ open_ended dir -> path = append dir (append "/" name)).
