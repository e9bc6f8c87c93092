(** Vocabulary of the statements about file lists and file search.  No proofs here. *)
From Verif Require Import Base FileUtils.

(** Character [c] occurs in [s]. *)
Definition occurs (c : ascii) (s : string) : Prop := exists a b, s = append a (String c b).

(** A path that survives being written to a list and read back: no comma and no line break, no
    quotation mark at its beginning, not only blanks, and not a word that stands for a missing value. *)
Definition plain (p : string) : Prop :=
  ~ occurs "," p /\ ~ occurs "010" p /\ ~ occurs "013" p /\
  (forall q, p <> String """" q) /\
  (exists c, occurs c p /\ c <> " "%char /\ c <> "009"%char) /\
  ~ In p ["#N/A"; "#N/A N/A"; "#NA"; "-1.#IND"; "-1.#QNAN"; "-NaN"; "-nan"; "1.#IND"; "1.#QNAN"; "<NA>"; "N/A";
          "NA"; "NULL"; "NaN"; "None"; "n/a"; "nan"; "null"]%string.

(** [a] is a substring of [b]. *)
Definition substring_of (a b : string) : Prop := exists u v, b = append u (append a v).

(** [path] leads from a directory called [root] to an entry of name [name]; [is_dir]: to a directory. *)
Inductive entry : node -> string -> string -> string -> bool -> Prop :=
| entry_here root entries name t :
    In (name, t) entries ->
    entry (Dir entries) root (append root (append "/" name)) name (match t with Dir _ => true | File => false end)
| entry_below root entries dir t path name is_dir :
    In (dir, t) entries -> entry t (append root (append "/" dir)) path name is_dir ->
    entry (Dir entries) root path name is_dir.

(** Names in a directory differ and contain no "/". *)
Inductive proper : node -> Prop :=
| proper_file : proper File
| proper_dir entries :
    NoDup (map fst entries) ->
    (forall name t, In (name, t) entries -> ~ occurs "/" name /\ name <> ""%string /\ proper t) ->
    proper (Dir entries).

(** In the order of Python's comparison of strings. *)
Definition ascending (l : list string) : Prop :=
  forall i j a b, i < j -> nth_error l i = Some a -> nth_error l j = Some b -> String.leb a b = true.
