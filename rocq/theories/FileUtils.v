(** Model of src/pyftle/file_utils.py and create_list_of_input_files.py.  Strings are sequences of bytes;
    the platform is POSIX (text mode writes "\n" as it is).  No proofs here. *)
From Verif Require Import Base.
Open Scope string_scope.

(** The character that ends a line in the lists of file_utils.py. *)
Definition newline : ascii := "010".
(** Carriage return, which read_csv takes for the end of a line (file_utils.py:97). *)
Definition carriage : ascii := "013".
(** Tabulator (file_utils.py:97). *)
Definition tab : ascii := "009".
(** The separator of read_csv (file_utils.py:97). *)
Definition comma : ascii := ",".
(** The quotation mark of read_csv (file_utils.py:97). *)
Definition quote : ascii := """".
(** The blanks that read_csv skips in a line that is otherwise empty (file_utils.py:97). *)
Definition blank (c : ascii) : bool := (Ascii.eqb c " " || Ascii.eqb c tab)%bool.
(** Test for a newline (file_utils.py:65, 97). *)
Definition is_newline (c : ascii) : bool := Ascii.eqb c newline.
(** Test for a carriage return (file_utils.py:97). *)
Definition is_carriage (c : ascii) : bool := Ascii.eqb c carriage.
(** Test for the separator (file_utils.py:97). *)
Definition is_comma (c : ascii) : bool := Ascii.eqb c comma.
(** Test for the quotation mark (file_utils.py:97). *)
Definition is_quote (c : ascii) : bool := Ascii.eqb c quote.
(** s + c for a string and a character (file_utils.py:65). *)
Definition snoc (s : string) (c : ascii) : string := append s (String c EmptyString).

(** file_utils.py:41-65, write_list_to_txt: the contents of the file. *)
Fixpoint list_text (l : list string) : string :=
  match l with
  | [] => EmptyString
  | p :: l' => append p (String newline (list_text l'))
  end.

(** pandas.read_csv(file, header=None, dtype=str) (called at file_utils.py:97), from pandas'
    tokenizer.c: delimiter ",", quote character with doubling, blank lines skipped.
    Simplifications: no byte order mark; a bare "\r" ends a line. *)
Inductive mode : Type :=
| StartRecord
| WhitespaceLine      (* only blanks so far in this line *)
| StartField
| InField
| InQuoted
| QuoteInQuoted
| EatNewline          (* "\r" after a field *)
| EatNewlineSkip.     (* "\r" in a blank line *)

(** The lines, each given by its fields, that are read from the text [s] in mode [m], when the current line has
    the complete fields [fields] and then [field] (file_utils.py:97). *)
Fixpoint tokenize (m : mode) (fields : list string) (field : string) (s : string) : res (list (list string)) :=
  match s with
  | EmptyString =>
      match m with
      | StartRecord | WhitespaceLine | EatNewlineSkip => Ok []
      | InQuoted => Err ParserError                              (* EOF inside string *)
      | StartField | InField | QuoteInQuoted => Ok [(fields ++ [field])%list]
      | EatNewline => Ok [fields]
      end
  | String c s' =>
      let end_line (l : list string) := let* ls := tokenize StartRecord [] EmptyString s' in Ok (l :: ls) in
      let in_field (fields : list string) (field : string) :=
        if is_newline c then end_line (fields ++ [field])%list
        else if is_carriage c then tokenize EatNewline (fields ++ [field])%list EmptyString s'
        else if is_comma c then tokenize StartField (fields ++ [field])%list EmptyString s'
        else tokenize InField fields (snoc field c) s' in
      let start_field (fields : list string) :=
        if is_newline c then end_line (fields ++ [EmptyString])%list
        else if is_carriage c then tokenize EatNewline (fields ++ [EmptyString])%list EmptyString s'
        else if is_quote c then tokenize InQuoted fields EmptyString s'
        else if is_comma c then tokenize StartField (fields ++ [EmptyString])%list EmptyString s'
        else tokenize InField fields (String c EmptyString) s' in
      let start_record :=
        if is_newline c then tokenize StartRecord [] EmptyString s'
        else if is_carriage c then tokenize EatNewlineSkip [] EmptyString s'
        else if blank c then tokenize WhitespaceLine [] (String c EmptyString) s'
        else start_field [] in
      match m with
      | StartRecord => start_record
      | WhitespaceLine =>
          if is_newline c then tokenize StartRecord [] EmptyString s'
          else if is_carriage c then tokenize EatNewlineSkip [] EmptyString s'
          else if blank c then tokenize WhitespaceLine [] (snoc field c) s'
          else in_field [] field
      | StartField => start_field fields
      | InField => in_field fields field
      | InQuoted =>
          if is_quote c then tokenize QuoteInQuoted fields field s' else tokenize InQuoted fields (snoc field c) s'
      | QuoteInQuoted =>
          if is_newline c then end_line (fields ++ [field])%list
          else if is_carriage c then tokenize EatNewline (fields ++ [field])%list EmptyString s'
          else if is_quote c then tokenize InQuoted fields (snoc field c) s'
          else if is_comma c then tokenize StartField (fields ++ [field])%list EmptyString s'
          else tokenize InField fields (snoc field c) s'
      | EatNewline =>
          if is_newline c then end_line fields
          else let* ls := start_record in Ok (fields :: ls)
      | EatNewlineSkip => if is_newline c then tokenize StartRecord [] EmptyString s' else start_record
      end
  end.

(** The strings that read_csv takes for missing values (pandas/_libs/parsers.pyx, STR_NA_VALUES). *)
Definition na_values : list string :=
  [""; "#N/A"; "#N/A N/A"; "#NA"; "-1.#IND"; "-1.#QNAN"; "-NaN"; "-nan"; "1.#IND"; "1.#QNAN"; "<NA>"; "N/A";
   "NA"; "NULL"; "NaN"; "None"; "n/a"; "nan"; "null"].
(** The field is read as a missing value (read_csv in file_utils.py). *)
Definition is_na (s : string) : bool := existsb (String.eqb s) na_values.

(** Column 0 of the data frame; [None] is the float NaN (file_utils.py:97). *)
Definition read_column (s : string) : res (list (option string)) :=
  let* ls := tokenize StartRecord [] EmptyString s in
  match ls with
  | [] => Err EmptyDataError
  | l0 :: _ =>
      if existsb (fun l => Nat.ltb (length l0) (length l)) ls then Err ParserError
      else Ok (map (fun l => let f := hd EmptyString l in if is_na f then None else Some f) ls)
  end.

(** file_utils.py:68-100, get_files_list; [None] is a file that does not exist. *)
Definition get_files_list (file : option string) : res (list (option string)) :=
  match file with
  | Some text => read_column text
  | None => Err FileNotFoundError
  end.

(** A directory tree (file_utils.py:36). *)
Inductive node : Type :=
| File
| Dir (entries : list (string * node)).

(** fnmatch.translate of a pattern without "[": "*" is any string, "?" any character (file_utils.py:36). *)
Fixpoint glob (p s : string) : bool :=
  match p with
  | EmptyString => match s with EmptyString => true | _ => false end
  | String a p' =>
      if Ascii.eqb a "*" then
        (fix star (s : string) : bool :=
           glob p' s || match s with EmptyString => false | String _ s' => star s' end) s
      else match s with
           | EmptyString => false
           | String b s' => (Ascii.eqb a "?" || Ascii.eqb a b)%bool && glob p' s'
           end
  end.

(** Path.rglob: every entry below a directory whose name matches, with its path, directories included.
    Simplifications: no symbolic links, every directory can be listed (file_utils.py:36). *)
Fixpoint rglob (p : string) (path : string) (t : node) : list string :=
  match t with
  | File => []
  | Dir entries =>
      flat_map (fun e =>
        let q := append path (append "/" (fst e)) in
        (if glob p (fst e) then [q] else []) ++ rglob p q (snd e))%list entries
  end.

(** sorted on strings (file_utils.py:36). *)
Fixpoint insert_sorted (x : string) (l : list string) : list string :=
  match l with
  | [] => [x]
  | y :: l' => if String.leb x y then x :: l else y :: insert_sorted x l'
  end.
(** sorted(l), called in create_list_of_input_files.py. *)
Definition sorted (l : list string) : list string := fold_right insert_sorted [] l.

(** file_utils.py:8-38, find_files_with_pattern, for a root without trailing "/".  (For the empty
    pattern Python's rglob("**") differs; a root that does not exist is [File].) *)
Definition find_files_with_pattern (root : string) (t : node) (pattern : string) : list string :=
  sorted (rglob (append "*" (append pattern "*")) root t).

(** [a in b] on strings (create_list_of_input_files.py:14-16). *)
Fixpoint contains (a b : string) : bool :=
  prefix a b || match b with EmptyString => false | String _ b' => contains a b' end.

(** create_list_of_input_files.py:9-38: the warnings printed, and the three lists written. *)
Inductive warning : Type := No_velocity | No_coordinate | No_particle.
(** not l, the tests before the warnings in create_list_of_input_files.py:9-38. *)
Definition is_nil {A} (l : list A) : bool := match l with [] => true | _ => false end.
(** The main part of create_list_of_input_files.py:9-38. *)
Definition create_list (all_mat_files : list string) : list warning * (list string * list string * list string) :=
  let velocity_files := sorted (filter (contains "velocities") all_mat_files) in
  let coordinate_files := sorted (filter (contains "coordinate") all_mat_files) in
  let particle_files := sorted (filter (contains "particles") all_mat_files) in
  ((if is_nil velocity_files then [No_velocity] else []) ++
   (if is_nil coordinate_files then [No_coordinate] else []) ++
   (if is_nil coordinate_files then [No_particle] else []),
   (velocity_files, coordinate_files, particle_files))%list.
