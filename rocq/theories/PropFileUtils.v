(** Properties C77 to C79: file_utils.py and create_list_of_input_files.py. *)
From Verif Require Import Base FileUtils SpecText FileUtilsFacts SearchFacts.
Open Scope string_scope.

(** C77.  Writing a list of paths and reading it back does not always return the list. *)
Theorem C77_refuted : exists l, get_files_list (Some (list_text l)) <> Ok (map Some l).
Proof. exact list_refuted. Qed.
Print Assumptions C77_refuted.

(** It returns the list exactly when there is a path and every path is plain. *)
Theorem C77_round_trip_partial : forall l,
  get_files_list (Some (list_text l)) = Ok (map Some l) <-> l <> [] /\ forall p, In p l -> plain p.
Proof. exact round_trip_iff. Qed.
Print Assumptions C77_round_trip_partial.

(** A path with a comma loses what follows the comma, without any error; the list without paths cannot be read. *)
Theorem C77_comma : get_files_list (Some (list_text ["run,1.mat"])) = Ok [Some "run"].
Proof. exact comma_path. Qed.
Print Assumptions C77_comma.
Theorem C77_empty : get_files_list (Some (list_text [])) = Err EmptyDataError.
Proof. exact list_empty. Qed.
Print Assumptions C77_empty.

Example C77_case : let l := ["/data/velocity 1.mat"; "/data/x""y"""] in
  l <> [] /\ (forall p, In p l -> plain p) /\ get_files_list (Some (list_text l)) = Ok (map Some l).
Proof. exact list_case. Qed.

(** C78.  The search also returns directories. *)
Theorem C78_refuted : exists root t pattern path,
  proper t /\ (forall c, In c ["*"; "?"; "["; "/"]%char -> ~ occurs c pattern) /\ pattern <> "" /\
  In path (find_files_with_pattern root t pattern) /\ forall name, ~ entry t root path name false.
Proof. exact find_refuted. Qed.
Print Assumptions C78_refuted.

(** It returns exactly the files and directories below the root whose name contains the pattern, *)
Theorem C78_entries : forall root t pattern path,
  (forall c, In c ["*"; "?"; "["; "/"]%char -> ~ occurs c pattern) -> pattern <> "" ->
  In path (find_files_with_pattern root t pattern) <->
  exists name is_dir, entry t root path name is_dir /\ substring_of pattern name.
Proof. exact find_entries. Qed.
Print Assumptions C78_entries.

(** in increasing order and each once; *)
Theorem C78_order : forall root t pattern, proper t ->
  ascending (find_files_with_pattern root t pattern) /\ NoDup (find_files_with_pattern root t pattern).
Proof. exact find_order. Qed.
Print Assumptions C78_order.

(** so exactly the files, if the name of no directory contains the pattern. *)
Theorem C78_files_partial : forall root t pattern path,
  (forall c, In c ["*"; "?"; "["; "/"]%char -> ~ occurs c pattern) -> pattern <> "" ->
  (forall path name, entry t root path name true -> ~ substring_of pattern name) ->
  In path (find_files_with_pattern root t pattern) <->
  exists name, entry t root path name false /\ substring_of pattern name.
Proof. exact find_files_only. Qed.
Print Assumptions C78_files_partial.

Example C78_case : proper tree /\ find_files_with_pattern "/data" tree ".mat" =
  ["/data/a.mat"; "/data/b.mat"; "/data/run.mats"; "/data/run.mats/c.mat"].
Proof. exact (conj tree_proper tree_search). Qed.
Example C78_files_case :
  (forall c, In c ["*"; "?"; "["; "/"]%char -> ~ occurs c ".mat") /\ ".mat" <> "" /\
  (forall path name, entry small_tree "/data" path name true -> ~ substring_of ".mat" name) /\
  find_files_with_pattern "/data" small_tree ".mat" = ["/data/a.mat"; "/data/b.mat"; "/data/run/c.mat"].
Proof. exact (conj (proj1 dot_mat_plain) (conj (proj2 dot_mat_plain) (conj small_tree_dirs small_search))). Qed.

(** C79.  A missing particle file is not reported if there is a coordinate file, *)
Theorem C79_refuted : exists l,
  (~ exists p, In p l /\ substring_of "particles" p) /\ ~ In No_particle (fst (create_list l)).
Proof. exact script_refuted. Qed.
Print Assumptions C79_refuted.

(** because it is reported exactly when there is no coordinate file. *)
Theorem C79_particle : forall l,
  In No_particle (fst (create_list l)) <-> ~ exists p, In p l /\ substring_of "coordinate" p.
Proof. exact script_particle. Qed.
Print Assumptions C79_particle.

(** The two other categories are reported as missing exactly when they are. *)
Theorem C79_warnings_partial : forall l,
  (In No_velocity (fst (create_list l)) <-> ~ exists p, In p l /\ substring_of "velocities" p) /\
  (In No_coordinate (fst (create_list l)) <-> ~ exists p, In p l /\ substring_of "coordinate" p).
Proof. exact script_right. Qed.
Print Assumptions C79_warnings_partial.

(** The lists that are written are the right ones. *)
Theorem C79_lists : forall l, let '(v, c, p) := snd (create_list l) in
  (ascending v /\ forall f, In f v <-> In f l /\ substring_of "velocities" f) /\
  (ascending c /\ forall f, In f c <-> In f l /\ substring_of "coordinate" f) /\
  (ascending p /\ forall f, In f p <-> In f l /\ substring_of "particles" f).
Proof. exact script_lists. Qed.
Print Assumptions C79_lists.

Example C79_case : create_list ["/d/velocities_2.mat"; "/d/velocities_1.mat"; "/d/coordinate.mat"] =
  ([], (["/d/velocities_1.mat"; "/d/velocities_2.mat"], ["/d/coordinate.mat"], [])).
Proof. exact eq_refl. Qed.
