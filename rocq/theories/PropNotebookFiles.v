(** C128: the lists of velocity files are in the order of time.  C129: the script makes the lists that the notebook makes.

    [velocity_name w i] is "velocity", the number [i] in decimal filled with zeros to at least [w] digits, and ".mat". *)
From Coq Require Import Permutation.
From Verif Require Import Base FileUtils SpecText NotebookFiles NotebookFilesFacts.
Open Scope string_scope.

(** With the four digits of the notebook the order is wrong for some number of files. *)
Theorem C128_refuted : exists n entries, Permutation entries (map (velocity_name 4) (seq 1 n)) /\
  generate_list "velocity" "data" entries <> list_text (map (fun i => join "data" (velocity_name 4 i)) (seq 1 n)).
Proof. exact order_refuted. Qed.
Print Assumptions C128_refuted.

(** In whatever order the operating system names the entries of the directory, and whatever other entries there are, the list is
    in the order of the numbers exactly when the numbers fit in the width. *)
Theorem C128_partial : forall w n directory entries others, 1 <= w -> ~ occurs "010" directory ->
  Permutation entries (map (velocity_name w) (seq 1 n) ++ others)%list ->
  (forall f, In f others -> ~ ((exists s, f = append "velocity" s) /\ exists s, f = append s ".mat")) ->
  (generate_list "velocity" directory entries = list_text (map (fun i => join directory (velocity_name w i)) (seq 1 n)) <->
   n < Nat.pow 10 w).
Proof. exact notebook_list. Qed.
Print Assumptions C128_partial.

(** And then pyFTLE reads exactly these paths, in this order. *)
Theorem C128_read_partial : forall w n directory entries others, 1 <= n -> n < Nat.pow 10 w ->
  ~ occurs "," directory -> ~ occurs "010" directory -> ~ occurs "013" directory -> (forall q, directory <> String """" q) ->
  Permutation entries (map (velocity_name w) (seq 1 n) ++ others)%list ->
  (forall f, In f others -> ~ ((exists s, f = append "velocity" s) /\ exists s, f = append s ".mat")) ->
  get_files_list (Some (generate_list "velocity" directory entries)) =
  Ok (map Some (map (fun i => join directory (velocity_name w i)) (seq 1 n))).
Proof. exact notebook_read. Qed.
Print Assumptions C128_read_partial.

(** The same for the velocity list of create_list_of_input_files.py, whose files have "velocities" in their paths. *)
Theorem C128_script_partial : forall w n name all others, 1 <= w -> substring_of "velocities" name ->
  Permutation all (map (fun i => append name (numbered w i)) (seq 1 n) ++ others)%list ->
  (forall f, In f others -> ~ substring_of "velocities" f) ->
  (let '(velocity, _, _) := snd (create_list all) in velocity = map (fun i => append name (numbered w i)) (seq 1 n)) <->
  n < Nat.pow 10 w.
Proof. exact script_list. Qed.
Print Assumptions C128_script_partial.

(** Ten files with two digits, a list of seeds and a text file. *)
Example C128_case : Permutation listing (map (velocity_name 2) (seq 1 10) ++ ["particles.mat"; "velocity.txt"])%list /\
  (forall f, In f ["particles.mat"; "velocity.txt"] -> ~ ((exists s, f = append "velocity" s) /\ exists s, f = append s ".mat")) /\
  velocity_name 2 10 = "velocity10.mat" /\ velocity_name 2 7 = "velocity07.mat".
Proof. split; [exact listing_perm|]. split; [exact listing_others|]. split; reflexivity. Qed.

(** The notebook says that the script "basically does the same".  It does not find the velocity files of the notebook. *)
Theorem C129_refuted : exists d names,
  let '(v, c, p) := snd (create_list (find_files_with_pattern d (Dir (map (fun f => (f, File)) names)) ".mat")) in
  In (velocity_name 4 1) names /\ generate_list "velocity" d names = list_text [join d (velocity_name 4 1)] /\ v = [].
Proof. exact names_refuted. Qed.
Print Assumptions C129_refuted.

(** It never does, however many there are, unless another part of the path has the word it looks for. *)
Theorem C129_blind_partial : forall w n directory others, ~ substring_of "velocities" directory ->
  (forall f, In f others -> ~ substring_of "velocities" f) ->
  forall all, Permutation all (map (fun i => join directory (velocity_name w i)) (seq 1 n) ++ others)%list ->
  In No_velocity (fst (create_list all)) /\ (let '(velocity, _, _) := snd (create_list all) in velocity = []).
Proof. exact script_blind. Qed.
Print Assumptions C129_blind_partial.

(** For a directory of files whose names begin with the words of the script, where these are in the names at all, and in whose names
    ".mat" is only at the end, both make the same three lists. *)
Theorem C129_partial : forall d names,
  (forall f, In f names -> substring_of ".mat" f -> exists s, f = append s ".mat") ->
  (forall word, In word ["velocities"; "coordinate"; "particles"] ->
     ~ substring_of word d /\ forall f, In f names -> substring_of word f -> exists s, f = append word s) ->
  let '(v, c, p) := snd (create_list (find_files_with_pattern d (Dir (map (fun f => (f, File)) names)) ".mat")) in
  list_text v = generate_list "velocities" d names /\ list_text c = generate_list "coordinate" d names /\
  list_text p = generate_list "particles" d names.
Proof. exact script_same. Qed.
Print Assumptions C129_partial.

Example C129_case : let names := ["velocities2.mat"; "notes.txt"; "coordinates.mat"; "velocities1.mat"; "particles.mat"] in
  ((forall f, In f names -> substring_of ".mat" f -> exists s, f = append s ".mat") /\
   (forall word, In word ["velocities"; "coordinate"; "particles"] ->
     ~ substring_of word "data" /\ forall f, In f names -> substring_of word f -> exists s, f = append word s)) /\
  generate_list "velocities" "data" names = list_text ["data/velocities1.mat"; "data/velocities2.mat"].
Proof. exact same_case. Qed.
