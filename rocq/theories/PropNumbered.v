(** Property C104: the order of the snapshots in the lists of input files. *)
From Verif Require Import Base FileUtils SpecText SpecNumbered NumberedFacts.
Local Open Scope string_scope.

(** C104.  The list of velocity files that create_list_of_input_files.py writes is not always in the order of the
    numbers of the snapshots: number 10 comes before number 2. *)
Theorem C104_refuted : exists root t before after,
  proper t /\
  let velocity := fst (fst (snd (create_list (find_files_with_pattern root t ".mat")))) in
  (forall path, In path velocity -> exists n, numbered before after path n) /\
  ~ in_time_order before after velocity.
Proof. exact unpadded_refuted. Qed.
Print Assumptions C104_refuted.

(** Each of the three lists is in that order if all its files have numbers of the same number of digits. *)
Theorem C104_padded_partial : forall root t before after w, proper t ->
  let '(velocity, coordinate, particle) := snd (create_list (find_files_with_pattern root t ".mat")) in
  forall l, In l [velocity; coordinate; particle] ->
  (forall path, In path l -> numbered_width w before after path) -> in_time_order before after l.
Proof. exact padded_script. Qed.
Print Assumptions C104_padded_partial.

(** The same for what find_files_with_pattern returns. *)
Theorem C104_search_partial : forall root t pattern before after w, proper t ->
  (forall path, In path (find_files_with_pattern root t pattern) -> numbered_width w before after path) ->
  in_time_order before after (find_files_with_pattern root t pattern).
Proof. exact padded_search. Qed.
Print Assumptions C104_search_partial.

Example C104_case : proper padded /\
  let velocity := fst (fst (snd (create_list (find_files_with_pattern "/data" padded ".mat")))) in
  velocity = ["/data/velocities_02.mat"; "/data/velocities_10.mat"] /\
  (forall path, In path velocity -> numbered_width 2 "/data/velocities_" ".mat" path) /\
  numbered "/data/velocities_" ".mat" "/data/velocities_02.mat" 2 /\
  numbered "/data/velocities_" ".mat" "/data/velocities_10.mat" 10.
Proof. exact padded_case. Qed.
