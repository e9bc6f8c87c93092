(** Property C83, for the files and the configuration of examples/02_File-based_IO.ipynb. *)
From Coq Require Import Permutation Lia Floats.
From Verif Require Import Base Num NdArray Text Integrate Interpolate Readers DataSource FileUtils Hyper Manager Jobs Program ConfigFile Args NotebookFiles
  SpecText SpecProgram SpecConfigFile SpecArgs SpecNotebookRun ConfigFileCases NotebookRun.
Open Scope string_scope.

(** The notebook writes n = 1200 velocity files, coordinates.mat and particles.mat into a directory, makes the three lists from it, gives a
    configuration file and the command "pyftle -c config.yaml".  Whatever is in the files, and in whatever order the directory is listed, every
    run of this command ends, never without an error, and leaves all output files as they were. *)
Theorem C83_notebook_refuted : forall lnF scp parse_float imems mems eigvals texts inputs text n directory entries fs,
  parse_float "0.001" = Ok 0.001%float -> parse_float "0.5" = Ok 0.5%float ->
  written notebook_config text -> texts "config.yaml" = Some text ->
  (501 <= Z.of_nat n < 10000)%Z -> Permutation entries (map (velocity_name 4) (seq 1 n) ++ ["coordinates.mat"; "particles.mat"])%list ->
  ~ occurs "," directory -> ~ occurs "010" directory -> ~ occurs "013" directory -> (forall q, directory <> String """" q) ->
  texts "examples/velocity_filenames.txt" = Some (generate_list "velocity" directory entries) ->
  texts "examples/coordinate_filenames.txt" = Some (generate_list "coordinates" directory entries) ->
  texts "examples/particle_filenames.txt" = Some (generate_list "particles" directory entries) ->
  settled_files fs ->
  (exists b r fs', argv_ends (Fops lnF) scp parse_float imems mems eigvals texts inputs ["-c"; "config.yaml"] fs (b, r) fs') /\
  forall b r fs', argv_ends (Fops lnF) scp parse_float imems mems eigvals texts inputs ["-c"; "config.yaml"] fs (b, r) fs' ->
    (b, r) <> (false, Ok tt) /\ forall q, fs' q = fs q.
Proof. exact notebook_ends. Qed.
Print Assumptions C83_notebook_refuted.

(** The directory and the number of files of the notebook; these texts are on the disk. *)
Example C83_notebook_case :
  let directory := "/home/me/pyFTLE/examples/example_generated_files" in let n := Z.to_nat 1200 in
  let entries := (map (velocity_name 4) (seq 1 n) ++ ["coordinates.mat"; "particles.mat"])%list in
  (501 <= Z.of_nat n < 10000)%Z /\ (forall c, In c [","; "010"; "013"]%char -> ~ occurs c directory) /\ (forall q, directory <> String """" q) /\
  written notebook_config (text_of notebook_config) /\
  exists texts : string -> option string, texts "config.yaml" = Some (text_of notebook_config) /\
    texts "examples/velocity_filenames.txt" = Some (generate_list "velocity" directory entries) /\
    texts "examples/coordinate_filenames.txt" = Some (generate_list "coordinates" directory entries) /\
    texts "examples/particle_filenames.txt" = Some (generate_list "particles" directory entries).
Proof.
  cbv zeta. split; [lia|]. split; [|split; [intros q; discriminate|split; [apply text_written|]]].
  - intros c [<-|[<-|[<-|[]]]]; apply absent_test; reflexivity.
  - set (v := generate_list "velocity" _ _). set (c := generate_list "coordinates" _ _). set (p := generate_list "particles" _ _). clearbody v c p.
    exists (fun f => if String.eqb f "config.yaml" then Some (text_of notebook_config) else if String.eqb f "examples/velocity_filenames.txt" then Some v
      else if String.eqb f "examples/coordinate_filenames.txt" then Some c else Some p). repeat split; reflexivity.
Qed.
