(** A case for C56: two tasks on a 3 x 3 grid, in binary64. *)
From Coq Require Import Floats.
From Verif Require Import Base Num NdArray Particles Integrate Interpolate Readers DataSource Solver FileRun SpecMem SpecInterp SpecIntegrate.

Definition sheet (l : list float) : option (nd float) := Some (Nd [3; 3] l).
Definition sheets : matfile float := fun k =>
  if existsb (String.eqb k) ["coordinate_x"; "velocity_x"]%string then sheet [-1; 0; 1; -1; 0; 1; -1; 0; 1]%float else
  if existsb (String.eqb k) ["coordinate_y"; "velocity_y"]%string then sheet [-1; -1; -1; 0; 0; 0; 1; 1; 1]%float else None.
Definition one_row (x y : float) : option (nd float) := Some (Nd [1; 2] [x; y]).
Definition four_points : matfile float := fun k =>
  if String.eqb k "left" then one_row (-0.25) 0 else if String.eqb k "right" then one_row 0.25 0 else
  if String.eqb k "top" then one_row 0 0.25 else if String.eqb k "bottom" then one_row 0 (-0.25) else None.
Definition little_files : filesystem float := fun name =>
  if String.eqb name "p.mat" then Ok four_points else if String.eqb name "lost.mat" then Err FileNotFoundError else Ok sheets.
Definition task (snapshots : list string) : file_source float :=
  FileSource snapshots ["c0.mat"; "c1.mat"]%string "p.mat" 0.5%float 2 false "v0".

Lemma history_case : forall (lnF : float -> float) (scp : scipy float) fn (imems mems : nat -> memory (T := float)) eigvals (write : unit -> string -> list (xval float) -> mat float -> unit * res unit),
  exists (i0 : interp scp) g0 f,
  let w := World g0 (i0, 0) tt [] tt 0 in
  let run g q wr := file_worker (Fops lnF) scp imems eigvals mems write little_files g q wr in
  create_interpolator (Fops lnF) scp "Grid" (Some [3; 3]) fn = Ok i0 /\ create_integrator "RK4" = Ok g0 /\ whole_arrays little_files /\
  seeds_have 2 little_files "p.mat" /\
  snd (run (task ["v0.mat"; "lost.mat"]%string) true false w) = Err FileNotFoundError /\
  fst (w_interp (fst (run (task ["v0.mat"; "lost.mat"]%string) true false w))) <> i0 /\
  snd (run (task ["v0.mat"; "v1.mat"]%string) true false (fst (run (task ["v0.mat"; "lost.mat"]%string) true false w))) = Ok (Some f) /\ length f = 1.
Proof.
  intros. do 3 eexists. cbv zeta. split; [reflexivity|]. split; [reflexivity|]. split.
  { intros name file key a. unfold little_files. destruct (String.eqb name "p.mat").
    - intros [= <-]. unfold four_points, one_row.
      repeat match goal with |- context [if ?x then _ else _] => destruct x end; intros [= <-]; reflexivity.
    - destruct (String.eqb name "lost.mat"); [discriminate|]. intros [= <-]. unfold sheets, sheet.
      repeat match goal with |- context [if ?x then _ else _] => destruct x end; intros [= <-]; reflexivity. }
  split.
  { intros file a. change (little_files "p.mat"%string) with (@Ok (matfile float) four_points). intros [= <-] [= <-]. exists 1. reflexivity. }
  split; [vm_compute; reflexivity|]. split; [vm_compute; discriminate|]. split; vm_compute; reflexivity.
Qed.
