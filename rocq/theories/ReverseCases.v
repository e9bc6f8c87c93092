(** A SciPy that answers with the value at the nearest sample, and command lines in both directions of time. *)
From Coq Require Import Lia Reals Lra.
From Verif Require Import Base Num NdArray Text Particles Jacobian Ftle Integrate Interpolate Readers DataSource Solver FileRun Writers Batches FileUtils
  Hyper Manager Program SpecUnits SpecTimescale SpecGridProgram TimescaleFacts.
Open Scope nat_scope.

Fixpoint distance2 (p q : list R) : R :=
  match p, q with x :: p', y :: q' => ((x - y) * (x - y) + distance2 p' q')%R | _, _ => 0%R end.
Fixpoint closest (q : list R) (best : nat) (d : R) (i : nat) (points : list (list R)) : nat :=
  match points with
  | [] => best
  | p :: rest => if Rlt_dec (distance2 p q) d then closest q i (distance2 p q) (S i) rest else closest q best d (S i) rest
  end.
Definition closest_point (points : mat R) (q : list R) : nat :=
  match mrows points with [] => 0 | p :: rest => closest q 0 (distance2 p q) 1 rest end.
Definition at_closest {A} (points : mat R) (values : list A) (q : mat R) : res (list A) :=
  mapr (fun x => get values (closest_point points x)) (mrows q).
(** On a grid: the value at the first node. *)
Definition nearest_scipy : scipy R :=
  Scipy R (mat R) (fun p => Ok p) at_closest at_closest at_closest (fun _ => Ok tt) at_closest at_closest
    (fun _ _ _ => Ok tt) (fun _ _ _ v q => mapr (fun _ => get (data v) 0) (mrows q)).

Lemma at_closest_map {A} (f : A -> A) p z q : at_closest p (map f z) q = divided f (at_closest p z q).
Proof. unfold at_closest. change (divided f) with (rmap (map f)). rewrite <- mapr_rmap. apply mapr_ext. intro. apply get_map. Qed.
Lemma nearest_homogeneous c : homogeneous c nearest_scipy.
Proof.
  unfold homogeneous. cbn. do 5 (split; [intros; apply at_closest_map|]). split; [reflexivity|].
  intros m axes b v q. change (divided (retime c)) with (rmap (map (retime c))). rewrite <- mapr_rmap. apply mapr_ext. intro. apply get_map.
Qed.

Definition steps_of (s : string) : res R := if String.eqb s "-1" then Ok (-1)%R else if String.eqb s "1" then Ok 1%R else if String.eqb s "2" then Ok 2%R else Err ValueError.
Definition command_at (v step : string) : command_line :=
  CommandLine (Some "run") (Some v) (Some "c.txt") (Some "p.txt") (Some step) (Some "2") (Some "rk4") (Some "linear") (Some "4") (Some "vtk") None None.
Definition args_at (v : string) (step : R) : program_args R :=
  ProgramArgs "run" v "c.txt" "p.txt" step 2%R (Some "rk4"%string) (Some "linear"%string) 4%Z (Some "vtk"%string) None None.
Definition newline : string := String "010" "".
Definition both_lists (name : string) : option string :=
  if String.eqb name "v.txt" then Some (append "a.mat" (append newline (append "b.mat" (append newline "c.mat"))))
  else if String.eqb name "r.txt" then Some (append "c.mat" (append newline (append "b.mat" (append newline "a.mat"))))
  else if String.eqb name "c.txt" then Some "grid.mat"%string
  else if String.eqb name "p.txt" then Some "seeds.mat"%string else None.

Lemma reverse_case : parse_args steps_of (command_at "v.txt" "-1") = Ok (args_at "v.txt" (-1)%R) /\
  parse_args steps_of (command_at "r.txt" "1") = Ok (args_at "r.txt" (1)%R) /\
  Manager.snapshot_timestep (args_at "r.txt" (1)%R) = (- Manager.snapshot_timestep (args_at "v.txt" ((-1)))%R)%R /\
  (Manager.snapshot_timestep (args_at "v.txt" (-1)%R) < 0)%R /\
  listed both_lists "v.txt" ["a.mat"; "b.mat"; "c.mat"]%string /\ listed both_lists "r.txt" (rev ["a.mat"; "b.mat"; "c.mat"]%string) /\
  listed both_lists "c.txt" ["grid.mat"]%string /\ listed both_lists "p.txt" ["seeds.mat"]%string /\
  homogeneous (-1) nearest_scipy.
Proof.
  do 2 (split; [reflexivity|]). split; [cbn; ring|]. split; [cbn; lra|]. do 4 (split; [reflexivity|]). apply nearest_homogeneous.
Qed.
