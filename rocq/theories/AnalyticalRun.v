(** Model of src/pyftle/api.py:93-183: tasks of AnalyticalSolver, and the ids of tasks.  No proofs here. *)
From Coq Require Import Reals.
From Verif Require Import Base Num Text Particles Integrate Interpolate DataSource Solver Batches FileRun.

Section AnalyticalRun.
  Context {T : Type} (O : ops T) (scp : scipy T).
  Variable imems : nat -> memory (T := T).
  Variable format : T -> string.

  (** api.py:125-155, _create_batches. *)
  Definition analytical_tasks (num_ftles num_snapshots : Z) (timestep : T) : list (source T (istate scp) (particles T)) :=
    map (analytical_batch format timestep) (time_batches O num_ftles num_snapshots timestep).

  (** api.py:93-123, __init__: the objects every task is given a copy of. *)
  Definition analytical_start {W} (velocity_fn : T -> mat T -> res (mat T)) (p : particles T) (integrator_name : string)
    (writer : W) : res (world T (istate scp) (particles T) W) :=
    let* i := create_interpolator O scp "analytical" None (Some velocity_fn) in
    let* g := create_integrator integrator_name in
    Ok (World g (i, 0) p [] writer 0).

  (** api.py:157-183, _worker. *)
  Definition analytical_worker {W} (eigvals : Jacobian.m33 T -> res (T * T * T)) (mems : nat -> memory (T := T))
    (write : W -> string -> list (xval T) -> mat T -> W * res unit)
    (task : source T (istate scp) (particles T)) (queue writer : bool) (w : world T (istate scp) (particles T) W)
    : world T (istate scp) (particles T) W * res (option (list (xval T))) :=
    run O (i_interpolate O scp imems) eigvals mems write (Solver task queue writer) w.
End AnalyticalRun.

(** data_source.py:249-252, f"{x:06f}" of a real number: rounding to six decimals, ties to even. *)
Definition round_half_even (x : R) : Z :=
  let k := Int_part x in
  if Rlt_dec (x - IZR k) (1/2) then k
  else if Rlt_dec (1/2) (x - IZR k) then (k + 1)%Z
  else if Z.even k then k else (k + 1)%Z.
(** data_source.py:249-252, the text of a number in the name of a snapshot; the rounding is that of the function above. *)
Definition format6 (x : R) : string :=
  fixed6 (if Rlt_dec x 0 then true else false) (Z.to_nat (round_half_even (Rabs x * IZR (10 ^ 6)))).
