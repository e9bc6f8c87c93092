(** Model of src/pyftle/__main__.py:168-187: one task of the file workflow, with the interpolator
    objects of Interpolate.v inside the solver of Solver.v.  No proofs here. *)
From Verif Require Import Base Num NdArray Particles Integrate Interpolate Readers DataSource Solver.

Section FileRun.
  Context {T : Type} (O : ops T) (scp : scipy T).
  (** Contents of the memory the interpolator allocates at its k-th call. *)
  Variable imems : nat -> memory (T := T).

  (** The interpolator object and the number of calls of [interpolate] made on it (interpolate.py:19-44). *)
  Definition istate : Type := interp scp * nat.

  (** interpolate.py:94-111 on that object; every call sees fresh memory of its own. *)
  Definition i_interpolate (s : istate) (q : mat T) : istate * res (mat T) :=
    let (i, r) := interpolate O scp (imems (snd s)) (fst s) q in ((i, 1 + snd s), r).

  (** interpolate.py:70-91 on that object. *)
  Definition i_update (s : istate) (v : mat T) (p : option (mat T)) : istate * res unit :=
    let (i, r) := update O scp (fst s) v p in ((i, snd s), r).

  (** The source of a task (data_source.py:86-211) working on this interpolator. *)
  Definition file_task (fs : filesystem T) (f : file_source T) : source T istate unit :=
    file_batch O i_update fs f.

  (** __main__.py:168-187, _worker. *)
  Definition file_worker {W} (eigvals : Jacobian.m33 T -> res (T * T * T)) (mems : nat -> memory (T := T))
    (write : W -> string -> list (xval T) -> mat T -> W * res unit)
    (fs : filesystem T) (f : file_source T) (queue writer : bool) (w : world T istate unit W)
    : world T istate unit W * res (option (list (xval T))) :=
    run O i_interpolate eigvals mems write (Solver (file_task fs f) queue writer) w.
End FileRun.
Arguments istate {T} scp.
