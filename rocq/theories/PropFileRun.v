(** Properties C45 and C83: tasks of the file workflow, src/pyftle/data_source.py and __main__.py. *)
From Coq Require Import Reals.
From Verif Require Import Base Num NdArray Particles Integrate GridInterp Interpolate Readers DataSource Solver FileRun
  SpecIntegrate SpecInterp SpecSolver ParticleFacts StructMain SolverCases FileRunFacts FileRunCases.

(** C45.  After [j] steps of any task, the update of step [j] leaves the interpolator in the state that
    an update with the velocities of the j-th snapshot file AND the coordinates of the j-th coordinate
    file produces, although the task reads the coordinates only when they may have changed. *)
Theorem C45_own_snapshot : forall (T : Type) (O : ops T) (scp : scipy T) (fs : filesystem T)
  snapshots coordinates particle h period f,
  mk_file_source snapshots coordinates particle h period = Ok f ->
  forall imems mems k ig0 i0 c0 p0 j ig i c p i' c',
  is_unstructured i0 ->
  advance O (i_interpolate O scp imems) mems k (file_task O scp fs f) j (ig0, (i0, c0), p0) (ig, (i, c), p) ->
  src_update (file_task O scp fs f) (i, c) j = ((i', c'), Ok tt) ->
  exists vf cf V C, nth_error snapshots j = Some vf /\ nth_error coordinates j = Some cf /\
    (let* d := fs vf in read_velocity d) = Ok V /\ (let* d := fs cf in read_coordinate d) = Ok C /\
    update O scp i V (Some C) = (i', Ok tt).
Proof. exact @own_snapshot_run. Qed.
Print Assumptions C45_own_snapshot.

(** A task over two snapshots with one coordinate file makes two steps, so the theorem speaks about
    a second update. *)
Example C45_case : forall (imems mems : nat -> memory (T := R)), exists ig i c p s1,
  mk_file_source ["v0.mat"; "v1.mat"]%string ["c.mat"; "c.mat"]%string "p.mat" 1%R 2 = Ok two_files /\
  reuse_coordinates two_files = true /\
  advance Rops (i_interpolate Rops node_scipy imems) mems 0 (file_task Rops node_scipy toy_fs two_files) 1
    (Euler None, (INearest unstructured_new, 0), mk2 Rops [seed1]) (ig, (i, c), p) /\
  src_update (file_task Rops node_scipy toy_fs two_files) (i, c) 1 = (s1, Ok tt).
Proof. exact own_case. Qed.

(** C83 is false: with interpolator 'grid' and one coordinate file for at least two snapshots, every
    task fails and writes nothing. *)
Theorem C83_grid_static_refuted : forall (T : Type) (O : ops T) (scp : scipy T) imems (fs : filesystem T)
  snapshots coordinates particle h period f (W : Type) eigvals mems
  (write : W -> string -> list (xval T) -> mat T -> W * res unit) q wr (w : world T (istate scp) unit W),
  mk_file_source snapshots coordinates particle h period = Ok f ->
  2 <= length snapshots -> (exists c, coordinates <> [] /\ forall x, In x coordinates -> x = c) ->
  (exists o, fst (w_interp w) = IHigh o) ->
  exists e, snd (file_worker O scp imems eigvals mems write fs f q wr w) = Err e /\
            w_writer (fst (file_worker O scp imems eigvals mems write fs f q wr w)) = w_writer w.
Proof. exact @grid_static_run. Qed.
Print Assumptions C83_grid_static_refuted.

Example C83_case : forall (T : Type) (O : ops T) (scp : scipy T) fn, exists o,
  create_interpolator O scp "grid" (Some [3; 3]) fn = Ok (IHigh o).
Proof. exact @grid_case. Qed.
