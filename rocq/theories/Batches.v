(** Model of src/pyftle/__main__.py, class MultipleFTLEProcessManager: the tasks of the file
    workflow. *)
From Verif Require Import Base Num DataSource.

Section Batches.
  Context {T : Type} (O : ops T).

  (** [int(flow_map_period / abs(timestep)) + 1] (__main__.py:134-136, api.py:105).  Simplification:
      int of a non-finite number raises OverflowError (ValueError for NaN). *)
  Definition window_length (period timestep : T) : res Z :=
    let* q := py_div O period (o_abs O timestep) in
    match o_trunc O q with
    | Some z => Ok (z + 1)%Z
    | None => Err OverflowError
    end.

  (** list(itertools.islice(itertools.cycle(l), n)): a negative [n] raises ValueError (__main__.py:146-152). *)
  Definition cycled {A} (l : list A) (n : Z) : res (list A) :=
    if (n <? 0)%Z then Err ValueError
    else Ok (match l with
             | [] => []
             | d :: _ => map (fun i => nth (i mod length l) l d) (seq 0 (Z.to_nat n))
             end).

  (** __main__.py:91-109, _handle_time_direction (one of the three lists). *)
  Definition handle_direction {A} (timestep : T) (l : list A) : list A :=
    if o_ltb O timestep (o_zero O) then rev l else l.

  (** __main__.py:111-166, _create_batches. *)
  Definition create_batches (snapshots coordinates particle_files : list string) (period timestep : T)
    : res (list (file_source T)) :=
    let* p := window_length period timestep in
    let n := Z.of_nat (length snapshots) in
    let is := py_range (n - p + 1) in
    let window {A} (l : list A) (i : nat) := py_slice l (Z.of_nat i) (Z.of_nat i + p) in
    let snapshot_batches := map (window snapshots) is in
    let* coord_cycle := cycled coordinates (n + p - 1) in
    let coordinate_batches := map (window coord_cycle) is in
    let* particle_cycle := cycled particle_files n in
    let* particle_batches := mapr (get particle_cycle) is in
    mapr (fun i =>
            let* s := get snapshot_batches i in
            let* c := get coordinate_batches i in
            let* q := get particle_batches i in
            mk_file_source s c q timestep p) is.

  (** The tasks of a file-based run: __init__ (__main__.py:60-89, the part on files) and
      _create_batches. *)
  Definition file_tasks (snapshots coordinates particle_files : list string) (period timestep : T)
    : res (list (file_source T)) :=
    create_batches (handle_direction timestep snapshots) (handle_direction timestep coordinates)
      (handle_direction timestep particle_files) period timestep.

  (** api.py:125-155, AnalyticalSolver._create_batches: the times of each task.  np.arange of a
      negative number is empty. *)
  Definition time_batches (num_ftles num_snapshots : Z) (timestep : T) : list (list T) :=
    let start_times := map (fun i => o_mul O (o_ofZ O (Z.of_nat i)) timestep) (py_range num_ftles) in
    let offsets := map (fun j => o_mul O (o_ofZ O (Z.of_nat j)) timestep) (py_range num_snapshots) in
    map (fun t => map (o_add O t) offsets) start_times.
End Batches.
