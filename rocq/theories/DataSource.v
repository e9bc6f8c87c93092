(** Model of src/pyftle/data_source.py. *)
From Verif Require Import Base Num NdArray Particles Readers Text.

(** data_source.py:29-83, the protocol BatchSource as seen by the solver.  [S] is the state of the
    interpolator, [P] the part of the source's own state that the solver changes: the particles
    object that get_particles hands out is advected in place, which a later call of get_particles
    sees if the source handed out its own object ([src_keep]). *)
Record source (T S P : Type) : Type := Source {
  src_id : res string;
  src_timestep : T;
  src_steps : nat;
  src_particles : P -> res (particles T);
  src_keep : P -> particles T -> P;
  src_update : S -> nat -> S * res unit
}.
Arguments Source {T S P}.
Arguments src_id {T S P} s. Arguments src_timestep {T S P} s. Arguments src_steps {T S P} s.
Arguments src_particles {T S P} s. Arguments src_keep {T S P} s. Arguments src_update {T S P} s.

(** data_source.py:86-142, class FileBatchSource: attributes.  [flow_map_period] is never read. *)
Record file_source (T : Type) : Type := FileSource {
  snapshot_files : list string;
  coordinate_files : list string;
  particle_file : string;
  snapshot_timestep : T;
  flow_map_period : Z;
  reuse_coordinates : bool;
  file_id : string
}.
Arguments FileSource {T}.
Arguments snapshot_files {T} f. Arguments coordinate_files {T} f. Arguments particle_file {T} f.
Arguments snapshot_timestep {T} f. Arguments flow_map_period {T} f. Arguments reuse_coordinates {T} f.
Arguments file_id {T} f.

Section DataSource.
  Context {T : Type} (O : ops T).

  (** data_source.py:122-142, FileBatchSource.__init__. *)
  Definition mk_file_source (snapshots coordinates : list string) (particle : string) (timestep : T)
    (period : Z) : res (file_source T) :=
    match snapshots with
    | [] => Err IndexError
    | first :: _ =>
        Ok (FileSource snapshots coordinates particle timestep period
              (length (nodup string_dec coordinates) =? 1) (stem first))
    end.

  (** data_source.py:169-197, get_data_for_step. *)
  Definition get_data_for_step (fs : filesystem T) (f : file_source T) (step : nat)
    : res (mat T * option (mat T)) :=
    let* vel_file := get (snapshot_files f) step in
    let* coord_file := get (coordinate_files f) step in
    let* vdata := fs vel_file in
    let* velocities := read_velocity vdata in
    if (step =? 0) || negb (reuse_coordinates f) then
      let* cdata := fs coord_file in
      let* coordinates := read_coordinate cdata in
      Ok (velocities, Some coordinates)
    else Ok (velocities, None).

  (** data_source.py:144-211: the source made of a FileBatchSource.  [update] is the method of the
      interpolator.  Every get_particles reads the file again. *)
  Definition file_batch {S} (update : S -> mat T -> option (mat T) -> S * res unit)
    (fs : filesystem T) (f : file_source T) : source T S unit :=
    Source (Ok (file_id f)) (snapshot_timestep f) (length (snapshot_files f))
      (fun _ => let* data := fs (particle_file f) in read_seed_particles_coordinates O data)
      (fun u _ => u)
      (fun s step => match get_data_for_step fs f step with
                     | Err e => (s, Err e)
                     | Ok (v, c) => update s v c
                     end).

  (** data_source.py:214-285, class AnalyticalBatchSource.  The state [P] is the particles object,
      which belongs to the caller.  [format] is f"{x:06f}"; [times[0]] of an empty array raises
      IndexError.  update_interpolator does nothing. *)
  Definition analytical_batch {S} (format : T -> string) (timestep : T) (times : list T)
    : source T S (particles T) :=
    Source (match times with [] => Err IndexError | t :: _ => Ok (format t) end)
      timestep (length times)
      (fun p => Ok p) (fun _ p => p) (fun s _ => (s, Ok tt)).
End DataSource.
