(** Specification vocabulary for whole runs of both workflows: which file a task writes and what belongs in it. *)
From Verif Require Import Base Num NdArray Particles Jacobian Integrate Interpolate Readers DataSource
  Solver SpecSolver Writers FileRun AnalyticalRun Manager Executor Jobs.

(** At the start no file is open for writing by a task. *)
Definition settled_files {T} (fs : files T) : Prop := forall p l, fs p <> Some (Unfinished l).

Section Spec.
  Context {T : Type} (O : ops T) (scp : scipy T).
  Variables imems mems : nat -> nat -> memory (T := T).
  Variable eigvals : m33 T -> res (T * T * T).

  (** ** The command line program *)
  Variable inputs : filesystem T.
  Definition output_file (m : manager scp) (f : file_source T) : string := output_path (m_writer m) (append "ftle_" (file_id f)).

  (** Different tasks have different output files. *)
  Definition names_differ (m : manager scp) (ts : list (file_source T)) : Prop :=
    forall i j f g, nth_error ts i = Some f -> nth_error ts j = Some g -> i <> j -> output_file m f <> output_file m g.

  (** [c] is what the writer puts into the output file of [f] for the FTLE field of the seeds read from the particle file of [f], advected
      through all the snapshots of [f] in order. *)
  Definition right_contents (m : manager scp) (i : nat) (f : file_source T) (c : content T) : Prop :=
    exists p b g st', (let* d := inputs (particle_file f) in read_seed_particles_coordinates O d) = Ok p /\
      advance O (i_interpolate O scp (imems i)) (mems i) 0 (file_task O scp inputs f) (length (snapshot_files f))
        (m_integrator m, (m_interpolator m, 0), p) b /\
      field_of O eigvals (length (snapshot_files f)) (DataSource.snapshot_timestep f) (snd b) (Ok g) /\
      write O (m_writer m) (WState None no_files) (append "ftle_" (file_id f)) g (initial_centroid p) = (st', Ok tt) /\
      w_files st' (output_file m f) = Some c.

  (** ** AnalyticalSolver with a writer [wr], started with the objects [w] *)

  (** api.py:157-183, _worker, on the task with its number; it has a writer. *)
  Definition saving_task (wr : writer) (w : world T (istate scp) (particles T) (@wstate T))
    (it : nat * source T (istate scp) (particles T)) : task (option (list (xval T))) (files T) :=
    job (fst it) (analytical_worker O scp (imems (fst it)) eigvals (mems (fst it)) (write O wr) (snd it) true true) w.

  (** The tasks have ids, and different tasks have different ids. *)
  Definition have_ids (ts : list (source T (istate scp) (particles T))) : Prop := forall t, In t ts -> exists id, src_id t = Ok id.
  Definition ids_differ (ts : list (source T (istate scp) (particles T))) : Prop :=
    forall i j a b, nth_error ts i = Some a -> nth_error ts j = Some b -> i <> j -> src_id a <> src_id b.

  (** As [right_contents]. *)
  Definition analytical_right (wr : writer) (w : world T (istate scp) (particles T) (@wstate T))
    (i : nat) (id : string) (t : source T (istate scp) (particles T)) (c : content T) : Prop :=
    exists b g st', 
      advance O (i_interpolate O scp (imems i)) (mems i) (w_clock w) t (src_steps t) (w_integrator w, w_interp w, w_source w) b /\
      field_of O eigvals (src_steps t) (src_timestep t) (snd b) (Ok g) /\
      write O wr (WState (w_dim (w_writer w)) no_files) (append "ftle_" id) g (initial_centroid (w_source w)) = (st', Ok tt) /\
      w_files st' (output_path wr (append "ftle_" id)) = Some c.

  (** ** AnalyticalSolver without a writer: [f] is the FTLE field of the seeds, advected through all the times of task [t]. *)
  Definition analytical_field (w : world T (istate scp) (particles T) (@wstate T))
    (i : nat) (t : source T (istate scp) (particles T)) (f : list (xval T)) : Prop :=
    exists b, advance O (i_interpolate O scp (imems i)) (mems i) (w_clock w) t (src_steps t) (w_integrator w, w_interp w, w_source w) b /\
      field_of O eigvals (src_steps t) (src_timestep t) (snd b) (Ok f).
End Spec.
