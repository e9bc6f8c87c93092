(** Model of src/pyftle/ftle_solver.py. *)
From Verif Require Import Base Num Particles Jacobian Ftle Integrate DataSource.

(** Messages put on the progress queue: (id, i) and (id, "done") (ftle_solver.py:105-110). *)
Inductive message : Type :=
| Progress (id : string) (step : nat)
| Done (id : string).

Section Solver.
  Context {T : Type} (O : ops T).
  (** The interpolator: state and method [interpolate]; the state of the source; the state of the
      writer together with the files written; numpy.linalg.eigvals. *)
  Context {S P W : Type}.
  Variable interpolate : S -> mat T -> S * res (mat T).
  Variable eigvals : m33 T -> res (T * T * T).
  (** Contents of fresh memory at the k-th integration step. *)
  Variable mems : nat -> memory (T := T).
  (** The method [write] of the writer. *)
  Variable write : W -> string -> list (xval T) -> mat T -> W * res unit.

  (** Everything a run can change: the integrator's buffers, the interpolator, the source, the
      progress queue (oldest message first), the writer and its files, and the number of integration
      steps made so far (ftle_solver.py:56-66). *)
  Record world : Type := World {
    w_integrator : integrator T;
    w_interp : S;
    w_source : P;
    w_queue : list message;
    w_writer : W;
    w_clock : nat
  }.

  (** ftle_solver.py:44-66, attributes: the source, and whether there are a queue and a writer. *)
  Record solver : Type := Solver {
    s_source : source T S P;
    s_queue : bool;
    s_writer : bool
  }.

  (** ftle_solver.py:122-161, _compute_ftle. *)
  Definition compute_ftle (num_steps : nat) (timestep : T) (p : particles T) : res (list (xval T)) :=
    let map_period := o_mul O (o_ofZ O (Z.of_nat num_steps - 1)) (o_abs O timestep) in
    if num_neighbors p =? 4 then
      let* jacobian := compute_flow_map_jacobian_2x2 O p in
      compute_ftle_2x2 O jacobian map_period
    else
      let* jacobian := compute_flow_map_jacobian_3x3 O p in
      compute_ftle_3x3 O eigvals jacobian map_period.

  (** ftle_solver.py:91-99, the loop from step [i] with [n] steps to go; also returns the particles. *)
  Fixpoint run_steps (sv : solver) (id : string) (n i : nat) (w : world) (p : particles T)
    : world * particles T * res unit :=
    match n with
    | 0 => (w, p, Ok tt)
    | Datatypes.S n' =>
        match src_update (s_source sv) (w_interp w) i with
        | (s1, Err e) =>
            (World (w_integrator w) s1 (w_source w) (w_queue w) (w_writer w) (w_clock w), p, Err e)
        | (s1, Ok tt) =>
            match integrate O interpolate (mems (w_clock w)) (w_integrator w) s1
                    (src_timestep (s_source sv)) p with
            | (ig, s2, p', Err e) =>
                (World ig s2 (w_source w) (w_queue w) (w_writer w) (1 + w_clock w), p', Err e)
            | (ig, s2, p', Ok tt) =>
                let q := if s_queue sv then w_queue w ++ [Progress id i] else w_queue w in
                run_steps sv id n' (1 + i)
                  (World ig s2 (w_source w) q (w_writer w) (1 + w_clock w)) p'
            end
        end
    end.

  (** The source after the run has advected the particles it handed out (ftle_solver.py:92-120). *)
  Definition keep (sv : solver) (w : world) (p : particles T) : world :=
    World (w_integrator w) (w_interp w) (src_keep (s_source sv) (w_source w) p) (w_queue w)
      (w_writer w) (w_clock w).

  (** ftle_solver.py:68-120, run.  The result is the returned value ([None] if a writer is used). *)
  Definition run (sv : solver) (w : world) : world * res (option (list (xval T))) :=
    match src_particles (s_source sv) (w_source w) with
    | Err e => (w, Err e)
    | Ok p =>
        match src_id (s_source sv) with
        | Err e => (w, Err e)
        | Ok id =>
            let n := src_steps (s_source sv) in
            match run_steps sv id n 0 w p with
            | (w1, p1, Err e) => (keep sv w1 p1, Err e)
            | (w1, p1, Ok tt) =>
                let q := if s_queue sv then w_queue w1 ++ [Done id] else w_queue w1 in
                let w2 := keep sv (World (w_integrator w1) (w_interp w1) (w_source w1) q
                                     (w_writer w1) (w_clock w1)) p1 in
                match compute_ftle n (src_timestep (s_source sv)) p1 with
                | Err e => (w2, Err e)
                | Ok field =>
                    if s_writer sv then
                      match write (w_writer w2) (append "ftle_" id) field (initial_centroid p1) with
                      | (wr, r) =>
                          (World (w_integrator w2) (w_interp w2) (w_source w2) (w_queue w2) wr (w_clock w2),
                           let* _ := r in Ok None)
                      end
                    else (w2, Ok (Some field))
                end
            end
        end
    end.
End Solver.
Arguments World {T S P W}.
Arguments w_integrator {T S P W} w. Arguments w_interp {T S P W} w. Arguments w_source {T S P W} w.
Arguments w_queue {T S P W} w. Arguments w_writer {T S P W} w. Arguments w_clock {T S P W} w.
Arguments world T S P W : clear implicits.
Arguments Solver {T S P}.
Arguments s_source {T S P} s. Arguments s_queue {T S P} s. Arguments s_writer {T S P} s.
Arguments solver T S P : clear implicits.
