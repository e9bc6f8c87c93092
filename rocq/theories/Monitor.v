(** Model of src/pyftle/parallel.py:110-169, the progress monitor.  No proofs here. *)
From Verif Require Import Base Num Particles Solver.

(** A tqdm bar: its description, the value given as [position], and the count shown.
    tqdm stores [pos = -position] and draws the bar on row [abs(pos)].  Simplification: a bar is never
    moved by tqdm itself (it does so when more than 20 rows are in use) (parallel.py:153-160). *)
Record bar : Type := Bar { b_id : string; b_position : Z; b_n : nat }.

(** parallel.py:131-140: the bars on display (a dict, in order of insertion), the free slots, and the
    number of tasks finished, which is also the count of the global bar. *)
Record monitor : Type := Monitor {
  m_bars : list bar;
  m_free : list Z;
  m_finished : nat
}.

(** parallel.py:133-140, with [n] = n_processes. *)
Definition monitor_start (n : Z) : monitor := Monitor [] (map Z.of_nat (seq 1 (Z.to_nat n))) 0.

(** active_bars[task_id], parallel.py:144-164. *)
Definition find_bar (id : string) (bars : list bar) : option bar :=
  find (fun b => String.eqb (b_id b) id) bars.

(** del active_bars[task_id], parallel.py:148. *)
Definition drop_bar (id : string) (bars : list bar) : list bar :=
  filter (fun b => negb (String.eqb (b_id b) id)) bars.

(** [bar.n = status] on the bar of [id] (parallel.py:162-163). *)
Definition show (id : string) (k : nat) (bars : list bar) : list bar :=
  map (fun b => if String.eqb (b_id b) id then Bar (b_id b) (b_position b) k else b) bars.

(** parallel.py:144-164, the treatment of one message. *)
Definition monitor_read (m : monitor) (msg : message) : res monitor :=
  match msg with
  | Done id =>
      match find_bar id (m_bars m) with
      | Some b =>
          Ok (Monitor (drop_bar id (m_bars m)) (m_free m ++ [(- b_position b)%Z]) (1 + m_finished m))
      | None => Ok (Monitor (m_bars m) (m_free m) (1 + m_finished m))
      end
  | Progress id k =>
      let m1 :=
        match find_bar id (m_bars m), m_free m with
        | None, pos :: rest => Monitor (m_bars m ++ [Bar id pos 0]) rest (m_finished m)
        | _, _ => m
        end in
      match find_bar id (m_bars m1) with
      | Some _ => Ok (Monitor (show id k (m_bars m1)) (m_free m1) (m_finished m1))
      | None => Err KeyError
      end
  end.

(** The monitor after a sequence of messages (parallel.py:141-164). *)
Fixpoint monitor_reads (m : monitor) (msgs : list message) : res monitor :=
  match msgs with
  | [] => Ok m
  | msg :: rest => let* m' := monitor_read m msg in monitor_reads m' rest
  end.
