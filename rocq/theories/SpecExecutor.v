(** Vocabulary of the statements about ParallelExecutor.  No proofs here. *)
From Verif Require Import Base Num Particles Solver Monitor Executor.

(** The messages of a task that reports its steps [ks] and then its end, and those of a worker that
    handles tasks one after another. *)
Definition chat (task : string * list nat) : list message :=
  map (Progress (fst task)) (snd task) ++ [Done (fst task)].
Definition worker_chat (tasks : list (string * list nat)) : list message := flat_map chat tasks.

(** [log] is an interleaving of the sequences [streams]. *)
Inductive interleaves {A : Type} : list (list A) -> list A -> Prop :=
| interleaves_end streams : (forall s, In s streams -> s = []) -> interleaves streams []
| interleaves_next l1 a s l2 log :
    interleaves (l1 ++ s :: l2) log -> interleaves (l1 ++ (a :: s) :: l2) (a :: log).

Definition is_done (msg : message) : bool := match msg with Done _ => true | Progress _ _ => false end.
Definition message_id (msg : message) : string := match msg with Done id | Progress id _ => id end.

(** The rows of the display in use: tqdm draws a bar on row [abs(position)]. *)
Definition rows (m : monitor) : list Z := map (fun b => Z.abs (b_position b)) (m_bars m).

(** At most [n] bars, on distinct rows 1, ..., n. *)
Definition tidy (n : Z) (m : monitor) : Prop :=
  length (m_bars m) <= Z.to_nat n /\ NoDup (rows m) /\ forall r, In r (rows m) -> (1 <= r <= n)%Z.

(** The last word of task [id] in [seen] was that it had reached step [k]. *)
Definition reached (id : string) (seen : list message) (k : nat) : Prop :=
  exists before after, seen = before ++ Progress id k :: after /\ forall msg, In msg after -> message_id msg <> id.

(** What happens to the files: a task opens its output file; it has written and closed it. *)
Inductive event : Type := Opens (i : nat) | Closes (i : nat).
Definition happen {R W} (tasks : list (task R W)) (w : W) (e : event) : W :=
  match e with
  | Opens i => match nth_error tasks i with Some t => t_open t w | None => w end
  | Closes i => match nth_error tasks i with Some t => t_effect t w | None => w end
  end.
(** The effects of the events [l], in this order. *)
Definition effects {R W} (tasks : list (task R W)) (l : list event) (w : W) : W := fold_left (happen tasks) l w.
(** Nothing happens twice, and what is closed was opened before. *)
Definition orderly (l : list event) : Prop :=
  NoDup l /\ forall l1 i l2, l = l1 ++ Closes i :: l2 -> In (Opens i) l1.

Section Spec.
  Context {R W : Type}.

  (** Nobody can make a step any more. *)
  Definition final (tasks : list (task R W)) (n : Z) (s : state R W) : Prop := forall s', ~ move tasks n s s'.

  (** The monitor process is there. *)
  Definition watching (s : state R W) : Prop := exists m, b_watch (st_board s) = Watching m.

  (** Task [i] waits to be handed over; is in the hands of a worker. *)
  Definition waits (s : state R W) (i : nat) : Prop := In i (p_work_ids (st_pool s)).
  Definition works_on (s : state R W) (i : nat) : Prop :=
    (exists rest, In (Busy i rest) (p_slots (st_pool s))) \/ In (Writing i) (p_slots (st_pool s)).

  (** History: task [i] was begun by a worker; was completed; a worker was killed. *)
  Definition begun (s : state R W) (i : nat) : Prop := In i (p_started (st_pool s)).
  Definition completed (s : state R W) (i : nat) : Prop := In i (p_written (st_pool s)).
  Definition killed (s : state R W) : Prop := p_killed (st_pool s) = true.
End Spec.
