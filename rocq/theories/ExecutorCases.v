(** Concrete executions of Executor.v, used as counterexamples and as examples. *)
From Coq Require Import Lia.
From Verif Require Import Base Num NdArray NdFacts Particles Solver Monitor Executor SpecExecutor ExecutorFacts ExecutorMain
  ExecutorExit Schedule.

(** A task that reports two steps and its end, appends [i] to the shared list, and returns [i]; a task
    that reports one step and fails. *)
Definition good (id : string) (i : nat) : task nat (list nat) :=
  Task (chat (id, [0; 1])) (fun w => w) (fun w => w ++ [i]) (Ok i).
Definition bad (id : string) (e : exn) : task nat (list nat) := Task [Progress id 0] (fun w => w) (fun w => w) (Err e).

Definition finish (k : nat) : list action := [Talk k; Talk k; Talk k; Open k; Write k; Return k].

(** Two tasks, two workers, the second task finishing first. *)
Definition two_tasks : list (task nat (list nat)) := [good "a" 10; good "b" 20].
Definition two_schedule : list action :=
  [Main; Main; Main; Main; Main; Hand; Hand; Take 1; Take 0] ++ finish 0 ++ finish 1 ++
  [Receive; Collect 1; Receive; Collect 0; Main; Leave; Main; Main].

Lemma two_run : exists s, steps two_tasks 2 (start [] false []) s /\
  st_main s = Exited (Ok [Some 10; Some 20]) /\ st_world s = [20; 10].
Proof. apply (by_schedule _ _ two_schedule). vm_compute. auto. Qed.

(** The first of five tasks fails; the request to cancel is withdrawn before it is seen. *)
Definition five_tasks : list (task nat (list nat)) :=
  [bad "a" ValueError; good "b" 1; good "c" 2; good "d" 3; good "e" 4].
Definition five_failure : list action :=
  [Main; Main; Main; Main; Main; Main; Main; Main; Hand; Take 0; Hand; Hand; Talk 0; Open 0; Write 0; Return 0;
   Receive; Collect 0].
Definition five_exit : list action := [Take 0; Main; Main; Main; Main].
Definition five_late : list action := finish 0 ++ [Take 0; Receive; Hand] ++ finish 0 ++ [Take 0] ++ finish 0.

(** Two executions in a row. *)
Lemma by_schedules {R W} (tasks : list (task R W)) n l1 l2 s0 (P Q : state R W -> Prop) :
  match schedule tasks n l1 s0 with
  | Some s1 => P s1 /\ match schedule tasks n l2 s1 with Some s2 => Q s2 | None => False end
  | None => False
  end ->
  exists s1 s2, steps tasks n s0 s1 /\ P s1 /\ steps tasks n s1 s2 /\ Q s2.
Proof.
  destruct (schedule tasks n l1 s0) as [s1|] eqn:E1; [|tauto]. intros [HP HQ].
  apply by_schedule in HQ as (s2 & H2 & HQ). exists s1, s2. repeat split; auto.
  exact (schedule_sound tasks n l1 s0 s1 E1).
Qed.

Lemma late_start : exists s1 s2,
  steps five_tasks 1 (start [] false []) s1 /\ (st_main s1 = Caught ValueError /\ waits s1 3) /\
  steps five_tasks 1 s1 s2 /\ (st_main s2 = Exited (Err ValueError) /\ ~ killed s2 /\ completed s2 3).
Proof.
  apply (by_schedules _ _ five_failure (five_exit ++ five_late)). vm_compute.
  repeat split; auto 10. discriminate.
Qed.

Lemma no_wait : exists s1 s2,
  steps five_tasks 1 (start [] false []) s1 /\
  (st_main s1 = Exited (Err ValueError) /\ works_on s1 1 /\ st_world s1 = []) /\
  steps five_tasks 1 s1 s2 /\ (~ killed s2 /\ st_world s2 = [1]).
Proof.
  apply (by_schedules _ _ (five_failure ++ five_exit) (finish 0)). vm_compute.
  repeat split; auto; [left; eexists; left; reflexivity|discriminate].
Qed.

(** The same run when the request to cancel is seen in time. *)
Lemma cancel_in_time : exists s1 s2,
  steps five_tasks 1 (start [] false []) s1 /\ (st_main s1 = Caught ValueError /\ waits s1 3) /\
  steps five_tasks 1 s1 s2 /\ nth_error (p_futures (st_pool s2)) 3 = Some Cancelled.
Proof. apply (by_schedules _ _ five_failure [Main; Main; Cancel]). vm_compute. auto 10. Qed.

(** A task fails, and its worker goes on with the next task before the monitor is stopped. *)
Definition fail_then : list (task nat (list nat)) := [bad "a" ValueError; good "b" 1].
Lemma monitor_crash : exists s,
  steps fail_then 1 (start [] false []) s /\ ~ killed s /\ b_watch (st_board s) = Crashed KeyError.
Proof.
  apply (by_schedule _ _ [Main; Main; Main; Main; Main; Hand; Hand; Take 0; Talk 0; Open 0; Write 0; Return 0;
      Take 0; Talk 0; Read; Read]). vm_compute. split; [discriminate|reflexivity].
Qed.

(** n_processes = 0: the monitor is left behind. *)
Lemma watching_steps {R W} (tasks : list (task R W)) n s s' :
  steps tasks n s s' ->
  forall e m q rs stop log w, s = State (Exited (Err e)) rs no_pool (Board q stop (Watching m) log) w ->
  q = [] -> stop = false -> m_finished m < length tasks -> s' = s.
Proof.
  induction 1 as [s|a b c Hab IH Hbc]; auto. intros e m q rs stop log w -> -> -> Hm.
  specialize (IH e m [] rs false log w eq_refl eq_refl eq_refl Hm). subst b. exfalso.
  inversion Hbc as [x y Hm'|c' rs' p p' b' w' H]; subst; [|inversion H as [y l1]; destruct l1; discriminate].
  inversion Hm' as [x y H|c' rs' p p' b' w' H|c' rs' p p' b' b'' w' w'' H|c' rs' p b' b'' w' H]; subst; inversion H; subst;
    try (destruct l1; discriminate); try lia.
Qed.

Lemma left_behind : exists s m,
  steps two_tasks 0 (start [] false []) s /\ st_main s = Exited (Err ValueError) /\
  (forall s', steps two_tasks 0 s s' -> b_watch (st_board s') = Watching m).
Proof.
  exists (State (Exited (Err ValueError)) [] no_pool (Board [] false (Watching (monitor_start 0)) []) []), (monitor_start 0).
  split; [apply (schedule_sound two_tasks 0 [Main; Main]); reflexivity|]. split; [reflexivity|].
  intros s' Hs. erewrite (watching_steps two_tasks 0 _ s' Hs); try reflexivity. cbn. lia.
Qed.

(** No move is possible in a concrete state. *)
Ltac no_move :=
  let Hm := fresh in let M := fresh in intros ? Hm;
  inversion Hm as [? ? M|? ? ? ? ? ? M|? ? ? ? ? ? ? ? M|? ? ? ? ? ? M]; subst;
  inversion M; subst;
  repeat match goal with
    | H : ?l ++ _ :: _ = [] |- _ => destruct l; discriminate
    | H : ?l ++ _ :: _ = _ :: _ |- _ => destruct l; [discriminate|injection H as _ H]
    end.
Ltac by_actions l :=
  apply (by_schedule _ _ l);
  match goal with |- match ?x with _ => _ end => let y := eval vm_compute in x in change x with y end; cbv iota.

(** Nobody can make a step after the end of run when the manager thread and the monitor have ended and no worker has work. *)
Lemma exited_final {R W} (tasks : list (task R W)) n o rs fs ids slots ret sh ca br st wr ki q stop v log w :
  forallb (fun s => match s with Idle | Dead => true | _ => false end) slots = true ->
  match v with Watching _ => False | _ => True end ->
  final tasks n (State (Exited o) rs (Pool fs ids [] slots ret sh ca false br st wr ki) (Board q stop v log) w).
Proof.
  intros Hs Hv s' Hm. rewrite forallb_forall in Hs.
  inversion Hm as [x y M|c' rs' p p' b w' M|c' rs' p p' b b' w' w'' M|c' rs' p b b' w' M]; subst; inversion M; subst; try contradiction;
    match goal with H : forall x, In x (?l1 ++ ?a :: ?l2) -> _ |- _ => specialize (H a (in_elt a l1 l2)); discriminate end.
Qed.

(** A task raises SystemExit. *)
Lemma exit_leaves_monitor : exists s,
  steps [bad "a" SystemExit] 1 (start [] false []) s /\ st_main s = Exited (Err SystemExit) /\ ~ killed s /\
  watching s /\ final [bad "a" SystemExit] 1 s.
Proof.
  by_actions [Main; Main; Main; Main; Hand; Take 0; Talk 0; Read; Open 0; Write 0; Return 0; Receive; Collect 0; Leave; Main].
  split; [reflexivity|]. split; [discriminate|]. split; [eexists; reflexivity|]. no_move.
  match goal with D : _ \/ _ |- _ => destruct D as [D|D]; [discriminate|cbn in D; lia] end.
Qed.

(** A worker dies while tasks are being submitted. *)
Lemma death_leaves_monitor : exists s,
  steps two_tasks 1 (start [] false []) s /\ st_main s = Exited (Err BrokenProcessPool) /\ watching s /\
  final two_tasks 1 s.
Proof.
  by_actions [Main; Main; Kill 0; Break; Main; Main].
  split; [reflexivity|]. split; [eexists; reflexivity|]. no_move.
  match goal with D : _ \/ _ |- _ => destruct D as [D|D]; [discriminate|cbn in D; lia] end.
Qed.

(** Complete executions. *)
Lemma two_final : exists s, steps two_tasks 2 (start [] false []) s /\ final two_tasks 2 s /\ ~ killed s /\
  begun s 0 /\ begun s 1 /\ st_main s = Exited (Ok [Some 10; Some 20]) /\ st_world s = [20; 10].
Proof.
  by_actions two_schedule. split; [no_move|]. vm_compute. repeat split; auto; discriminate.
Qed.

Lemma five_final : exists s, steps five_tasks 1 (start [] false []) s /\ final five_tasks 1 s /\ ~ killed s /\
  begun s 2 /\ nth_error (p_futures (st_pool s)) 3 = Some Cancelled /\ st_main s = Exited (Err ValueError).
Proof.
  by_actions (five_failure ++ [Take 0; Main; Main; Cancel; Main; Main] ++ finish 0 ++ [Take 0; Receive] ++ finish 0 ++ [Receive; Leave]).
  split; [no_move|]. vm_compute. repeat split; auto. discriminate.
Qed.
