(** Executable schedules: a list of actions determines an execution of Executor.v.  Used to exhibit
    executions. *)
From Coq Require Import Lia.
From Verif Require Import Base Num NdArray NdFacts Particles Solver Monitor Executor ExecutorFacts.

Inductive action : Type :=
| Main                (* the main thread takes its next step *)
| Collect (k : nat)   (* as_completed yields the k-th future it still waits for *)
| Hand | Receive | Cancel | Leave | Break   (* the manager thread *)
| Take (k : nat) | Talk (k : nat) | Open (k : nat) | Write (k : nat) | Return (k : nat) | Kill (k : nat) (* worker k *)
| Read | Quit.        (* the monitor *)

(** [l] = l1 ++ x :: l2 with k = length l1. *)
Fixpoint split_at {A} (k : nat) (l : list A) : option (list A * A * list A) :=
  match l, k with
  | [], _ => None
  | x :: l', 0 => Some ([], x, l')
  | x :: l', S k' =>
      match split_at k' l' with
      | Some (l1, y, l2) => Some (x :: l1, y, l2)
      | None => None
      end
  end.

Lemma split_at_app {A} k (l : list A) l1 x l2 : split_at k l = Some (l1, x, l2) -> l = l1 ++ x :: l2.
Proof.
  revert k l1 x l2. induction l as [|a l IH]; intros [|k] l1 x l2 H; cbn in *; try discriminate.
  - injection H as <- <- <-. reflexivity.
  - destruct (split_at k l) as [[[l1' y] l2']|] eqn:E; [|discriminate]. injection H as <- <- <-.
    apply IH in E. now rewrite E.
Qed.

Definition is_dead (s : slot) : bool := match s with Dead => true | _ => false end.

Section Schedule.
  Context {R W : Type} (tasks : list (task R W)) (n : Z).
  Notation state := (Executor.state R W).

  Definition main_action (s : state) : option state :=
    let (c, rs, p, b, w) := s in
    match c with
    | Calling =>
        match tasks with
        | [] => Some (State (Exited (Err IndexError)) rs p b w)
        | _ => Some (State Watched rs p (set_watch (Watching (monitor_start n)) b) w)
        end
    | Watched =>
        if (n <=? 0)%Z then Some (State (Exited (Err ValueError)) rs p b w)
        else Some (State Submitting (repeat None (length tasks)) (new_pool n) b w)
    | Submitting =>
        if length (p_futures p) <? length tasks then
          if p_broken p then Some (State (Joining (Err BrokenProcessPool)) rs (shut false p) b w)
          else Some (State Submitting rs
           (Pool (p_futures p ++ [Pending]) (p_work_ids p ++ [length (p_futures p)]) (p_calls p) (p_slots p)
              (p_returned p) (p_shutdown p) (p_cancel p) (p_alive p) (p_broken p) (p_started p)
              (p_written p) (p_killed p)) b w)
        else if length (p_futures p) =? length tasks then
          Some (State (Collecting (seq 0 (length tasks))) rs p b w)
        else None
    | Collecting [] => Some (State (Joining (Ok rs)) rs (shut false p) b w)
    | Collecting _ => None
    | Caught e => Some (State (Stopped e) rs p (Board (b_queue b) true (b_watch b) (b_log b)) w)
    | Stopped e => Some (State (CancelAsked e) rs (shut true p) b w)
    | CancelAsked e => Some (State (Reraised e) rs p (set_watch (terminate (b_watch b)) b) w)
    | Reraised e => Some (State (Exited (Err e)) rs (shut false p) b w)
    | Joining o =>
        if p_alive p then None else
        Some (match o with
              | Ok rs' => State (Closing rs') rs p b w
              | Err e => State (Exited (Err e)) rs p b w
              end)
    | Closing rs' => Some (State (Exited (Ok rs')) rs p (set_watch (terminate (b_watch b)) b) w)
    | Exited _ => None
    end.

  Definition collect_action (k : nat) (s : state) : option state :=
    let (c, rs, p, b, w) := s in
    match c with
    | Collecting waiting =>
        match split_at k waiting with
        | Some (l1, i, l2) =>
            match nth_error (p_futures p) i with
            | Some (Finished (Ok r)) => Some (State (Collecting (l1 ++ l2)) (set_nth i (Some r) rs) p b w)
            | Some (Finished (Err e)) =>
                if is_exception e then Some (State (Caught e) rs p b w)
                else Some (State (Joining (Err e)) rs (shut false p) b w)
            | _ => None
            end
        | None => None
        end
    | _ => None
    end.

  Definition manager_action (a : action) (p : pool R) : option (pool R) :=
    let (fs, ids, calls, slots, ret, sh, ca, al, br, st, wr, ki) := p in
    if al then
      match a with
      | Hand =>
          match ids with
          | i :: ids' =>
              if (Z.of_nat (length calls) <? n + 1)%Z then
                match nth_error fs i with
                | Some Pending =>
                    Some (Pool (set_nth i Running fs) ids' (calls ++ [i]) slots ret sh ca true br st wr ki)
                | _ => None
                end
              else None
          | [] => None
          end
      | Receive =>
          match ret with
          | i :: ret' =>
              match nth_error tasks i with
              | Some t => Some (Pool (set_nth i (Finished (t_outcome t)) fs) ids calls slots ret' sh ca true br st wr ki)
              | None => None
              end
          | [] => None
          end
      | Cancel =>
          if sh && ca then Some (Pool (map cancel_future fs) [] calls slots ret true false true br st wr ki) else None
      | Leave =>
          if sh && forallb settled fs then Some (Pool fs ids calls slots ret true ca false br st wr ki) else None
      | Break =>
          if existsb is_dead slots then
            Some (Pool (map break_future fs) ids calls (map (fun _ => Dead) slots) ret true ca false true st wr ki)
          else None
      | _ => None
      end
    else None.

  Definition worker_action (a : action) (p : pool R) (b : board) (w : W) : option (pool R * board * W) :=
    let (fs, ids, calls, slots, ret, sh, ca, al, br, st, wr, ki) := p in
    match a with
    | Take k =>
        match calls, split_at k slots with
        | i :: calls', Some (l1, Idle, l2) =>
            match nth_error tasks i with
            | Some t => Some (Pool fs ids calls' (l1 ++ Busy i (t_talk t) :: l2) ret sh ca al br (st ++ [i]) wr ki, b, w)
            | None => None
            end
        | _, _ => None
        end
    | Talk k =>
        match split_at k slots with
        | Some (l1, Busy i (msg :: rest), l2) =>
            Some (Pool fs ids calls (l1 ++ Busy i rest :: l2) ret sh ca al br st wr ki,
                  Board (b_queue b ++ [msg]) (b_stop b) (b_watch b) (b_log b ++ [msg]), w)
        | _ => None
        end
    | Open k =>
        match split_at k slots with
        | Some (l1, Busy i [], l2) =>
            match nth_error tasks i with
            | Some t => Some (Pool fs ids calls (l1 ++ Writing i :: l2) ret sh ca al br st wr ki, b, t_open t w)
            | None => None
            end
        | _ => None
        end
    | Write k =>
        match split_at k slots with
        | Some (l1, Writing i, l2) =>
            match nth_error tasks i with
            | Some t => Some (Pool fs ids calls (l1 ++ Wrote i :: l2) ret sh ca al br st (wr ++ [i]) ki, b, t_effect t w)
            | None => None
            end
        | _ => None
        end
    | Return k =>
        match split_at k slots with
        | Some (l1, Wrote i, l2) =>
            Some (Pool fs ids calls (l1 ++ Idle :: l2) (ret ++ [i]) sh ca al br st wr ki, b, w)
        | _ => None
        end
    | _ => None
    end.

  Definition kill_action (k : nat) (p : pool R) : option (pool R) :=
    let (fs, ids, calls, slots, ret, sh, ca, al, br, st, wr, ki) := p in
    match split_at k slots with
    | Some (l1, s, l2) =>
        if is_dead s then None else Some (Pool fs ids calls (l1 ++ Dead :: l2) ret sh ca al br st wr true)
    | None => None
    end.

  Definition monitor_action (a : action) (b : board) : option board :=
    let (q, stop, v, log) := b in
    match a, v with
    | Read, Watching m =>
        match q with
        | msg :: q' =>
            Some (Board q' stop (match monitor_read m msg with Ok m' => Watching m' | Err e => Crashed e end) log)
        | [] => None
        end
    | Quit, Watching m =>
        if stop || (length tasks <=? m_finished m) then Some (Board q stop (Left m) log) else None
    | _, _ => None
    end.

  Definition perform (a : action) (s : state) : option state :=
    match a with
    | Main => main_action s
    | Collect k => collect_action k s
    | Hand | Receive | Cancel | Leave | Break =>
        let (c, rs, p, b, w) := s in option_map (fun p' => State c rs p' b w) (manager_action a p)
    | Kill k =>
        let (c, rs, p, b, w) := s in option_map (fun p' => State c rs p' b w) (kill_action k p)
    | Take _ | Talk _ | Open _ | Write _ | Return _ =>
        let (c, rs, p, b, w) := s in
        option_map (fun x : pool R * board * W => let '(p', b', w') := x in State c rs p' b' w') (worker_action a p b w)
    | Read | Quit =>
        let (c, rs, p, b, w) := s in option_map (fun b' => State c rs p b' w) (monitor_action a b)
    end.

  Fixpoint schedule (l : list action) (s : state) : option state :=
    match l with
    | [] => Some s
    | a :: l' => match perform a s with Some s' => schedule l' s' | None => None end
    end.

  Lemma main_sound s s' : main_action s = Some s' -> main_step tasks n s s'.
  Proof.
    destruct s as [c rs p b w]. unfold main_action. intro H.
    destruct c as [| | |[|x wt]|e|e|e|e|[x|e]|x|o]; try discriminate.
    - destruct tasks as [|t ts] eqn:E; injection H as <-; [apply m_empty|apply m_watch]; congruence.
    - destruct (Z.leb_spec n 0); injection H as <-; [apply m_no_pool|apply m_pool]; assumption.
    - destruct (Nat.ltb_spec (length (p_futures p)) (length tasks)).
      + destruct (p_broken p) eqn:Eb.
        * injection H as <-. now apply m_submit_broken.
        * assert (Hs := m_submit tasks n rs p b w H0 Eb). rewrite Eb in Hs. injection H as <-. exact Hs.
      + destruct (Nat.eqb_spec (length (p_futures p)) (length tasks)); [|discriminate].
        injection H as <-. now apply m_submitted.
    - injection H as <-. apply m_collected.
    - injection H as <-. apply m_stop.
    - injection H as <-. apply m_cancel.
    - injection H as <-. apply m_terminate.
    - injection H as <-. apply m_reraise.
    - destruct (p_alive p) eqn:Ea; [discriminate|]. injection H as <-. now apply m_joined.
    - destruct (p_alive p) eqn:Ea; [discriminate|]. injection H as <-. now apply m_joined_raise.
    - injection H as <-. apply m_return.
  Qed.

  Lemma collect_sound k s s' : collect_action k s = Some s' -> main_step tasks n s s'.
  Proof.
    destruct s as [c rs p b w]. cbn. destruct c; try discriminate.
    destruct (split_at k waiting) as [[[l1 i] l2]|] eqn:E; [|discriminate]. apply split_at_app in E. subst.
    destruct (nth_error (p_futures p) i) as [[| | |[r|e]]|] eqn:Ef; try discriminate.
    - intro H. injection H as <-. now apply m_collect.
    - destruct (is_exception e) eqn:Ex; intro H; injection H as <-; [apply m_catch|apply m_escape]; assumption.
  Qed.

  Lemma manager_sound a p p' : manager_action a p = Some p' -> manager_step tasks n p p'.
  Proof.
    destruct p as [fs ids calls slots ret sh ca al br st wr ki]. cbn. destruct al; [|discriminate].
    destruct a; try discriminate.
    - destruct ids as [|i ids]; [discriminate|]. destruct (Z.ltb_spec (Z.of_nat (length calls)) (n + 1)); [|discriminate].
      destruct (nth_error fs i) as [[]|] eqn:E; try discriminate. intro H0. injection H0 as <-. now apply g_hand.
    - destruct ret as [|i ret]; [discriminate|]. destruct (nth_error tasks i) as [t|] eqn:E; [|discriminate].
      intro H. injection H as <-. now apply g_receive.
    - destruct sh, ca; cbn; try discriminate. intro H. injection H as <-. apply g_cancel.
    - destruct sh; cbn; try discriminate. destruct (forallb settled fs) eqn:E; [|discriminate].
      intro H. injection H as <-. now apply g_exit.
    - destruct (existsb is_dead slots) eqn:E; [|discriminate]. intro H. injection H as <-. apply g_broken.
      apply existsb_exists in E as (x & Hx & Hd). destruct x; try discriminate. exact Hx.
  Qed.

  Lemma worker_sound a p b w p' b' w' :
    worker_action a p b w = Some (p', b', w') -> worker_step tasks p b w p' b' w'.
  Proof.
    destruct p as [fs ids calls slots ret sh ca al br st wr ki]. cbn. destruct a; try discriminate.
    - destruct calls as [|i calls]; [discriminate|]. destruct (split_at k slots) as [[[l1 x] l2]|] eqn:E; [|discriminate].
      destruct x; try discriminate. apply split_at_app in E. subst.
      destruct (nth_error tasks i) as [t|] eqn:Et; [|discriminate]. intro H. injection H as <- <- <-. now apply w_take.
    - destruct (split_at k slots) as [[[l1 x] l2]|] eqn:E; [|discriminate]. apply split_at_app in E. subst.
      destruct x as [|i [|msg rest]|i|i|]; try discriminate. intro H. injection H as <- <- <-. destruct b. apply w_talk.
    - destruct (split_at k slots) as [[[l1 x] l2]|] eqn:E; [|discriminate]. apply split_at_app in E. subst.
      destruct x as [|i [|msg rest]|i|i|]; try discriminate.
      destruct (nth_error tasks i) as [t|] eqn:Et; [|discriminate]. intro H. injection H as <- <- <-. now apply w_open.
    - destruct (split_at k slots) as [[[l1 x] l2]|] eqn:E; [|discriminate]. apply split_at_app in E. subst.
      destruct x as [|i [|msg rest]|i|i|]; try discriminate.
      destruct (nth_error tasks i) as [t|] eqn:Et; [|discriminate]. intro H. injection H as <- <- <-. now apply w_write.
    - destruct (split_at k slots) as [[[l1 x] l2]|] eqn:E; [|discriminate]. apply split_at_app in E. subst.
      destruct x; try discriminate. intro H. injection H as <- <- <-. apply w_return.
  Qed.

  Lemma kill_sound k (p p' : pool R) : kill_action k p = Some p' -> kill_step p p'.
  Proof.
    destruct p as [fs ids calls slots ret sh ca al br st wr ki]. cbn.
    destruct (split_at k slots) as [[[l1 x] l2]|] eqn:E; [|discriminate]. apply split_at_app in E. subst.
    destruct (is_dead x) eqn:Ed; [discriminate|]. intro H. injection H as <-. apply k_die.
    intros ->. discriminate.
  Qed.

  Lemma monitor_sound a b b' : monitor_action a b = Some b' -> monitor_step tasks b b'.
  Proof.
    destruct b as [q stop v log]. cbn. destruct a, v; try discriminate.
    - destruct q as [|msg q]; [discriminate|]. intro H. injection H as <-. apply o_read.
    - destruct (stop || (length tasks <=? m_finished m)) eqn:E; [|discriminate]. intro H. injection H as <-.
      apply o_leave. apply orb_true_iff in E as [E|E]; [auto|]. apply Nat.leb_le in E. auto.
  Qed.

  Lemma perform_sound a s s' : perform a s = Some s' -> step tasks n s s'.
  Proof.
    destruct s as [c rs p b w]. intro H. destruct a; cbn [perform] in H;
      try (match type of H with option_map _ (manager_action ?a _) = _ =>
             destruct (manager_action a p) as [p'|] eqn:E; cbn in H; [|discriminate]; injection H as <-;
             apply s_move, s_manager; exact (manager_sound _ _ _ E) end);
      try (match type of H with option_map _ (worker_action ?a _ _ _) = _ =>
             destruct (worker_action a p b w) as [[[p' b'] w']|] eqn:E; cbn in H; [|discriminate]; injection H as <-;
             apply s_move, s_worker; exact (worker_sound _ _ _ _ _ _ _ E) end);
      try (match type of H with option_map _ (monitor_action ?a _) = _ =>
             destruct (monitor_action a b) as [b'|] eqn:E; cbn in H; [|discriminate]; injection H as <-;
             apply s_move, s_monitor; exact (monitor_sound _ _ _ E) end).
    - apply s_move, s_main, main_sound, H.
    - apply s_move, s_main. exact (collect_sound _ _ _ H).
    - destruct (kill_action k p) as [p'|] eqn:E; cbn in H; [|discriminate]; injection H as <-.
      apply s_kill. exact (kill_sound _ _ _ E).
  Qed.

  Lemma schedule_sound l s s' : schedule l s = Some s' -> steps tasks n s s'.
  Proof.
    revert s. induction l as [|a l IH]; intros s H; cbn in H.
    - injection H as <-. constructor.
    - destruct (perform a s) as [s1|] eqn:E; [|discriminate].
      apply (steps_trans tasks n s s1 s'); [|exact (IH s1 H)].
      exact (steps_next tasks n s s s1 (steps_refl tasks n s) (perform_sound a s s1 E)).
  Qed.

  (** To exhibit an execution, compute it. *)
  Lemma by_schedule l s (P : state -> Prop) :
    match schedule l s with Some s' => P s' | None => False end -> exists s', steps tasks n s s' /\ P s'.
  Proof.
    destruct (schedule l s) as [s'|] eqn:E; [|tauto]. intro H. exists s'. split; auto. exact (schedule_sound l s s' E).
  Qed.
End Schedule.
