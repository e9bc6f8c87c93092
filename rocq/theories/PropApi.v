(** Property C67: what AnalyticalSolver.run returns. *)
From Coq Require Import PrimFloat.
From Verif Require Import Base Num NdArray Particles ParticleFacts SpecSeeds Jacobian Integrate Interpolate DataSource Solver Writers Batches FileRun AnalyticalRun
  Monitor Executor Jobs SpecProgram FieldLength ApiFacts ApiCases.

(** C67.  With two or more fields, whenever run returns, it returns a two-dimensional array with one row for each field, in the
    order of the tasks; row i is the field of task i and has one entry for each point. *)
Theorem C67_stack_partial : forall T (O : ops T) scp format imems eigvals mems write w n q stop fs s m k h rs, (2 <= m)%Z ->
  steps (map (fun t => job (fst t) (analytical_worker O scp (imems (fst t)) eigvals (mems (fst t)) write (snd t) true false) w)
             (indexed (analytical_tasks O scp format m k h))) n (start q stop fs) s ->
  st_main s = Exited (Ok rs) ->
  exists rows, api_run false (Ok rs) = Ok (ReturnsStack rows) /\ length rows = Z.to_nat m /\
    Forall2 (fun t f => analytical_field O scp imems mems eigvals w (fst t) (snd t) f /\ length f = points (w_source w))
      (indexed (analytical_tasks O scp format m k h)) rows.
Proof. exact @stacked. Qed.
Print Assumptions C67_stack_partial.

(** The number of points is the number of groups of seeds. *)
Theorem C67_points : (forall T (O : ops T) gs, points (mk2 O gs) = length gs) /\ (forall T (O : ops T) gs, points (mk3 O gs) = length gs).
Proof. exact (conj (@points_2) (@points_3)). Qed.
Print Assumptions C67_points.

(** With one field it returns a one-dimensional array. *)
Theorem C67_single : forall T (O : ops T) scp format imems eigvals mems write w n q stop fs s k h rs,
  steps (map (fun t => job (fst t) (analytical_worker O scp (imems (fst t)) eigvals (mems (fst t)) write (snd t) true false) w)
             (indexed (analytical_tasks O scp format 1 k h))) n (start q stop fs) s ->
  st_main s = Exited (Ok rs) ->
  exists f, api_run false (Ok rs) = Ok (ReturnsField f) /\ length f = points (w_source w) /\
    exists t, analytical_tasks O scp format 1 k h = [t] /\ analytical_field O scp imems mems eigvals w 0 t f.
Proof. exact @single. Qed.
Print Assumptions C67_single.

(** Hence C67 is false: a run that returns a one-dimensional array. *)
Theorem C67_refuted : forall lnF scp imems mems eigvals format write, exists s rs f,
  steps (map (fun t => job (fst t) (analytical_worker (Fops lnF) scp (imems (fst t)) eigvals (mems (fst t)) write (snd t) true false) (fstart lnF scp))
             (indexed (analytical_tasks (Fops lnF) scp format 1 2 0.5%float))) 1 (start [] false no_files) s /\
  st_main s = Exited (Ok rs) /\ api_run false (Ok rs) = Ok (ReturnsField [f]).
Proof. exact one_field. Qed.
Print Assumptions C67_refuted.

(** Without fields it raises IndexError. *)
Theorem C67_none : forall T (O : ops T) scp format imems eigvals mems write w n q stop fs s saving m k h r, (m <= 0)%Z ->
  steps (map (fun t => job (fst t) (analytical_worker O scp (imems (fst t)) eigvals (mems (fst t)) write (snd t) true saving) w)
             (indexed (analytical_tasks O scp format m k h))) n (start q stop fs) s ->
  st_main s = Exited r -> api_run saving r = Err IndexError.
Proof. exact @none. Qed.
Print Assumptions C67_none.

(** A run of two tasks; [fstart] is the state after AnalyticalSolver's __init__ with one group of seeds and the Euler integrator. *)
Example C67_case : forall lnF scp imems mems eigvals format write,
  analytical_start (Fops lnF) scp expand (mk2 (Fops lnF) [fseed]) "euler" (WState (T := float) None no_files) = Ok (fstart lnF scp) /\
  exists s rs f g,
    steps (map (fun t => job (fst t) (analytical_worker (Fops lnF) scp (imems (fst t)) eigvals (mems (fst t)) write (snd t) true false) (fstart lnF scp))
               (indexed (analytical_tasks (Fops lnF) scp format 2 2 0.5%float))) 2 (start [] false no_files) s /\
    st_main s = Exited (Ok rs) /\ api_run false (Ok rs) = Ok (ReturnsStack [[f]; [g]]).
Proof. exact (fun lnF scp imems mems eigvals format write => conj (fstart_is lnF scp) (two_fields lnF scp imems mems eigvals format write)). Qed.
