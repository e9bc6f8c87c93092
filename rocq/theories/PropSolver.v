(** Properties C50-C59: src/pyftle/ftle_solver.py. *)
From Coq Require Import Reals Lra Lia Floats.
From Verif Require Import Base Num NdArray Particles Jacobian Ftle Integrate Interpolate Readers DataSource Solver FileRun
  SpecFtle SpecSeeds SpecIntegrate SpecInterp SpecSolver IntegrateMisc ParticleFacts FtleFacts3
  SolverFacts SolverField SolverLinear SolverRerun SolverMain SolverCases FileRunFacts SolverWitness FrameMain.
Local Open Scope R_scope.

(** C50.  [advance n a b] (SpecSolver): exactly n steps, the j-th after presenting snapshot j, each over
    the source's time step. *)
Theorem C50_one_step_per_snapshot : forall (T : Type) (O : ops T) (S P W : Type) interpolate eigvals mems
  (write : W -> string -> list (xval T) -> mat T -> W * res unit)
  (sv : solver T S P) (w w' : world T S P W) (f : list (xval T)),
  s_writer sv = false ->
  run O interpolate eigvals mems write sv w = (w', Ok (Some f)) <->
  exists id p p',
    src_id (s_source sv) = Ok id /\ src_particles (s_source sv) (w_source w) = Ok p /\
    advance O interpolate mems (w_clock w) (s_source sv) (src_steps (s_source sv))
      (w_integrator w, w_interp w, p) (w_integrator w', w_interp w', p') /\
    field_of O eigvals (src_steps (s_source sv)) (src_timestep (s_source sv)) p' (Ok f) /\
    w' = World (w_integrator w') (w_interp w') (src_keep (s_source sv) (w_source w) p')
           (w_queue w ++ (if s_queue sv then step_messages id (src_steps (s_source sv)) ++ [Done id] else []))
           (w_writer w) (w_clock w + src_steps (s_source sv)).
Proof. exact @run_ok. Qed.
Print Assumptions C50_one_step_per_snapshot.

(** A run of two steps that succeeds; the second part says it really advances twice. *)
Example C50_case : forall eigvals mems (write : unit -> string -> list (xval R) -> mat R -> unit * res unit), exists w',
  run Rops (@field_interp R) eigvals mems write an2 (an_world tt) = (w', Ok (Some [XVal (ln 4)])) /\ w_clock w' = 2%nat.
Proof. intros. destruct (an_first eigvals mems write tt) as (m & q & E & _). eexists. split; [exact E|reflexivity]. Qed.

(** C51 is false: the particles are advected over n |h|, the divisor is (n-1) |h|.  Here n = 2, h = 1. *)
Theorem C51_elapsed_time_refuted : forall eigvals mems (write : unit -> string -> list (xval R) -> mat R -> unit * res unit),
  exists (sv : solver R (list R -> list R) (particles R)) w w' p p' F s x,
  run Rops (@field_interp R) eigvals mems write sv w = (w', Ok (Some [x])) /\
  src_particles (s_source sv) (w_source w) = Ok p /\
  advance Rops (@field_interp R) mems (w_clock w) (s_source sv) 2
    (w_integrator w, w_interp w, p) (w_integrator w', w_interp w', p') /\
  compute_flow_map_jacobian_2x2 Rops p' = Ok [F] /\ spectral_norm_2 F s /\
  x <> ftle_value s (INR 2 * Rabs (src_timestep (s_source sv))).
Proof. exact elapsed_refuted. Qed.
Print Assumptions C51_elapsed_time_refuted.

(** What is true: the field is (1/T) ln ||F|| with T = (n-1) |h| although n steps of h are made ... *)
Theorem C51_actual_divisor : forall (S P W : Type) interpolate eigvals mems
  (write : W -> string -> list (xval R) -> mat R -> W * res unit)
  (sv : solver R S P) (w w' : world R S P W) f,
  s_writer sv = false -> (2 <= src_steps (s_source sv))%nat -> src_timestep (s_source sv) <> 0 ->
  run Rops interpolate eigvals mems write sv w = (w', Ok (Some f)) ->
  exists p p', src_particles (s_source sv) (w_source w) = Ok p /\
    advance Rops interpolate mems (w_clock w) (s_source sv) (src_steps (s_source sv))
      (w_integrator w, w_interp w, p) (w_integrator w', w_interp w', p') /\
    (num_neighbors p' = 4%nat -> exists Fs, compute_flow_map_jacobian_2x2 Rops p' = Ok Fs /\
       Forall2 (fun F x => exists s, spectral_norm_2 F s /\
         x = ftle_value s ((INR (src_steps (s_source sv)) - 1) * Rabs (src_timestep (s_source sv)))) Fs f).
Proof. exact @normalised2. Qed.
Print Assumptions C51_actual_divisor.

(** ... so in a linear flow every value is n/(n-1) times the normalised one. *)
Theorem C51_factor_2d : forall (S P W : Type) interpolate eigvals mems
  (write : W -> string -> list (xval R) -> mat R -> W * res unit) I, samples_field interpolate I ->
  forall (sv : solver R S P) (w : world R S P W) w0 m A b gs id s,
  presents_fields I (s_source sv) (fun _ => on_rows2 (aff2 A b)) ->
  I w0 (w_interp w) -> w_integrator w = fresh m -> s_writer sv = false ->
  src_id (s_source sv) = Ok id -> src_particles (s_source sv) (w_source w) = mk_particles Rops (layout2 gs) ->
  Forall axis_aligned2 gs -> (2 <= src_steps (s_source sv))%nat -> src_timestep (s_source sv) <> 0 ->
  let n := src_steps (s_source sv) in let h := src_timestep (s_source sv) in
  spectral_norm_2 (propagator2 m A h n) s -> s <> 0 ->
  snd (run Rops interpolate eigvals mems write sv w) =
    Ok (Some (map (fun _ => XVal (ln s / (INR n * Rabs h) * (INR n / (INR n - 1)))) gs)).
Proof. exact @linear2_factor. Qed.
Print Assumptions C51_factor_2d.

Theorem C51_factor_3d : forall (S P W : Type) interpolate eigvals mems
  (write : W -> string -> list (xval R) -> mat R -> W * res unit) I, samples_field interpolate I ->
  forall (sv : solver R S P) (w : world R S P W) w0 m A b gs id s, eigvals_ok eigvals ->
  presents_fields I (s_source sv) (fun _ => on_rows3 (aff3 A b)) ->
  I w0 (w_interp w) -> w_integrator w = fresh m -> s_writer sv = false ->
  src_id (s_source sv) = Ok id -> src_particles (s_source sv) (w_source w) = mk_particles Rops (layout3 gs) ->
  Forall axis_aligned3 gs -> (2 <= src_steps (s_source sv))%nat -> src_timestep (s_source sv) <> 0 ->
  let n := src_steps (s_source sv) in let h := src_timestep (s_source sv) in
  spectral_norm_3 (propagator3 m A h n) s -> s <> 0 ->
  snd (run Rops interpolate eigvals mems write sv w) =
    Ok (Some (map (fun _ => XVal (ln s / (INR n * Rabs h) * (INR n / (INR n - 1)))) gs)).
Proof. exact @linear3_factor. Qed.
Print Assumptions C51_factor_3d.
(** The shear flow (x, y) -> (y, 0), two Euler steps of 1. *)
Example C51_case : forall eigvals mems,
  snd (run Rops (@field_interp R) eigvals mems still (alone (fun _ => aff2 (M22 0 1 0 0) (0, 0)) [seed1]) (start MEuler tt)) =
    Ok (Some [XVal (ln (1 + R_sqrt.sqrt 2) / (INR 2 * Rabs 1) * (INR 2 / (INR 2 - 1)))]).
Proof.
  intros eigvals mems. pose proof (sqrt_pos 2).
  apply (C51_factor_2d _ _ _ (@field_interp R) eigvals mems still (fun v s => s = v) field_interp_ok
    (alone (fun _ => aff2 (M22 0 1 0 0) (0, 0)) [seed1]) (start MEuler tt) (fun x => x) MEuler (M22 0 1 0 0) (0, 0) [seed1] "a"%string (1 + R_sqrt.sqrt 2));
    try reflexivity; try lra; try (apply two_steps_ok || exact seed1_aligned || (cbn; lia) || (cbn; lra)).
  replace (propagator2 _ _ _ _) with (M22 1 2 0 1); [exact norm_shear|]. apply FtleFacts2.m22_ext; cbn; ring.
Qed.

(** C52.  [zero_period h]: 0 * |h| == 0; true of every real and every finite binary64 number. *)
Theorem C52_single_snapshot_fails : forall (T : Type) (O : ops T) (S P W : Type) interpolate eigvals mems
  (write : W -> string -> list (xval T) -> mat T -> W * res unit) (sv : solver T S P) (w w' : world T S P W) r,
  run O interpolate eigvals mems write sv w = (w', r) ->
  src_steps (s_source sv) = 1%nat -> zero_period O (src_timestep (s_source sv)) ->
  w_writer w' = w_writer w /\ exists e, r = Err e.
Proof. exact @single_fails. Qed.
Print Assumptions C52_single_snapshot_fails.

Theorem C52_zero_period_real : forall h, zero_period Rops h.
Proof. exact zero_period_R. Qed.
Print Assumptions C52_zero_period_real.

Theorem C52_zero_period_binary64 : forall lnF h,
  (exists b, Prim2SF h = S754_zero b) \/ (exists b m e, Prim2SF h = S754_finite b m e) -> zero_period (Fops lnF) h.
Proof. exact zero_period_F. Qed.
Print Assumptions C52_zero_period_binary64.

(** The error, when the field can be sampled everywhere. *)
Theorem C52_zero_division_2d : forall (T : Type) (O : ops T) (S P W : Type) interpolate eigvals mems
  (write : W -> string -> list (xval T) -> mat T -> W * res unit) I, samples_field interpolate I ->
  forall (sv : solver T S P) v m (w : world T S P W) w0 gs id,
  presents_fields I (s_source sv) v -> (forall j x, length x = 2%nat -> length (v j x) = 2%nat) ->
  I w0 (w_interp w) -> w_integrator w = fresh m -> s_writer sv = false ->
  src_id (s_source sv) = Ok id -> src_particles (s_source sv) (w_source w) = mk_particles O (layout2 gs) ->
  src_steps (s_source sv) = 1%nat -> zero_period O (src_timestep (s_source sv)) ->
  snd (run O interpolate eigvals mems write sv w) = Err ZeroDivisionError.
Proof. exact @single2. Qed.
Print Assumptions C52_zero_division_2d.

Theorem C52_zero_division_3d : forall (T : Type) (O : ops T) (S P W : Type) interpolate eigvals mems
  (write : W -> string -> list (xval T) -> mat T -> W * res unit) I, samples_field interpolate I ->
  forall (sv : solver T S P) v m (w : world T S P W) w0 gs id,
  (forall M, exists e, eigvals M = Ok e) ->
  presents_fields I (s_source sv) v -> (forall j x, length x = 3%nat -> length (v j x) = 3%nat) ->
  I w0 (w_interp w) -> w_integrator w = fresh m -> s_writer sv = false ->
  src_id (s_source sv) = Ok id -> src_particles (s_source sv) (w_source w) = mk_particles O (layout3 gs) ->
  src_steps (s_source sv) = 1%nat -> zero_period O (src_timestep (s_source sv)) ->
  snd (run O interpolate eigvals mems write sv w) = Err ZeroDivisionError.
Proof. exact @single3. Qed.
Print Assumptions C52_zero_division_3d.

Example C52_case : src_steps (s_source (one true)) = 1%nat /\ zero_period Rops (src_timestep (s_source (one true))) /\
  samples_field (@field_interp R) only_same /\
  presents_fields only_same (s_source (one false)) (fun _ => same_field).
Proof.
  split; [reflexivity|]. split; [apply zero_period_R|]. split; [exact only_same_ok|].
  apply one_presents.
Qed.

(** C53 *)
Theorem C53_progress : forall (T : Type) (O : ops T) (S P W : Type) interpolate eigvals mems
  (write : W -> string -> list (xval T) -> mat T -> W * res unit) (sv : solver T S P) (w w' : world T S P W) r,
  run O interpolate eigvals mems write sv w = (w', r) ->
  (s_queue sv = false -> w_queue w' = w_queue w) /\
  (s_queue sv = true ->
     (exists e, start_fails sv w e /\ r = Err e /\ w_queue w' = w_queue w) \/
     (exists id p, src_id (s_source sv) = Ok id /\ src_particles (s_source sv) (w_source w) = Ok p /\
        let adv := advance O interpolate mems (w_clock w) (s_source sv) in
        let n := src_steps (s_source sv) in
        (exists m e b c, (m < n)%nat /\ r = Err e /\ adv m (w_integrator w, w_interp w, p) b /\
           blocked O interpolate mems (w_clock w) (s_source sv) m b e c /\
           w_queue w' = w_queue w ++ step_messages id m) \/
        ((exists b, adv n (w_integrator w, w_interp w, p) b) /\
           w_queue w' = w_queue w ++ step_messages id n ++ [Done id]))).
Proof. exact @messages. Qed.
Print Assumptions C53_progress.

Theorem C53_success : forall (T : Type) (O : ops T) (S P W : Type) interpolate eigvals mems
  (write : W -> string -> list (xval T) -> mat T -> W * res unit) (sv : solver T S P) (w w' : world T S P W) o,
  run O interpolate eigvals mems write sv w = (w', Ok o) -> s_queue sv = true ->
  exists id, src_id (s_source sv) = Ok id /\
    w_queue w' = w_queue w ++ step_messages id (src_steps (s_source sv)) ++ [Done id].
Proof. exact @messages_ok. Qed.
Print Assumptions C53_success.

Example C53_case : step_messages "a" 2 ++ [Done "a"] = [Progress "a" 0; Progress "a" 1; Done "a"] /\
  s_queue an2 = true /\ exists id, src_id (s_source an2) = Ok id.
Proof. split; [reflexivity|]. split; [reflexivity|]. eexists. reflexivity. Qed.

(** C54 is false: 'done' is published before the field is computed and written. *)
Theorem C54_done_means_result_refuted : forall eigvals mems (W : Type)
  (write : W -> string -> list (xval R) -> mat R -> W * res unit) (w0 : W),
  exists (sv : solver R (list R -> list R) (particles R)) w w',
  s_writer sv = true /\ w_writer w = w0 /\
  run Rops (@field_interp R) eigvals mems write sv w = (w', Err ZeroDivisionError) /\
  w_queue w' = [Progress "0.000000" 0; Done "0.000000"] /\ w_writer w' = w0.
Proof. exact @done_refuted. Qed.
Print Assumptions C54_done_means_result_refuted.

(** What is true: 'done' means that all steps have been integrated. *)
Theorem C54_done_means_integrated : forall (T : Type) (O : ops T) (S P W : Type) interpolate eigvals mems
  (write : W -> string -> list (xval T) -> mat T -> W * res unit) (sv : solver T S P) (w w' : world T S P W) r id,
  run O interpolate eigvals mems write sv w = (w', r) -> ~ In (Done id) (w_queue w) -> In (Done id) (w_queue w') ->
  src_id (s_source sv) = Ok id /\ exists p p', src_particles (s_source sv) (w_source w) = Ok p /\
    advance O interpolate mems (w_clock w) (s_source sv) (src_steps (s_source sv))
      (w_integrator w, w_interp w, p) p'.
Proof. exact @done_integrated. Qed.
Print Assumptions C54_done_means_integrated.
Example C54_case : forall eigvals mems (write : unit -> string -> list (xval R) -> mat R -> unit * res unit), exists w' id,
  run Rops (@field_interp R) eigvals mems write an2 (an_world tt) = (w', Ok (Some [XVal (ln 4)])) /\ ~ In (Done id) (w_queue (an_world tt)) /\ In (Done id) (w_queue w').
Proof.
  intros. destruct (an_first eigvals mems write tt) as (m & q & E & _). eexists. exists "0.000000"%string. split; [exact E|]. split; [intros []|].
  destruct (C53_progress _ _ _ _ _ _ _ _ _ _ _ _ _ E) as [_ H]. destruct (H eq_refl) as [(e & _ & X & _)|(id & p & Ei & _ & [(k & e & _ & _ & _ & X & _)|(_ & ->)])]; try discriminate X.
  injection Ei as <-. apply in_or_app. right. apply in_or_app. right. left. reflexivity.
Qed.

(** C55.  A writer that itself raises is the only failure after a call of the writer. *)
Theorem C55_output : forall (T : Type) (O : ops T) (S P W : Type) interpolate eigvals mems
  (write : W -> string -> list (xval T) -> mat T -> W * res unit) (sv : solver T S P) (w w' : world T S P W) r,
  run O interpolate eigvals mems write sv w = (w', r) ->
  (s_writer sv = false -> w_writer w' = w_writer w /\ forall o, r = Ok o -> exists f, o = Some f) /\
  (s_writer sv = true ->
     (exists e, r = Err e /\ w_writer w' = w_writer w) \/
     (exists id p b f rw, src_id (s_source sv) = Ok id /\ src_particles (s_source sv) (w_source w) = Ok p /\
        advance O interpolate mems (w_clock w) (s_source sv) (src_steps (s_source sv))
          (w_integrator w, w_interp w, p) b /\
        field_of O eigvals (src_steps (s_source sv)) (src_timestep (s_source sv)) (snd b) (Ok f) /\
        write (w_writer w) (append "ftle_" id) f (initial_centroid p) = (w_writer w', rw) /\
        r = match rw with Ok tt => Ok None | Err e => Err e end)).
Proof. exact @outputs. Qed.
Print Assumptions C55_output.

(** A recording writer: the run writes one file and returns nothing. *)
Example C55_case : forall eigvals mems, exists w',
  run Rops (@field_interp R) eigvals mems (fun W n f c => (W ++ [(n, f, c)], Ok tt))
    (Solver (s_source an2) true true) (an_world []) = (w', Ok None) /\
  w_writer w' = [("ftle_0.000000"%string, [XVal (ln 4)], initial_centroid (mk2 Rops [seed1]))].
Proof. exact recorded. Qed.

(** C56 is false: the analytical source hands out the caller's particles, which the run moves ... *)
Theorem C56_rerun_analytical_refuted : forall eigvals mems (write : unit -> string -> list (xval R) -> mat R -> unit * res unit),
  let runs := run Rops (@field_interp R) eigvals mems write in
  exists (sv : solver R (list R -> list R) (particles R)) w, w_integrator w = Euler None /\
    snd (runs sv w) = Ok (Some [XVal (ln 4)]) /\ snd (runs sv (fst (runs sv w))) = Ok (Some [XVal (ln 16)]) /\
    ln 4 <> ln 16.
Proof. exact rerun_analytical. Qed.
Print Assumptions C56_rerun_analytical_refuted.

(** ... and AB2 remembers the last velocity of the previous run, also when the particles are read again. *)
Theorem C56_rerun_ab2_refuted : forall eigvals mems (write : unit -> string -> list (xval R) -> mat R -> unit * res unit),
  let runs := run Rops (@field_interp R) eigvals mems write in
  exists (sv : solver R (list R -> list R) unit) w, w_integrator w = AB2 None None /\
    snd (runs sv w) = Ok (Some [XVal (ln (9/2))]) /\ snd (runs sv (fst (runs sv w))) = Ok (Some [XVal (ln (13/4))]) /\
    ln (9/2) <> ln (13/4).
Proof. exact rerun_ab2. Qed.
Print Assumptions C56_rerun_ab2_refuted.

(** Euler and RK4 on files, with the cubic, linear or nearest interpolator, in the plane. *)
Theorem C56_rerun_files_partial : forall (T : Type) (O : ops T) (scp : scipy T) imems fs f (W : Type) eigvals mems
  (write : W -> string -> list (xval T) -> mat T -> W * res unit) q (w : world T (istate scp) unit W),
  is_unstructured (fst (w_interp w)) ->
  reachable O (i_interpolate O scp imems) (w_integrator w) -> (forall a b, w_integrator w <> AB2 a b) ->
  (forall p, src_particles (file_task O scp fs f) tt = Ok p -> mcols (positions p) = 2%nat /\ nrows (positions p) <> 3%nat) ->
  let again := file_worker O scp imems eigvals mems write fs f q false in
  snd (again (fst (again w))) = snd (again w).
Proof. exact @rerun_files. Qed.
Print Assumptions C56_rerun_files_partial.

Example C56_case : forall (T : Type) (O : ops T) (scp : scipy T) imems (gs : list (SpecSeeds.group2 T)),
  is_unstructured (scp := scp) (INearest unstructured_new) /\
  reachable O (i_interpolate O scp imems) (RK4 None) /\ (forall a b, RK4 (T := T) None <> AB2 a b) /\
  mcols (layout2 gs) = 2%nat /\ nrows (layout2 gs) <> 3%nat.
Proof.
  intros. split; [exact I|]. split; [apply (reach_fresh _ _ "rk4"); reflexivity|]. split; [discriminate|]. split; [reflexivity|].
  rewrite nrows_layout2. lia.
Qed.

(** C57 *)
Theorem C57_local_2d : forall (T : Type) (O : ops T) (S P W : Type) interpolate eigvals mems
  (write : W -> string -> list (xval T) -> mat T -> W * res unit) I, samples_field interpolate I ->
  forall (sv : solver T S P) v m (w : world T S P W) w0 gs p f,
  presents_fields I (s_source sv) v -> (forall j x, length x = 2%nat -> length (v j x) = 2%nat) ->
  I w0 (w_interp w) -> w_integrator w = fresh m -> s_writer sv = false ->
  mk_particles O (layout2 gs) = Ok p -> src_particles (s_source sv) (w_source w) = Ok p ->
  snd (run O interpolate eigvals mems write sv w) = Ok (Some f) ->
  length f = length gs /\
  forall i g, nth_error gs i = Some g -> exists x, nth_error f i = Some x /\
    snd (run O interpolate eigvals mems write
           (Solver (with_particles (s_source sv) (mk_particles O (layout2 [g]))) (s_queue sv) false) w) = Ok (Some [x]).
Proof. exact @local2. Qed.
Print Assumptions C57_local_2d.

Theorem C57_local_3d : forall (T : Type) (O : ops T) (S P W : Type) interpolate eigvals mems
  (write : W -> string -> list (xval T) -> mat T -> W * res unit) I, samples_field interpolate I ->
  forall (sv : solver T S P) v m (w : world T S P W) w0 gs p f,
  presents_fields I (s_source sv) v -> (forall j x, length x = 3%nat -> length (v j x) = 3%nat) ->
  I w0 (w_interp w) -> w_integrator w = fresh m -> s_writer sv = false ->
  mk_particles O (layout3 gs) = Ok p -> src_particles (s_source sv) (w_source w) = Ok p ->
  snd (run O interpolate eigvals mems write sv w) = Ok (Some f) ->
  length f = length gs /\
  forall i g, nth_error gs i = Some g -> exists x, nth_error f i = Some x /\
    snd (run O interpolate eigvals mems write
           (Solver (with_particles (s_source sv) (mk_particles O (layout3 [g]))) (s_queue sv) false) w) = Ok (Some [x]).
Proof. exact @local3. Qed.
Print Assumptions C57_local_3d.

Example C57_case : forall eigvals mems (write : unit -> string -> list (xval R) -> mat R -> unit * res unit),
  presents_fields only_same (s_source an2) (fun _ => same_field) /\
  w_integrator (an_world tt) = fresh MEuler /\
  snd (run Rops (@field_interp R) eigvals mems write an2 (an_world tt)) = Ok (Some [XVal (ln 4)]).
Proof.
  intros. split; [exact an2_presents|]. split; [reflexivity|].
  destruct (an_first eigvals mems write tt) as (m & q & E & _). rewrite E. reflexivity.
Qed.

(** C58.  The velocity is uniform in space and may change from snapshot to snapshot. *)
Theorem C58_uniform_2d : forall (S P W : Type) interpolate eigvals mems
  (write : W -> string -> list (xval R) -> mat R -> W * res unit) I, samples_field interpolate I ->
  forall (sv : solver R S P) (w : world R S P W) w0 m c gs id,
  presents_fields I (s_source sv) (fun j => on_rows2 (fun _ => c j)) ->
  I w0 (w_interp w) -> w_integrator w = fresh m -> s_writer sv = false ->
  src_id (s_source sv) = Ok id -> src_particles (s_source sv) (w_source w) = mk_particles Rops (layout2 gs) ->
  Forall axis_aligned2 gs -> (2 <= src_steps (s_source sv))%nat -> src_timestep (s_source sv) <> 0 ->
  snd (run Rops interpolate eigvals mems write sv w) = Ok (Some (map (fun _ => XVal 0) gs)).
Proof. exact @run_uniform2. Qed.
Print Assumptions C58_uniform_2d.

Theorem C58_uniform_3d : forall (S P W : Type) interpolate eigvals mems
  (write : W -> string -> list (xval R) -> mat R -> W * res unit) I, samples_field interpolate I ->
  forall (sv : solver R S P) (w : world R S P W) w0 m c gs id, eigvals_ok eigvals ->
  presents_fields I (s_source sv) (fun j => on_rows3 (fun _ => c j)) ->
  I w0 (w_interp w) -> w_integrator w = fresh m -> s_writer sv = false ->
  src_id (s_source sv) = Ok id -> src_particles (s_source sv) (w_source w) = mk_particles Rops (layout3 gs) ->
  Forall axis_aligned3 gs -> (2 <= src_steps (s_source sv))%nat -> src_timestep (s_source sv) <> 0 ->
  snd (run Rops interpolate eigvals mems write sv w) = Ok (Some (map (fun _ => XVal 0) gs)).
Proof. exact @run_uniform3. Qed.
Print Assumptions C58_uniform_3d.

Example C58_case : exists (src : source R (list R -> list R) unit) (c : nat -> R * R),
  presents_fields (fun v s => s = v) src (fun j => on_rows2 (fun _ => c j)) /\ c 0%nat <> c 1%nat /\
  src_particles src tt = mk_particles Rops (layout2 [seed1]) /\ Forall axis_aligned2 [seed1] /\
  src_steps src = 3%nat /\ src_timestep src = -2.
Proof. exact uniform_case. Qed.

(** C59.  [propagator2], [propagator3] (SpecSolver): (I + hA)^n for Euler, the fourth-order Taylor
    polynomial of exp(hA) to the n-th power for RK4, and the two-step recurrence for AB2. *)
Theorem C59_linear_2d : forall (S P W : Type) interpolate eigvals mems
  (write : W -> string -> list (xval R) -> mat R -> W * res unit) I, samples_field interpolate I ->
  forall (sv : solver R S P) (w : world R S P W) w0 m A b gs id,
  presents_fields I (s_source sv) (fun _ => on_rows2 (aff2 A b)) ->
  I w0 (w_interp w) -> w_integrator w = fresh m -> s_writer sv = false ->
  src_id (s_source sv) = Ok id -> src_particles (s_source sv) (w_source w) = mk_particles Rops (layout2 gs) ->
  Forall axis_aligned2 gs -> (2 <= src_steps (s_source sv))%nat -> src_timestep (s_source sv) <> 0 ->
  let n := src_steps (s_source sv) in let h := src_timestep (s_source sv) in
  exists s, spectral_norm_2 (propagator2 m A h n) s /\
    snd (run Rops interpolate eigvals mems write sv w) =
      Ok (Some (map (fun _ => ftle_value s ((INR n - 1) * Rabs h)) gs)).
Proof. exact @linear2. Qed.
Print Assumptions C59_linear_2d.

Theorem C59_linear_3d : forall (S P W : Type) interpolate eigvals mems
  (write : W -> string -> list (xval R) -> mat R -> W * res unit) I, samples_field interpolate I ->
  forall (sv : solver R S P) (w : world R S P W) w0 m A b gs id, eigvals_ok eigvals ->
  presents_fields I (s_source sv) (fun _ => on_rows3 (aff3 A b)) ->
  I w0 (w_interp w) -> w_integrator w = fresh m -> s_writer sv = false ->
  src_id (s_source sv) = Ok id -> src_particles (s_source sv) (w_source w) = mk_particles Rops (layout3 gs) ->
  Forall axis_aligned3 gs -> (2 <= src_steps (s_source sv))%nat -> src_timestep (s_source sv) <> 0 ->
  let n := src_steps (s_source sv) in let h := src_timestep (s_source sv) in
  exists s, spectral_norm_3 (propagator3 m A h n) s /\
    snd (run Rops interpolate eigvals mems write sv w) =
      Ok (Some (map (fun _ => ftle_value s ((INR n - 1) * Rabs h)) gs)).
Proof. exact @linear3. Qed.
Print Assumptions C59_linear_3d.

Example C59_case : presents_fields only_same (s_source an2) (fun _ => same_field) /\
  (forall x : R * R, on_rows2 (aff2 id22 (0, 0)) (row2 x) = same_field (row2 x)) /\
  Forall axis_aligned2 [seed1] /\ exists e, eigvals_ok e.
Proof.
  split; [exact an2_presents|]. split; [exact id_is_affine|]. split; [exact seed1_aligned|exact eigvals_ok_exists].
Qed.
