(** Properties C16, C18-C26: src/pyftle/integrate.py. *)
From Coq Require Import Reals Lra Lia.
From Verif Require Import Base Num Particles Jacobian Integrate SpecSeeds ParticleFacts
  SpecIntegrate IntegrateFacts IntegratePoint IntegrateGeom IntegrateReal IntegrateMisc.
Local Open Scope R_scope.

(** C16.  [interpolate] is any interpolator returning arrays; [hist] any history of
    (change of the interpolator, time step); the run may end with an exception. *)
Theorem C16_geometry_2d : forall {T} (O : ops T) {S} (interpolate : S -> mat T -> S * res (mat T)),
  (forall s m s' v, interpolate s m = (s', Ok v) -> wf_mat v) ->
  forall name i mems k s hist gs p i' s' p' r,
  create_integrator name = Ok i -> mk_particles O (layout2 gs) = Ok p ->
  integrate_seq O interpolate mems k i s hist p = (i', s', p', r) ->
  exists gs', length gs' = length gs /\ positions p' = layout2 gs' /\
    initial_delta_right_left p' = arr2 (map (rl2 O) gs) /\
    initial_delta_top_bottom p' = arr2 (map (tb2 O) gs) /\
    initial_centroid p' = arr2 (map (mean2 O) gs) /\
    delta_right_left O p' = Ok (arr2 (map (rl2 O) gs')) /\
    delta_top_bottom O p' = Ok (arr2 (map (tb2 O) gs')) /\
    centroid O p' = Ok (arr2 (map (mean2 O) gs')).
Proof. exact @frozen_2d. Qed.
Print Assumptions C16_geometry_2d.

Theorem C16_geometry_3d : forall {T} (O : ops T) {S} (interpolate : S -> mat T -> S * res (mat T)),
  (forall s m s' v, interpolate s m = (s', Ok v) -> wf_mat v) ->
  forall name i mems k s hist gs p i' s' p' r,
  create_integrator name = Ok i -> mk_particles O (layout3 gs) = Ok p ->
  integrate_seq O interpolate mems k i s hist p = (i', s', p', r) ->
  exists gs', length gs' = length gs /\ positions p' = layout3 gs' /\
    initial_delta_right_left p' = arr3 (map (rl3 O) gs) /\
    initial_delta_top_bottom p' = arr3 (map (tb3 O) gs) /\
    initial_delta_front_back p' = arr3 (map (fb3 O) gs) /\
    initial_centroid p' = arr3 (map (mean3 O) gs) /\
    delta_right_left O p' = Ok (arr3 (map (rl3 O) gs')) /\
    delta_top_bottom O p' = Ok (arr3 (map (tb3 O) gs')) /\
    delta_front_back O p' = Ok (arr3 (map (fb3 O) gs')) /\
    centroid O p' = Ok (arr3 (map (mean3 O) gs')).
Proof. exact @frozen_3d. Qed.
Print Assumptions C16_geometry_3d.

(** The interpolator that answers zero everywhere returns arrays. *)
Example C16_case : forall (s : unit) (m : mat R) s' v,
  (fun (s : unit) (m : mat R) => (s, Ok (junk_mat (fun _ _ => 0) (nrows m) (mcols m)))) s m = (s', Ok v) -> wf_mat v.
Proof.
  intros s m s' v H. injection H as _ <-. apply Forall_map, Forall_forall. intros n _.
  rewrite map_length. apply seq_length.
Qed.

(** C18.  One call, any memory, any earlier history of the integrator ([reachable]). *)
Theorem C18_euler_step : forall {T} (O : ops T) {S} (interpolate : S -> mat T -> S * res (mat T)) I,
  samples_field interpolate I ->
  forall mem b v s h c rows, I v s ->
  exists b' s', integrate_pos O interpolate mem (Euler b) s h (Mat c rows) =
    (Euler b', s', Ok (Mat c (map (textbook_euler O v h) rows))) /\ I v s'.
Proof. exact @euler_point. Qed.
Print Assumptions C18_euler_step.

Theorem C18_ab2_first_step : forall {T} (O : ops T) {S} (interpolate : S -> mat T -> S * res (mat T)) I,
  samples_field interpolate I ->
  forall mem b v s h c rows, I v s ->
  exists b' s', integrate_pos O interpolate mem (AB2 None b) s h (Mat c rows) =
    (AB2 (Some (Mat c (map v rows))) b', s', Ok (Mat c (map (textbook_euler O v h) rows))) /\ I v s'.
Proof. exact @ab2_point_first. Qed.
Print Assumptions C18_ab2_first_step.

Theorem C18_ab2_next_step : forall {T} (O : ops T) {S} (interpolate : S -> mat T -> S * res (mat T)) I,
  samples_field interpolate I ->
  forall mem b v s h c rows prev, I v s -> length prev = length rows ->
  exists b' s', integrate_pos O interpolate mem (AB2 (Some (Mat c prev)) b) s h (Mat c rows) =
    (AB2 (Some (Mat c (map v rows))) b', s',
     Ok (Mat c (zip_with (fun x w => textbook_ab2 O v h w x) rows prev))) /\ I v s'.
Proof. exact @ab2_point_next. Qed.
Print Assumptions C18_ab2_next_step.

Theorem C18_rk4_step : forall {T} (O : ops T) {S} (interpolate : S -> mat T -> S * res (mat T)) I,
  samples_field interpolate I ->
  forall mem b v s h c rows, reachable O interpolate (RK4 b) -> I v s ->
  exists b' s', integrate_pos O interpolate mem (RK4 b) s h (Mat c rows) =
    (RK4 b', s', Ok (Mat c (map (textbook_rk4 O v h) rows))) /\ I v s'.
Proof. exact @rk4_point_reachable. Qed.
Print Assumptions C18_rk4_step.

(** Whole histories from a new integrator, with the field changed before every call. *)
Theorem C18_history : forall {T} (O : ops T) {S} (interpolate : S -> mat T -> S * res (mat T)) I,
  samples_field interpolate I ->
  forall mems k m hist steps w s p, presents I hist steps -> I w s ->
  exists i' s', integrate_seq O interpolate mems k (fresh m) s hist p =
    (i', s', set_positions p (Mat (mcols (positions p)) (map (path O m steps) (mrows (positions p)))), Ok tt).
Proof. exact @seq_path. Qed.
Print Assumptions C18_history.

(** Every sequence of fields can be presented. *)
Example C18_case : forall steps : list ((list R -> list R) * R),
  samples_field (@field_interp R) (fun v s => s = v) /\
  presents (fun v s => s = v) (map (fun a => ((fun _ => fst a), snd a)) steps) steps.
Proof. intro steps. split; [exact field_interp_ok|exact (field_presents steps)]. Qed.

(** C19.  Two integrators with arbitrary pasts and arbitrary memory contents. *)
Theorem C19_no_leak : forall {T} (O : ops T) {S} (interpolate : S -> mat T -> S * res (mat T))
  mem mem' i j s h pos i1 s1 r1 i2 s2 r2,
  reachable O interpolate i -> reachable O interpolate j -> same_memory i j ->
  integrate_pos O interpolate mem i s h pos = (i1, s1, r1) ->
  integrate_pos O interpolate mem' j s h pos = (i2, s2, r2) -> s1 = s2 /\ r1 = r2.
Proof. exact @noleak. Qed.
Print Assumptions C19_no_leak.
Example C19_case : forall mem, exists b,
  integrate_pos Rops (@field_interp R) mem (RK4 None) (fun x => x) 1 (Mat 1 [[1]; [2]]) = b /\
  reachable Rops (@field_interp R) (fst (fst b)) /\ same_memory (fst (fst b)) (RK4 None).
Proof.
  intro mem. eexists. split; [reflexivity|]. split.
  - eapply reach_step with (i := RK4 None); [apply reach_fresh with (name := "rk4"%string); reflexivity|].
    rewrite <- !surjective_pairing. reflexivity.
  - cbn. exact I.
Qed.

(** C20. *)
Theorem C20_ab2_size_change : forall {T S} (O : ops T) (interpolate : S -> mat T -> S * res (mat T))
  mem mem2 p b s h q q2 h2 i' s' p' s2 i2 s3 p2 r2,
  integrate O interpolate mem (AB2 p b) s h q = (i', s', p', Ok tt) ->
  same_shape (positions q) (positions q2) = false ->
  integrate O interpolate mem2 i' s2 h2 q2 = (i2, s3, p2, r2) ->
  (exists e, r2 = Err e) /\ p2 = q2.
Proof. exact @ab2_size_change. Qed.
Print Assumptions C20_ab2_size_change.
Example C20_case : forall mem, exists i' s' p',
  integrate Rops (@field_interp R) mem (AB2 None None) (fun x => x) 1
    (set_positions (mk2 Rops []) (Mat 1 [[1]; [2]])) = (i', s', p', Ok tt).
Proof. intro mem. do 3 eexists. reflexivity. Qed.

(** C21.  One map [Phi] moves every particle of every particle set. *)
Theorem C21_particles_independent : forall {T S} (O : ops T) (interpolate : S -> mat T -> S * res (mat T))
  I m hist steps,
  samples_field interpolate I -> presents I hist steps ->
  exists Phi : list T -> list T, forall mems k w s p, I w s ->
    exists i' s', integrate_seq O interpolate mems k (fresh m) s hist p =
      (i', s', set_positions p (Mat (mcols (positions p)) (map Phi (mrows (positions p)))), Ok tt).
Proof. exact @own_path. Qed.
Print Assumptions C21_particles_independent.
Example C21_case : exists Phi : list R -> list R, forall mems w p, exists i' s',
  integrate_seq Rops (@field_interp R) mems 0 (fresh MAB2) w [((fun _ => rot_field), 1); ((fun _ => fun x => x), 1 / 2)] p =
    (i', s', set_positions p (Mat (mcols (positions p)) (map Phi (mrows (positions p)))), Ok tt).
Proof.
  destruct (C21_particles_independent Rops (@field_interp R) (fun v s => s = v) MAB2 _ [(rot_field, 1); ((fun x => x), 1 / 2)]
    field_interp_ok (field_presents [(rot_field, 1); ((fun x => x), 1 / 2)])) as (Phi & H).
  exists Phi. intros mems w p. exact (H mems 0%nat w w p eq_refl).
Qed.

(** C22. *)
Theorem C22_uniform_flow : forall {S} (interpolate : S -> mat R -> S * res (mat R)) I
  (m : method) c n h hist mems k w s p,
  samples_field interpolate I -> presents I hist (repeat ((fun _ => c), h) n) -> I w s ->
  Forall (fun x => length x = length c) (mrows (positions p)) ->
  exists i' s', integrate_seq Rops interpolate mems k (fresh m) s hist p =
    (i', s', set_positions p (Mat (mcols (positions p))
       (map (fun x => x +v (INR n * h) *v c) (mrows (positions p)))), Ok tt).
Proof. exact @uniform_seq. Qed.
Print Assumptions C22_uniform_flow.
Example C22_case : Forall (fun x => length x = length [3; 4])
  (mrows (positions (mk2 Rops [Group2 (-1, 0) (1, 0) (0, 1) (0, -1)]))).
Proof. repeat constructor. Qed.

(** C23. *)
Theorem C23_rk4_linear : forall {S} (interpolate : S -> mat R -> S * res (mat R)) I A b n h hist mems k w s p,
  samples_field interpolate I -> presents I hist (repeat ((fun y => A y +v b), h) n) -> I w s ->
  linear_on (length b) A -> Forall (fun x => length x = length b) (mrows (positions p)) ->
  exists i' s', integrate_seq Rops interpolate mems k (fresh MRK4) s hist p =
    (i', s', set_positions p (Mat (mcols (positions p))
       (map (Nat.iter n (taylor4 A b h)) (mrows (positions p)))), Ok tt).
Proof. exact @rk4_linear_seq. Qed.
Print Assumptions C23_rk4_linear.
Theorem C23_euler_linear : forall {S} (interpolate : S -> mat R -> S * res (mat R)) I A b n h hist mems k w s p,
  samples_field interpolate I -> presents I hist (repeat ((fun y => A y +v b), h) n) -> I w s ->
  exists i' s', integrate_seq Rops interpolate mems k (fresh MEuler) s hist p =
    (i', s', set_positions p (Mat (mcols (positions p))
       (map (Nat.iter n (fun y => y +v h *v (A y +v b))) (mrows (positions p)))), Ok tt).
Proof. exact @euler_linear_seq. Qed.
Print Assumptions C23_euler_linear.
Example C23_case : linear_on 2 rot_field.
Proof. exact rot_linear. Qed.

(** C24.  False: all four stages use the field at the time the interpolator holds. *)
Theorem C24_rk4_times_refuted : exists (v : R -> list R -> list R) (t h : R) (x : list R) b s,
  integrate_pos Rops (recorder v) (fun _ _ _ => 0) (RK4 None) (t, []) h (Mat 1 [x])
    = (b, s, Ok (Mat 1 [textbook_rk4 Rops (v t) h x]))
  /\ snd s <> [t; t + h / 2; t + h / 2; t + h]
  /\ textbook_rk4 Rops (v t) h x <> textbook_rk4_t Rops v t h x.
Proof. exact rk4_times_refuted. Qed.
Print Assumptions C24_rk4_times_refuted.

Theorem C24_rk4_times_exact : forall {T} (O : ops T) (v : T -> list T -> list T) mem t h c rows,
  exists b, integrate_pos O (recorder v) mem (RK4 None) (t, []) h (Mat c rows)
    = (b, (t, [t; t; t; t]), Ok (Mat c (map (textbook_rk4 O (v t) h) rows))).
Proof. exact @rk4_times. Qed.
Print Assumptions C24_rk4_times_exact.

(** It is the documented method when the field does not depend on time. *)
Theorem C24_rk4_times_partial : forall {T} (O : ops T) (v : T -> list T -> list T) t h x,
  (forall t', v t' = v t) -> textbook_rk4 O (v t) h x = textbook_rk4_t O v t h x.
Proof. exact @time_dep_partial. Qed.
Print Assumptions C24_rk4_times_partial.
Example C24_case : forall t h x, textbook_rk4 Rops rot_field h x = textbook_rk4_t Rops (fun _ => rot_field) t h x.
Proof. intros t h x. exact (C24_rk4_times_partial Rops (fun _ => rot_field) t h x (fun _ => eq_refl)). Qed.

(** C25.  [steps] and [reversed steps] negate every field and every time step. *)
Theorem C25_time_reversal : forall {S S'} (interpolate : S -> mat R -> S * res (mat R)) I
  (interpolate' : S' -> mat R -> S' * res (mat R)) I' m hist hist' steps mems mems' k k' w w' s s' p,
  samples_field interpolate I -> samples_field interpolate' I' ->
  presents I hist steps -> presents I' hist' (reversed steps) -> I w s -> I' w' s' ->
  exists i1 s1 i2 s2 p1,
    integrate_seq Rops interpolate mems k (fresh m) s hist p = (i1, s1, p1, Ok tt) /\
    integrate_seq Rops interpolate' mems' k' (fresh m) s' hist' p = (i2, s2, p1, Ok tt).
Proof. exact @reverse_seq. Qed.
Print Assumptions C25_time_reversal.
Example C25_case : forall m mems p, let steps := [(rot_field, 1); ((fun x => x), 1 / 2)] in exists i1 s1 i2 s2 p1,
  integrate_seq Rops (@field_interp R) mems 0 (fresh m) rot_field (map (fun a => ((fun _ => fst a), snd a)) steps) p = (i1, s1, p1, Ok tt) /\
  integrate_seq Rops (@field_interp R) mems 0 (fresh m) rot_field (map (fun a => ((fun _ => fst a), snd a)) (reversed steps)) p = (i2, s2, p1, Ok tt).
Proof.
  intros m mems p steps. exact (C25_time_reversal (@field_interp R) (fun v s => s = v) (@field_interp R) (fun v s => s = v) m _ _ steps mems mems 0 0
    rot_field rot_field rot_field rot_field p field_interp_ok field_interp_ok (field_presents steps) (field_presents (reversed steps)) eq_refl eq_refl).
Qed.

(** C26. *)
Theorem C26_create_integrator : forall {T} name,
  (case_variant name "euler" -> @create_integrator T name = Ok (Euler None)) /\
  (case_variant name "ab2" -> @create_integrator T name = Ok (AB2 None None)) /\
  (case_variant name "rk4" -> @create_integrator T name = Ok (RK4 None)) /\
  (~ case_variant name "euler" -> ~ case_variant name "ab2" -> ~ case_variant name "rk4" ->
   @create_integrator T name = Err ValueError).
Proof. exact @create_integrator_spec. Qed.
Print Assumptions C26_create_integrator.
Example C26_case : case_variant "EuLer" "euler".
Proof. cbn. unfold same_letter. cbn. repeat split; auto; right; split; lia. Qed.
