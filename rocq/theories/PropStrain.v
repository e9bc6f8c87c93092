(** Properties C137 and C138: the FTLE is bounded by the strain rate of the flow, in exact arithmetic.

    [lipschitz_field d L v]: the velocities of two points differ by at most L times the distance of the points (largest
    coordinate differences); for a smooth field L is the largest row sum of the velocity gradient. *)
From Coq Require Import Reals Lra Lia.
From Verif Require Import Base Num Particles Jacobian Ftle Integrate DataSource Solver SpecFtle SpecSeeds SpecIntegrate
  SpecSolver SpecOrder SpecStrain IntegrateMisc ConvergeCases FrameMain StrainFacts StrainLower StrainCases.
Local Open Scope R_scope.

(** C137: n steps of size h of any of the three methods; the fields may differ from snapshot to snapshot.  No value exceeds
    (ln d + c n |h| L) / ((n - 1) |h|), where c is 1, or 2 for AB2. *)
Theorem C137_strain_2d : forall (S P W : Type) interpolate eigvals mems (write : W -> string -> list (xval R) -> mat R -> W * res unit) I,
  samples_field interpolate I ->
  forall L (v : nat -> list R -> list R) gs m (sv : solver R S P) (w : world R S P W) w0 id,
  0 <= L -> (forall j, lipschitz_field 2 L (fun _ => v j)) -> Forall axis_aligned2 gs ->
  presents_fields I (s_source sv) v -> I w0 (w_interp w) ->
  w_integrator w = fresh m -> s_writer sv = false -> src_id (s_source sv) = Ok id ->
  src_particles (s_source sv) (w_source w) = mk_particles Rops (layout2 gs) ->
  (2 <= src_steps (s_source sv))%nat -> src_timestep (s_source sv) <> 0 ->
  exists f, snd (run Rops interpolate eigvals mems write sv w) = Ok (Some f) /\ length f = length gs /\
    Forall (at_most (strain_bound 2 m L (src_timestep (s_source sv)) (src_steps (s_source sv)))) f.
Proof. exact @strain2. Qed.
Print Assumptions C137_strain_2d.

Theorem C137_strain_3d : forall (S P W : Type) interpolate eigvals mems (write : W -> string -> list (xval R) -> mat R -> W * res unit) I,
  samples_field interpolate I -> eigvals_ok eigvals ->
  forall L (v : nat -> list R -> list R) gs m (sv : solver R S P) (w : world R S P W) w0 id,
  0 <= L -> (forall j, lipschitz_field 3 L (fun _ => v j)) -> Forall axis_aligned3 gs ->
  presents_fields I (s_source sv) v -> I w0 (w_interp w) ->
  w_integrator w = fresh m -> s_writer sv = false -> src_id (s_source sv) = Ok id ->
  src_particles (s_source sv) (w_source w) = mk_particles Rops (layout3 gs) ->
  (2 <= src_steps (s_source sv))%nat -> src_timestep (s_source sv) <> 0 ->
  exists f, snd (run Rops interpolate eigvals mems write sv w) = Ok (Some f) /\ length f = length gs /\
    Forall (at_most (strain_bound 3 m L (src_timestep (s_source sv)) (src_steps (s_source sv)))) f.
Proof. exact @strain3. Qed.
Print Assumptions C137_strain_3d.

(** The flow towards the origin; any number of steps of any size. *)
Example C137_case_2d : forall eigvals mems m h n, h <> 0 -> (2 <= n)%nat ->
  exists f, snd (run Rops (@field_interp R) eigvals mems still (lone sink h n (mk_particles Rops (layout2 [cross2]))) (start m tt)) = Ok (Some f) /\ length f = 1%nat /\
    Forall (at_most (strain_bound 2 m 1 h n)) f.
Proof.
  intros eigvals mems m h n Hh Hn.
  apply (C137_strain_2d _ _ _ (@field_interp R) eigvals mems still (fun v s => s = v) field_interp_ok 1 (fun _ => sink) [cross2] m
    (lone sink h n (mk_particles Rops (layout2 [cross2]))) (start m tt) (fun x => x) "a"%string);
    try reflexivity; try lra; [intro; apply sink_lipschitz|constructor; [exact cross_aligned2|constructor]|apply steady_ok|exact Hn|exact Hh].
Qed.
Example C137_case_3d : forall eigvals mems m h n, eigvals_ok eigvals -> h <> 0 -> (2 <= n)%nat ->
  exists f, snd (run Rops (@field_interp R) eigvals mems still (lone sink h n (mk_particles Rops (layout3 [cross3]))) (start m tt)) = Ok (Some f) /\ length f = 1%nat /\
    Forall (at_most (strain_bound 3 m 1 h n)) f.
Proof.
  intros eigvals mems m h n He Hh Hn.
  apply (C137_strain_3d _ _ _ (@field_interp R) eigvals mems still (fun v s => s = v) field_interp_ok He 1 (fun _ => sink) [cross3] m
    (lone sink h n (mk_particles Rops (layout3 [cross3]))) (start m tt) (fun x => x) "a"%string);
    try reflexivity; try lra; [intro; apply sink_lipschitz|constructor; [exact cross_aligned3|constructor]|apply steady_ok|exact Hn|exact Hh].
Qed.

(** C138: the particles of a Lipschitz flow never meet, so its FTLE is a number.  The field of the program is not: in the flow
    towards the origin, v = -x, two Euler steps of 1 take the four particles of a seed to the same point and the value is minus infinity. *)
Theorem C138_refuted : exists v L h n gs, 0 <= L /\ lipschitz_field 2 L (fun _ => v) /\ Forall axis_aligned2 gs /\ (2 <= n)%nat /\ h <> 0 /\
  forall eigvals mems,
    snd (run Rops (@field_interp R) eigvals mems still (lone v h n (mk_particles Rops (layout2 gs))) (start MEuler tt)) = Ok (Some [XNegInf]).
Proof. exact sink_refutes. Qed.
Print Assumptions C138_refuted.

(** Missing: steps that are not short for the strain.  When |h| L <= 1/5 every value is a number, at least -5 L n / (n - 1). *)
Theorem C138_2d_partial : forall (S P W : Type) interpolate eigvals mems (write : W -> string -> list (xval R) -> mat R -> W * res unit) I,
  samples_field interpolate I ->
  forall L (v : nat -> list R -> list R) gs m (sv : solver R S P) (w : world R S P W) w0 id,
  0 <= L -> (forall j, lipschitz_field 2 L (fun _ => v j)) -> Forall axis_aligned2 gs ->
  presents_fields I (s_source sv) v -> I w0 (w_interp w) ->
  w_integrator w = fresh m -> s_writer sv = false -> src_id (s_source sv) = Ok id ->
  src_particles (s_source sv) (w_source w) = mk_particles Rops (layout2 gs) ->
  (2 <= src_steps (s_source sv))%nat -> src_timestep (s_source sv) <> 0 -> Rabs (src_timestep (s_source sv)) * L <= 1 / 5 ->
  exists f, snd (run Rops interpolate eigvals mems write sv w) = Ok (Some f) /\ length f = length gs /\
    Forall (fun x => at_most (strain_bound 2 m L (src_timestep (s_source sv)) (src_steps (s_source sv))) x /\
      at_least (contraction_bound L (src_steps (s_source sv))) x) f.
Proof. exact @resolved2. Qed.
Print Assumptions C138_2d_partial.

Theorem C138_3d_partial : forall (S P W : Type) interpolate eigvals mems (write : W -> string -> list (xval R) -> mat R -> W * res unit) I,
  samples_field interpolate I -> eigvals_ok eigvals ->
  forall L (v : nat -> list R -> list R) gs m (sv : solver R S P) (w : world R S P W) w0 id,
  0 <= L -> (forall j, lipschitz_field 3 L (fun _ => v j)) -> Forall axis_aligned3 gs ->
  presents_fields I (s_source sv) v -> I w0 (w_interp w) ->
  w_integrator w = fresh m -> s_writer sv = false -> src_id (s_source sv) = Ok id ->
  src_particles (s_source sv) (w_source w) = mk_particles Rops (layout3 gs) ->
  (2 <= src_steps (s_source sv))%nat -> src_timestep (s_source sv) <> 0 -> Rabs (src_timestep (s_source sv)) * L <= 1 / 5 ->
  exists f, snd (run Rops interpolate eigvals mems write sv w) = Ok (Some f) /\ length f = length gs /\
    Forall (fun x => at_most (strain_bound 3 m L (src_timestep (s_source sv)) (src_steps (s_source sv))) x /\
      at_least (contraction_bound L (src_steps (s_source sv))) x) f.
Proof. exact @resolved3. Qed.
Print Assumptions C138_3d_partial.

(** The flow towards the origin, in ten steps of 1/10 of any of the methods, backwards as well as forwards. *)
Example C138_case_2d : forall eigvals mems m h, h = 1 / 10 \/ h = - (1 / 10) ->
  exists f, snd (run Rops (@field_interp R) eigvals mems still (lone sink h 10 (mk_particles Rops (layout2 [cross2]))) (start m tt)) = Ok (Some f) /\ length f = 1%nat /\
    Forall (fun x => at_most (strain_bound 2 m 1 h 10) x /\ at_least (contraction_bound 1 10) x) f.
Proof.
  intros eigvals mems m h Hh. assert (Rabs h = 1 / 10) by (destruct Hh; subst h; [|rewrite Rabs_Ropp]; apply Rabs_pos_eq; lra).
  apply (C138_2d_partial _ _ _ (@field_interp R) eigvals mems still (fun v s => s = v) field_interp_ok 1 (fun _ => sink) [cross2] m
    (lone sink h 10 (mk_particles Rops (layout2 [cross2]))) (start m tt) (fun x => x) "a"%string);
    try reflexivity; try lra; [intro; apply sink_lipschitz|constructor; [exact cross_aligned2|constructor]|apply steady_ok|cbn; lia|cbn; lra|cbn; lra].
Qed.
Example C138_case_3d : forall eigvals mems m, eigvals_ok eigvals ->
  exists f, snd (run Rops (@field_interp R) eigvals mems still (lone sink (1 / 10) 10 (mk_particles Rops (layout3 [cross3]))) (start m tt)) = Ok (Some f) /\ length f = 1%nat /\
    Forall (fun x => at_most (strain_bound 3 m 1 (1 / 10) 10) x /\ at_least (contraction_bound 1 10) x) f.
Proof.
  intros eigvals mems m He. assert (Rabs (1 / 10) = 1 / 10) by (apply Rabs_pos_eq; lra).
  apply (C138_3d_partial _ _ _ (@field_interp R) eigvals mems still (fun v s => s = v) field_interp_ok He 1 (fun _ => sink) [cross3] m
    (lone sink (1 / 10) 10 (mk_particles Rops (layout3 [cross3]))) (start m tt) (fun x => x) "a"%string);
    try reflexivity; try lra; [intro; apply sink_lipschitz|constructor; [exact cross_aligned3|constructor]|apply steady_ok|cbn; lia|cbn; lra|cbn; lra].
Qed.
