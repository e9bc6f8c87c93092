(** Properties C11-C15, C17, C85: src/pyftle/particles.py, src/pyftle/cauchy_green.py. *)
From Coq Require Import Reals Lra Lia.
From Verif Require Import Base Num Particles Jacobian Integrate SpecFtle SpecSeeds ParticleFacts JacobianFacts
  IntegrateMisc.
Local Open Scope R_scope.

(** C11.  The particles were seeded at [gs] and are now at the images of [gs] under an affine map. *)
Theorem C11_jacobian_affine_2d : forall (gs : list (group2 R)) (M : m22 R) (c : R * R) p,
  mk_particles Rops (layout2 gs) = Ok p ->
  Forall (fun g => snd (g_right g) = snd (g_left g) /\ fst (g_top g) = fst (g_bottom g) /\
                   fst (g_right g) <> fst (g_left g) /\ snd (g_top g) <> snd (g_bottom g)) gs ->
  let phi := fun x : R * R => (fst (app22 M x) + fst c, snd (app22 M x) + snd c) in
  compute_flow_map_jacobian_2x2 Rops (set_positions p (layout2 (map (image2 phi) gs)))
  = Ok (map (fun _ => M) gs).
Proof. exact jac2_affine. Qed.
Print Assumptions C11_jacobian_affine_2d.

Theorem C11_jacobian_affine_3d : forall (gs : list (group3 R)) (M : m33 R) (c : R * R * R) p,
  mk_particles Rops (layout3 gs) = Ok p ->
  Forall (fun g => v1 (h_right g) = v1 (h_left g) /\ v2 (h_right g) = v2 (h_left g) /\
                   v0 (h_top g) = v0 (h_bottom g) /\ v2 (h_top g) = v2 (h_bottom g) /\
                   v0 (h_front g) = v0 (h_back g) /\ v1 (h_front g) = v1 (h_back g) /\
                   v0 (h_right g) <> v0 (h_left g) /\ v1 (h_top g) <> v1 (h_bottom g) /\
                   v2 (h_front g) <> v2 (h_back g)) gs ->
  let phi := fun x : vec3 => (v0 (app33 M x) + v0 c, v1 (app33 M x) + v1 c, v2 (app33 M x) + v2 c) in
  compute_flow_map_jacobian_3x3 Rops (set_positions p (layout3 (map (image3 phi) gs)))
  = Ok (map (fun _ => M) gs).
Proof. exact jac3_affine. Qed.
Print Assumptions C11_jacobian_affine_3d.

(** Two groups of different size and place meet the hypotheses. *)
Example C11_case :
  let gs := [Group2 (-1, 0) (1, 0) (0, 1) (0, -1); Group2 (2, 3) (5, 3) (4, 9) (4, 1)] in
  (exists p, mk_particles Rops (layout2 gs) = Ok p) /\
  Forall (fun g => snd (g_right g) = snd (g_left g) /\ fst (g_top g) = fst (g_bottom g) /\
                   fst (g_right g) <> fst (g_left g) /\ snd (g_top g) <> snd (g_bottom g)) gs.
Proof.
  split; [eexists; apply mk_particles_2|]. repeat constructor; cbn; lra.
Qed.

(** C12. *)
Theorem C12_jacobian_error_2d : forall (gs gs' : list (group2 R)) p,
  mk_particles Rops (layout2 gs) = Ok p -> length gs' = length gs ->
  let bad := Exists (fun g => fst (g_right g) = fst (g_left g) \/ snd (g_top g) = snd (g_bottom g)) gs in
  let r := compute_flow_map_jacobian_2x2 Rops (set_positions p (layout2 gs')) in
  (r = Err ZeroDivisionError <-> bad) /\ (~ bad -> exists Fs, r = Ok Fs /\ length Fs = length gs).
Proof. exact jac2_error_R. Qed.
Print Assumptions C12_jacobian_error_2d.

Theorem C12_jacobian_error_3d : forall (gs gs' : list (group3 R)) p,
  mk_particles Rops (layout3 gs) = Ok p -> length gs' = length gs ->
  let bad := Exists (fun g => v0 (h_right g) = v0 (h_left g) \/ v1 (h_top g) = v1 (h_bottom g)
                         \/ v2 (h_front g) = v2 (h_back g)) gs in
  let r := compute_flow_map_jacobian_3x3 Rops (set_positions p (layout3 gs')) in
  (r = Err ZeroDivisionError <-> bad) /\ (~ bad -> exists Fs, r = Ok Fs /\ length Fs = length gs).
Proof. exact jac3_error_R. Qed.
Print Assumptions C12_jacobian_error_3d.

Example C12_case_bad :
  Exists (fun g => fst (g_right g) = fst (g_left g) \/ snd (g_top g) = snd (g_bottom g))
    [Group2 (-1, 0) (1, 0) (0, 1) (0, -1); Group2 (2, 3) (2, 3) (4, 9) (4, 1)].
Proof. apply Exists_cons_tl, Exists_cons_hd. left. reflexivity. Qed.

(** C13.  Every arithmetic. *)
Theorem C13_layout_2d : forall {T} (O : ops T) (gs : list (group2 T)),
  exists p, mk_particles O (layout2 gs) = Ok p /\
    particles_len p = length gs /\ positions p = layout2 gs /\
    delta_right_left O p = Ok (arr2 (map (rl2 O) gs)) /\ initial_delta_right_left p = arr2 (map (rl2 O) gs) /\
    delta_top_bottom O p = Ok (arr2 (map (tb2 O) gs)) /\ initial_delta_top_bottom p = arr2 (map (tb2 O) gs) /\
    centroid O p = Ok (arr2 (map (mean2 O) gs)) /\ initial_centroid p = arr2 (map (mean2 O) gs).
Proof. exact @layout_2d. Qed.
Print Assumptions C13_layout_2d.

Theorem C13_layout_3d : forall {T} (O : ops T) (gs : list (group3 T)),
  exists p, mk_particles O (layout3 gs) = Ok p /\
    particles_len p = length gs /\ positions p = layout3 gs /\
    delta_right_left O p = Ok (arr3 (map (rl3 O) gs)) /\ initial_delta_right_left p = arr3 (map (rl3 O) gs) /\
    delta_top_bottom O p = Ok (arr3 (map (tb3 O) gs)) /\ initial_delta_top_bottom p = arr3 (map (tb3 O) gs) /\
    delta_front_back O p = Ok (arr3 (map (fb3 O) gs)) /\ initial_delta_front_back p = arr3 (map (fb3 O) gs) /\
    centroid O p = Ok (arr3 (map (mean3 O) gs)) /\ initial_centroid p = arr3 (map (mean3 O) gs).
Proof. exact @layout_3d. Qed.
Print Assumptions C13_layout_3d.

(** The theorem speaks of every accepted array. *)
Theorem C13_every_array_is_a_layout_2d : forall {T} (m : mat T), wf_mat m -> mcols m = 2%nat ->
  (nrows m mod 4 = 0)%nat -> exists gs, m = layout2 gs.
Proof. exact @is_layout2. Qed.
Theorem C13_every_array_is_a_layout_3d : forall {T} (m : mat T), wf_mat m -> mcols m = 3%nat ->
  (nrows m mod 6 = 0)%nat -> exists gs, m = layout3 gs.
Proof. exact @is_layout3. Qed.
Print Assumptions C13_every_array_is_a_layout_3d.
Example C13_case : exists gs, Mat 2 [[1; 2]; [3; 4]; [5; 6]; [7; 8]] = layout2 gs.
Proof. apply C13_every_array_is_a_layout_2d; [repeat constructor|reflexivity|reflexivity]. Qed.

(** C14.  False: the documented order has the wrong sign, and consecutive groups are
    not read back even in the order left, right, top, bottom. *)
Theorem C14_documented_layout_refuted : exists (gs : list (group2 R)) p d,
  mk_particles Rops (arr2 (flat_map (fun g => [g_right g; g_left g; g_top g; g_bottom g]) gs)) = Ok p /\
  delta_right_left Rops p = Ok d /\ d <> arr2 (map (rl2 Rops) gs).
Proof. exact documented_layout_refuted. Qed.
Print Assumptions C14_documented_layout_refuted.

Theorem C14_consecutive_groups_refuted : exists (gs : list (group2 R)) p d,
  mk_particles Rops (arr2 (flat_map (fun g => [g_left g; g_right g; g_top g; g_bottom g]) gs)) = Ok p /\
  delta_right_left Rops p = Ok d /\ d <> arr2 (map (rl2 Rops) gs).
Proof. exact consecutive_layout_refuted. Qed.
Print Assumptions C14_consecutive_groups_refuted.

(** C15. *)
Theorem C15_accept_2d : forall {T} (O : ops T) (m : mat T), wf_mat m -> mcols m = 2%nat ->
  ((exists p, mk_particles O m = Ok p) <-> (nrows m mod 4 = 0)%nat) /\
  ((nrows m mod 4 <> 0)%nat -> mk_particles O m = Err AssertionError \/ mk_particles O m = Err ValueError).
Proof. exact @accept_2d. Qed.
Print Assumptions C15_accept_2d.
Theorem C15_accept_3d : forall {T} (O : ops T) (m : mat T), wf_mat m -> mcols m = 3%nat ->
  ((exists p, mk_particles O m = Ok p) <-> (nrows m mod 6 = 0)%nat) /\
  ((nrows m mod 6 <> 0)%nat -> mk_particles O m = Err AssertionError \/ mk_particles O m = Err ValueError).
Proof. exact @accept_3d. Qed.
Print Assumptions C15_accept_3d.
Example C15_case : wf_mat (Mat 2 [[1; 2]; [3; 4]; [5; 6]; [7; 8]]) /\ wf_mat (Mat 3 [[1; 2; 3]; [3; 4; 5]]).
Proof. split; repeat constructor. Qed.

(** C17.  False: in 2D the property returns top - bottom. *)
Theorem C17_front_back_2d_refuted : exists (gs : list (group2 R)) p d,
  mk_particles Rops (layout2 gs) = Ok p /\ delta_front_back Rops p = Ok d /\ nrows d <> 0%nat.
Proof. exact front_back_2d_refuted. Qed.
Print Assumptions C17_front_back_2d_refuted.

Theorem C17_front_back_2d_exact : forall {T} (O : ops T) (gs : list (group2 T)),
  exists p, mk_particles O (layout2 gs) = Ok p /\
    delta_front_back O p = Ok (arr2 (map (tb2 O) gs)) /\ initial_delta_front_back p = Mat 0 [].
Proof. exact @front_back_2d. Qed.
Print Assumptions C17_front_back_2d_exact.

(** C85.  False: a rotated stencil that has not moved at all gets a Jacobian
    different from the identity. *)
Theorem C85_rotated_stencil_refuted : exists (g : group2 R) p,
  let rl := rl2 Rops g in let tb := tb2 Rops g in
  fst rl * snd tb - snd rl * fst tb <> 0 /\
  mk_particles Rops (layout2 [g]) = Ok p /\
  compute_flow_map_jacobian_2x2 Rops p = Ok [M22 1 (-1) 1 1] /\
  M22 1 (-1) 1 1 <> M22 1 0 0 1.
Proof. exact rotated_refuted. Qed.
Print Assumptions C85_rotated_stencil_refuted.
