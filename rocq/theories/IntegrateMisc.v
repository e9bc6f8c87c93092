(** C14, C24, C26, C85. *)
From Coq Require Import Reals Lra Lia.
From Verif Require Import Base Num Particles Jacobian Integrate SpecFtle SpecSeeds ParticleFacts JacobianFacts
  SpecIntegrate IntegrateFacts IntegratePoint.

(* ---- C24 ---- *)
Section Times.
  Context {T : Type} (O : ops T).
  Variable v : T -> list T -> list T.

  Lemma rk4_times mem t h c rows :
    exists b, integrate_pos O (recorder v) mem (RK4 None) (t, []) h (Mat c rows)
      = (b, (t, [t; t; t; t]), Ok (Mat c (map (textbook_rk4 O (v t) h) rows))).
  Proof.
    pose (I := fun (w : list T -> list T) (s : T * list T) => w = v (fst s)).
    assert (HI : samples_field (recorder v) I).
    { intros w s m ->. eexists. split; [reflexivity|]. reflexivity. }
    destruct (rk4_point O (recorder v) I HI mem None (v t) (t, []) h c rows Logic.I eq_refl) as (b & s' & E & _ & _).
    exists (RK4 b). rewrite E. f_equal. f_equal. 
    assert (Hlog : forall s buf m s1 r, sample (recorder v) s buf m = (s1, r) -> s1 = (fst s, snd s ++ [fst s])).
    { intros s buf m s1 r H. unfold sample, recorder in H. injection H as <- _. reflexivity. }
    cbn [integrate_pos] in E. unfold rk4_integrate in E.
    destruct (sample _ (t, []) _ _) as [s1 [k1|e]] eqn:E1; [|discriminate].
    destruct (bind _ _) as [t1|e]; [|discriminate].
    destruct (sample _ s1 _ _) as [s2 [k2|e]] eqn:E2; [|discriminate].
    destruct (bind _ _) as [t2|e]; [|discriminate].
    destruct (sample _ s2 _ _) as [s3 [k3|e]] eqn:E3; [|discriminate].
    destruct (bind _ _) as [t3|e]; [|discriminate].
    destruct (sample _ s3 _ _) as [s4 [k4|e]] eqn:E4; [|discriminate].
    apply Hlog in E1, E2, E3, E4. injection E as _ <- _. subst. reflexivity.
  Qed.
End Times.

Lemma rk4_times_refuted : exists (v : R -> list R -> list R) (t h : R) (x : list R) b s,
  integrate_pos Rops (recorder v) (fun _ _ _ => 0%R) (RK4 None) (t, []) h (Mat 1 [x]) = (b, s, Ok (Mat 1 [textbook_rk4 Rops (v t) h x]))
  /\ snd s <> [t; t + h / 2; t + h / 2; t + h]%R
  /\ textbook_rk4 Rops (v t) h x <> textbook_rk4_t Rops v t h x.
Proof.
  exists (fun t _ => [t]), 0%R, 1%R, [0%R].
  destruct (rk4_times Rops (fun t _ => [t]) (fun _ _ _ => 0%R) 0%R 1%R 1 [[0%R]]) as (b & E).
  exists b, (0%R, [0%R; 0%R; 0%R; 0%R]). split; [exact E|]. split.
  - cbn. intro H. apply (f_equal (fun l => nth 3 l 5%R)) in H. cbn in H. lra.
  - unfold textbook_rk4, textbook_rk4_t. cbn. intro H. apply (f_equal (hd 0%R)) in H. cbn in H.
    unfold o_half in H. cbn in H. lra.
Qed.

(* ---- C26 ---- *)
Lemma lower_ascii_spec c d : ~ (65 <= nat_of_ascii d <= 90) -> (lower_ascii c = d <-> same_letter c d).
Proof.
  intro Hd. unfold lower_ascii, same_letter.
  pose proof (nat_ascii_bounded c) as Bc.
  destruct (Nat.leb_spec 65 (nat_of_ascii c)); destruct (Nat.leb_spec (nat_of_ascii c) 90); cbn [andb].
  - split.
    + intro H1. right. split; [lia|]. rewrite <- H1. rewrite nat_ascii_embedding; lia.
    + intros [->|[_ H1]]; [exfalso; lia|]. rewrite <- H1. apply ascii_nat_embedding.
  - split; [auto|]. intros [H1|[H1 _]]; [exact H1|lia].
  - split; [auto|]. intros [H1|[H1 _]]; [exact H1|lia].
  - split; [auto|]. intros [H1|[H1 _]]; [exact H1|lia].
Qed.

Fixpoint no_upper (t : string) : Prop :=
  match t with EmptyString => True | String d t' => ~ (65 <= nat_of_ascii d <= 90) /\ no_upper t' end.

Lemma lower_spec s t : no_upper t -> (lower s = t <-> case_variant s t).
Proof.
  revert t. induction s as [|c s IH]; intros [|d t] Ht; cbn; try (split; [discriminate|contradiction]).
  - split; auto.
  - destruct Ht as [Hd Ht]. rewrite <- (IH t Ht), <- (lower_ascii_spec c d Hd). split.
    + intro H; injection H as <- <-. auto.
    + intros [<- <-]. reflexivity.
Qed.

Lemma no_upper_ab2 : no_upper "ab2". Proof. cbn. lia. Qed.
Lemma no_upper_euler : no_upper "euler". Proof. cbn. lia. Qed.
Lemma no_upper_rk4 : no_upper "rk4". Proof. cbn. lia. Qed.

Lemma create_integrator_spec {T} name :
  (case_variant name "euler" -> @create_integrator T name = Ok (Euler None)) /\
  (case_variant name "ab2" -> @create_integrator T name = Ok (AB2 None None)) /\
  (case_variant name "rk4" -> @create_integrator T name = Ok (RK4 None)) /\
  (~ case_variant name "euler" -> ~ case_variant name "ab2" -> ~ case_variant name "rk4" ->
   @create_integrator T name = Err ValueError).
Proof.
  rewrite <- !lower_spec by first [apply no_upper_ab2|apply no_upper_euler|apply no_upper_rk4].
  unfold create_integrator. repeat split.
  - intros ->. reflexivity.
  - intros ->. reflexivity.
  - intros ->. reflexivity.
  - intros H1 H2 H3. apply String.eqb_neq in H1, H2, H3. rewrite H1, H2, H3. reflexivity.
Qed.

(* ---- C14 ---- *)
Local Open Scope R_scope.
Definition documented_layout2 {T} (gs : list (group2 T)) : mat T :=
  arr2 (flat_map (fun g => [g_right g; g_left g; g_top g; g_bottom g]) gs).

Lemma documented_layout_refuted : exists (gs : list (group2 R)) p d,
  mk_particles Rops (documented_layout2 gs) = Ok p /\ delta_right_left Rops p = Ok d /\
  d <> arr2 (map (rl2 Rops) gs).
Proof.
  exists [Group2 (-1, 0) (1, 0) (0, 1) (0, -1)]. 
  assert (E : documented_layout2 [Group2 (-1, 0) (1, 0) (0, 1) (0, -1)] =
              layout2 [Group2 (1, 0) (-1, 0) (0, 1) (0, -1)]) by reflexivity.
  rewrite E. destruct (layout_2d Rops [Group2 (1, 0) (-1, 0) (0, 1) (0, -1)])
    as (p & Hp & _ & _ & Hd & _). exists p; eexists; split; [exact Hp|]. split; [exact Hd|].
  unfold arr2, rl2, pt2. cbn. intro H. apply (f_equal (fun m => hd 0 (hd [] (mrows m)))) in H. cbn in H. lra.
Qed.

(** Even with the order [left; right; top; bottom] inside each group, two
    consecutive groups are not read back. *)
Lemma consecutive_layout_refuted : exists (gs : list (group2 R)) p d,
  mk_particles Rops (arr2 (flat_map (fun g => [g_left g; g_right g; g_top g; g_bottom g]) gs)) = Ok p /\
  delta_right_left Rops p = Ok d /\ d <> arr2 (map (rl2 Rops) gs).
Proof.
  set (g1 := Group2 (-1, 0) (1, 0) (0, 1) (0, -1)). set (g2 := Group2 (4, 0) (6, 0) (5, 1) (5, -1)).
  exists [g1; g2].
  assert (E : arr2 (flat_map (fun g => [g_left g; g_right g; g_top g; g_bottom g]) [g1; g2]) =
    layout2 [Group2 (-1, 0) (0, 1) (4, 0) (5, 1); Group2 (1, 0) (0, -1) (6, 0) (5, -1)]) by reflexivity.
  rewrite E. destruct (layout_2d Rops [Group2 (-1, 0) (0, 1) (4, 0) (5, 1); Group2 (1, 0) (0, -1) (6, 0) (5, -1)])
    as (p & Hp & _ & _ & Hd & _). exists p; eexists; split; [exact Hp|]. split; [exact Hd|].
  unfold arr2, rl2, pt2. cbn. intro H. apply (f_equal (fun m => hd 0 (hd [] (mrows m)))) in H. cbn in H. lra.
Qed.

(* ---- C17 ---- *)
Lemma front_back_2d_refuted : exists (gs : list (group2 R)) p d,
  mk_particles Rops (layout2 gs) = Ok p /\ delta_front_back Rops p = Ok d /\ nrows d <> 0%nat.
Proof.
  destruct (front_back_2d Rops [Group2 (-1, 0) (1, 0) (0, 1) (0, -1)]) as (p & Hp & Hd & _).
  exists [Group2 (-1, 0) (1, 0) (0, 1) (0, -1)], p; eexists; split; [exact Hp|]. split; [exact Hd|]. cbn. lia.
Qed.

(* ---- C85 ---- *)
(** A stencil rotated by 45 degrees, not deformed at all. *)
Lemma rotated_refuted : exists (g : group2 R) p,
  let rl := rl2 Rops g in let tb := tb2 Rops g in
  fst rl * snd tb - snd rl * fst tb <> 0 /\
  mk_particles Rops (layout2 [g]) = Ok p /\
  compute_flow_map_jacobian_2x2 Rops p = Ok [M22 1 (-1) 1 1] /\
  M22 1 (-1) 1 1 <> M22 1 0 0 1.
Proof.
  set (g := Group2 (-1, -1) (1, 1) (-1, 1) (1, -1)).
  exists g, (mk2 Rops [g]). cbv zeta. split; [unfold g; cbn; lra|].
  split; [apply mk_particles_2|]. split.
  - pose proof (jac2_pairs Rops [(g, g)]) as H. cbn [map fst snd] in H.
    change (set_positions (mk2 Rops [g]) (layout2 [g])) with (mk2 Rops [g]) in H. rewrite H.
    unfold g. cbn. unfold jac2_group, py_div. cbn. unfold R_eqb, o_zero. cbn.
    repeat (destruct (Req_EM_T _ 0); [exfalso; lra|]). cbn.
    repeat f_equal; field.
  - intro H. apply (f_equal a01) in H. cbn in H. lra.
Qed.

(* ---- C20 ---- *)
Lemma ab2_size_change {T S} (O : ops T) (interpolate : S -> mat T -> S * res (mat T))
  mem mem2 p b s h q q2 h2 i' s' p' s2 i2 s3 p2 r2 :
  integrate O interpolate mem (AB2 p b) s h q = (i', s', p', Ok tt) ->
  same_shape (positions q) (positions q2) = false ->
  integrate O interpolate mem2 i' s2 h2 q2 = (i2, s3, p2, r2) ->
  (exists e, r2 = Err e) /\ p2 = q2.
Proof.
  unfold integrate. intros H1 Hs H2.
  destruct (integrate_pos O interpolate mem (AB2 p b) s h (positions q)) as [[i1 s1] [pos'|e]] eqn:E; [|discriminate].
  injection H1 as -> _ _. destruct (ab2_memory O interpolate _ _ _ _ _ _ _ _ _ E) as (v & b' & -> & Hv & _).
  assert (Hv2 : same_shape v (positions q2) = false).
  { destruct (same_shape v (positions q2)) eqn:E2; [|reflexivity]. rewrite same_shape_sym in Hv.
    rewrite (same_shape_trans _ _ _ Hv E2) in Hs. discriminate. }
  destruct (integrate_pos O interpolate mem2 (AB2 (Some v) b') s2 h2 (positions q2)) as [[i4 s4] r4] eqn:E3.
  destruct (ab2_mismatch O interpolate _ _ _ _ _ _ _ _ _ Hv2 E3) as [[e ->] _].
  injection H2 as _ _ <- <-. split; [eexists|]; reflexivity.
Qed.

(* ---- C21 ---- *)
Lemma own_path {T S} (O : ops T) (interpolate : S -> mat T -> S * res (mat T)) I m hist steps :
  samples_field interpolate I -> presents I hist steps ->
  exists Phi : list T -> list T, forall mems k w s p, I w s ->
    exists i' s', integrate_seq O interpolate mems k (fresh m) s hist p =
      (i', s', set_positions p (Mat (mcols (positions p)) (map Phi (mrows (positions p)))), Ok tt).
Proof.
  intros HI Hp. exists (path O m steps). intros mems k w s p Hs.
  eapply seq_path; eassumption.
Qed.

(* ---- C22 on arrays ---- *)
From Verif Require Import IntegrateReal.
Lemma uniform_seq {S} (interpolate : S -> mat R -> S * res (mat R)) I (m : method) c n h hist mems k w s p :
  samples_field interpolate I -> presents I hist (repeat ((fun _ => c), h) n) -> I w s ->
  Forall (fun x => length x = length c) (mrows (positions p)) ->
  exists i' s', integrate_seq Rops interpolate mems k (fresh m) s hist p =
    (i', s', set_positions p (Mat (mcols (positions p))
       (map (fun x => x +v (INR n * h) *v c) (mrows (positions p)))), Ok tt).
Proof.
  intros HI Hp Hs HF. destruct (seq_path Rops interpolate I HI mems k m hist _ w s p Hp Hs) as (i' & s' & E).
  exists i', s'. rewrite E. do 3 f_equal. f_equal. apply map_ext_in. intros x Hx.
  rewrite Forall_forall in HF. specialize (HF x Hx).
  replace (repeat ((fun _ : list R => c), h) n) with (map (fun h => ((fun _ : list R => c), h)) (repeat h n)).
  - rewrite uniform_path by exact HF. rewrite sum_repeat. reflexivity.
  - clear. induction n as [|n IH]; [reflexivity|]. cbn. rewrite IH. reflexivity.
Qed.

(* ---- C23 on arrays ---- *)
Lemma rk4_linear_seq {S} (interpolate : S -> mat R -> S * res (mat R)) I A b n h hist mems k w s p :
  samples_field interpolate I -> presents I hist (repeat ((fun y => A y +v b), h) n) -> I w s ->
  linear_on (length b) A -> Forall (fun x => length x = length b) (mrows (positions p)) ->
  exists i' s', integrate_seq Rops interpolate mems k (fresh MRK4) s hist p =
    (i', s', set_positions p (Mat (mcols (positions p))
       (map (Nat.iter n (taylor4 A b h)) (mrows (positions p)))), Ok tt).
Proof.
  intros HI Hp Hs HA HF. destruct (seq_path Rops interpolate I HI mems k MRK4 hist _ w s p Hp Hs) as (i' & s' & E).
  exists i', s'. rewrite E. do 3 f_equal. f_equal. apply map_ext_in. intros x Hx.
  rewrite Forall_forall in HF. apply (rk4_power (length b)); auto.
Qed.
Lemma euler_linear_seq {S} (interpolate : S -> mat R -> S * res (mat R)) I A b n h hist mems k w s p :
  samples_field interpolate I -> presents I hist (repeat ((fun y => A y +v b), h) n) -> I w s ->
  exists i' s', integrate_seq Rops interpolate mems k (fresh MEuler) s hist p =
    (i', s', set_positions p (Mat (mcols (positions p))
       (map (Nat.iter n (fun y => y +v h *v (A y +v b))) (mrows (positions p)))), Ok tt).
Proof.
  intros HI Hp Hs. destruct (seq_path Rops interpolate I HI mems k MEuler hist _ w s p Hp Hs) as (i' & s' & E).
  exists i', s'. rewrite E. do 3 f_equal. f_equal. apply map_ext. intro x. apply euler_power.
Qed.

(* ---- C25 on arrays ---- *)
Lemma reverse_seq {S S'} (interpolate : S -> mat R -> S * res (mat R)) I
  (interpolate' : S' -> mat R -> S' * res (mat R)) I' m hist hist' steps mems mems' k k' w w' s s' p :
  samples_field interpolate I -> samples_field interpolate' I' ->
  presents I hist steps -> presents I' hist' (reversed steps) -> I w s -> I' w' s' ->
  exists i1 s1 i2 s2 p1,
    integrate_seq Rops interpolate mems k (fresh m) s hist p = (i1, s1, p1, Ok tt) /\
    integrate_seq Rops interpolate' mems' k' (fresh m) s' hist' p = (i2, s2, p1, Ok tt).
Proof.
  intros HI HI' Hp Hp' Hs Hs'.
  destruct (seq_path Rops interpolate I HI mems k m hist _ w s p Hp Hs) as (i1 & s1 & E1).
  destruct (seq_path Rops interpolate' I' HI' mems' k' m hist' _ w' s' p Hp' Hs') as (i2 & s2 & E2).
  exists i1, s1, i2, s2. eexists. split; [exact E1|]. rewrite E2. do 3 f_equal. f_equal.
  apply map_ext. intro x. symmetry. apply path_reverse.
Qed.

(* ---- concrete interpolators for the examples ---- *)
(** State: the field itself; queries do not change it. *)
Definition field_interp {T} (v : list T -> list T) (m : mat T) : (list T -> list T) * res (mat T) :=
  (v, Ok (Mat (mcols m) (map v (mrows m)))).
Lemma field_interp_ok {T} : samples_field (@field_interp T) (fun v s => s = v).
Proof. intros v s m ->. exists v. split; reflexivity. Qed.
Lemma field_presents {T} (steps : list ((list T -> list T) * T)) :
  presents (fun v s => s = v) (map (fun a => ((fun _ => fst a), snd a)) steps) steps.
Proof. induction steps as [|[v h] steps IH]; constructor; [|exact IH]. split; [reflexivity|]. reflexivity. Qed.

Lemma time_dep_partial {T} (O : ops T) (v : T -> list T -> list T) t h x :
  (forall t', v t' = v t) -> textbook_rk4 O (v t) h x = textbook_rk4_t O v t h x.
Proof.
  intro H. unfold textbook_rk4, textbook_rk4_t. rewrite (H (o_add O t (o_mul O (o_half O) h))), (H (o_add O t h)).
  reflexivity.
Qed.

(** A plane rotation field is linear. *)
Definition rot_field (x : list R) : list R := match x with [a; b] => [- b; a] | _ => x end.
Lemma rot_linear : linear_on 2 rot_field.
Proof.
  repeat split.
  - intros [|a [|b [|? ?]]] H; try discriminate; reflexivity.
  - intros [|a [|b [|? ?]]] [|c [|d [|? ?]]] H1 H2; try discriminate. cbn. repeat f_equal; ring.
  - intros c [|a [|b [|? ?]]] H; try discriminate. cbn. repeat f_equal; ring.
Qed.
