(** Proofs about cauchy_green.py. *)
From Coq Require Import Lia Reals Lra.
From Verif Require Import Base Num Particles Jacobian SpecSeeds ParticleFacts SpecFtle.

Lemma mapr_seq {A B} (F : nat -> res B) (G : A -> res B) (l : list A) (k : nat) :
  (forall i x, nth_error l i = Some x -> F (k + i) = G x) ->
  mapr F (seq k (length l)) = mapr G l.
Proof.
  revert k. induction l as [|x l IH]; intros k H; [reflexivity|].
  cbn [length seq mapr]. rewrite <- (H 0 x eq_refl), Nat.add_0_r.
  rewrite (IH (S k)); [reflexivity|]. intros i y Hy. rewrite <- (H (S i) y Hy). f_equal. lia.
Qed.

Lemma mapr_ok {A B} (G : A -> res B) (f : A -> B) (l : list A) :
  (forall x, In x l -> G x = Ok (f x)) -> mapr G l = Ok (map f l).
Proof.
  induction l as [|x l IH]; intro H; [reflexivity|]. cbn [mapr map].
  rewrite (H x (or_introl eq_refl)). cbn [bind]. rewrite IH; [reflexivity|].
  intros y Hy. apply H. right. exact Hy.
Qed.

Lemma mapr_length {A B} (G : A -> res B) (l : list A) out : mapr G l = Ok out -> length out = length l.
Proof.
  revert out. induction l as [|x l IH]; intros out H; cbn in H; [injection H as <-; reflexivity|].
  destruct (G x); [|discriminate]. cbn in H. destruct (mapr G l); [|discriminate].
  injection H as <-. cbn. f_equal. apply IH. reflexivity.
Qed.

Section Jac.
  Context {T : Type} (O : ops T).

  Lemma at2_arr2 {X} (f : X -> T * T) (l : list X) i x c : nth_error l i = Some x ->
    at2 (arr2 (map f l)) i c = cget (row2 (f x)) c.
  Proof.
    intro H. unfold at2, arr2, cget. cbn [mrows]. rewrite map_map, nth_error_map, H. reflexivity.
  Qed.
  Lemma at2_arr3 {X} (f : X -> T * T * T) (l : list X) i x c : nth_error l i = Some x ->
    at2 (arr3 (map f l)) i c = cget (row3 (f x)) c.
  Proof.
    intro H. unfold at2, arr3, cget. cbn [mrows]. rewrite map_map, nth_error_map, H. reflexivity.
  Qed.

  (** Jacobian of one group: [g] is the seed group, [g'] the current one. *)
  Definition jac2_group (gg : group2 T * group2 T) : res (m22 T) :=
    let rl := rl2 O (fst gg) in let tb := tb2 O (fst gg) in
    let rl' := rl2 O (snd gg) in let tb' := tb2 O (snd gg) in
    let* j00 := py_div O (fst rl') (fst rl) in
    let* j01 := py_div O (fst tb') (snd tb) in
    let* j10 := py_div O (snd rl') (fst rl) in
    let* j11 := py_div O (snd tb') (snd tb) in
    Ok (M22 j00 j01 j10 j11).

  Definition p0 (p : T * T * T) := fst (fst p).
  Definition p1 (p : T * T * T) := snd (fst p).
  Definition p2 (p : T * T * T) := snd p.

  Definition jac3_group (gg : group3 T * group3 T) : res (m33 T) :=
    let rl := rl3 O (fst gg) in let tb := tb3 O (fst gg) in let fb := fb3 O (fst gg) in
    let rl' := rl3 O (snd gg) in let tb' := tb3 O (snd gg) in let fb' := fb3 O (snd gg) in
    let* j00 := py_div O (p0 rl') (p0 rl) in
    let* j01 := py_div O (p0 tb') (p1 tb) in
    let* j02 := py_div O (p0 fb') (p2 fb) in
    let* j10 := py_div O (p1 rl') (p0 rl) in
    let* j11 := py_div O (p1 tb') (p1 tb) in
    let* j12 := py_div O (p1 fb') (p2 fb) in
    let* j20 := py_div O (p2 rl') (p0 rl) in
    let* j21 := py_div O (p2 tb') (p1 tb) in
    let* j22 := py_div O (p2 fb') (p2 fb) in
    Ok (M33 j00 j01 j02 j10 j11 j12 j20 j21 j22).

  Lemma jac2_pairs (l : list (group2 T * group2 T)) :
    compute_flow_map_jacobian_2x2 O (set_positions (mk2 O (map fst l)) (layout2 (map snd l)))
    = mapr jac2_group l.
  Proof.
    unfold compute_flow_map_jacobian_2x2, delta_right_left, delta_top_bottom.
    cbn [positions set_positions mk2 num_neighbors initial_delta_right_left initial_delta_top_bottom].
    rewrite drl2, dtb2. cbn [bind]. unfold jac2_kernel.
    rewrite nrows_layout2, Nat.mul_comm, Nat.div_mul, map_length by lia. rewrite !map_map.
    apply mapr_seq. intros i [g g'] H. cbn [Nat.add].
    unfold jac2_row, quot. rewrite !(at2_arr2 _ _ _ _ _ H). reflexivity.
  Qed.

  Lemma jac3_pairs (l : list (group3 T * group3 T)) :
    compute_flow_map_jacobian_3x3 O (set_positions (mk3 O (map fst l)) (layout3 (map snd l)))
    = mapr jac3_group l.
  Proof.
    unfold compute_flow_map_jacobian_3x3, delta_right_left, delta_top_bottom, delta_front_back.
    cbn [positions set_positions mk3 num_neighbors initial_delta_right_left initial_delta_top_bottom
         initial_delta_front_back].
    rewrite drl3, dtb3, dfb3. cbn [bind]. unfold jac3_kernel.
    rewrite nrows_layout3, Nat.mul_comm, Nat.div_mul, map_length by lia. rewrite !map_map.
    apply mapr_seq. intros i [g g'] H. cbn [Nat.add].
    unfold jac3_row, quot. rewrite !(at2_arr3 _ _ _ _ _ H). reflexivity.
  Qed.

  (** C12 *)
  Definition degenerate2 (g : group2 T) : Prop :=
    o_eqb O (o_sub O (fst (g_right g)) (fst (g_left g))) (o_zero O) = true \/
    o_eqb O (o_sub O (snd (g_top g)) (snd (g_bottom g))) (o_zero O) = true.
  Definition degenerate3 (g : group3 T) : Prop :=
    o_eqb O (o_sub O (p0 (h_right g)) (p0 (h_left g))) (o_zero O) = true \/
    o_eqb O (o_sub O (p1 (h_top g)) (p1 (h_bottom g))) (o_zero O) = true \/
    o_eqb O (o_sub O (p2 (h_front g)) (p2 (h_back g))) (o_zero O) = true.

  Lemma jac2_group_cases gg :
    (degenerate2 (fst gg) /\ jac2_group gg = Err ZeroDivisionError) \/
    (~ degenerate2 (fst gg) /\ exists M, jac2_group gg = Ok M).
  Proof.
    unfold degenerate2, jac2_group, py_div, rl2, tb2, pt2. cbn [fst snd].
    destruct (o_eqb O (o_sub O (fst (g_right (fst gg))) (fst (g_left (fst gg)))) (o_zero O)) eqn:E1;
      [left; split; [auto|reflexivity]|].
    destruct (o_eqb O (o_sub O (snd (g_top (fst gg))) (snd (g_bottom (fst gg)))) (o_zero O)) eqn:E2;
      [left; split; [auto|reflexivity]|].
    right. split; [intros [H|H]; discriminate|]. eexists. reflexivity.
  Qed.

  Lemma jac3_group_cases gg :
    (degenerate3 (fst gg) /\ jac3_group gg = Err ZeroDivisionError) \/
    (~ degenerate3 (fst gg) /\ exists M, jac3_group gg = Ok M).
  Proof.
    unfold degenerate3, jac3_group, py_div, rl3, tb3, fb3, pt3, p0, p1, p2. cbn [fst snd].
    destruct (o_eqb O (o_sub O (fst (fst (h_right (fst gg)))) _) (o_zero O)) eqn:E1;
      [left; split; [auto|reflexivity]|].
    destruct (o_eqb O (o_sub O (snd (fst (h_top (fst gg)))) _) (o_zero O)) eqn:E2;
      [left; split; [auto|reflexivity]|].
    destruct (o_eqb O (o_sub O (snd (h_front (fst gg))) _) (o_zero O)) eqn:E3;
      [left; split; [auto|reflexivity]|].
    right. split; [intros [H|[H|H]]; discriminate|]. eexists. reflexivity.
  Qed.

  Lemma mapr_zde {A B} (G : A -> res B) (P : A -> Prop) (l : list A) :
    (forall x, (P x /\ G x = Err ZeroDivisionError) \/ (~ P x /\ exists y, G x = Ok y)) ->
    (mapr G l = Err ZeroDivisionError <-> Exists P l) /\
    (~ Exists P l -> exists out, mapr G l = Ok out /\ length out = length l).
  Proof.
    intro H. induction l as [|x l [IH1 IH2]].
    - split; [split; [discriminate|intro HE; inversion HE]|]. intros _. exists []. split; reflexivity.
    - cbn [mapr]. destruct (H x) as [[HP ->]|[HP [y ->]]]; cbn [bind].
      + split; [split; [intros _; left; exact HP|reflexivity]|]. intro HN. exfalso. apply HN. left. exact HP.
      + destruct (mapr G l) as [out|e] eqn:E; cbn [bind].
        * split.
          -- split; [discriminate|]. intro HE. inversion HE as [? ? HPx|? ? HEl]; subst; [contradiction|].
             apply IH1 in HEl. discriminate.
          -- intros _. eexists. split; [reflexivity|]. cbn. f_equal. apply (mapr_length G). exact E.
        * split.
          -- rewrite IH1. split; [intro HE; right; exact HE|].
             intro HE. inversion HE as [? ? HPx|? ? HEl]; subst; [contradiction|exact HEl].
          -- intro HN. destruct IH2 as (out & HO & _); [|discriminate].
             intro HE. apply HN. right. exact HE.
  Qed.

  Lemma Exists_map_fst {A B} (P : A -> Prop) (l : list (A * B)) :
    Exists (fun x => P (fst x)) l <-> Exists P (map fst l).
  Proof. rewrite !Exists_exists. split.
    - intros (x & Hin & HP). exists (fst x). split; [apply in_map; exact Hin|exact HP].
    - intros (x & Hin & HP). apply in_map_iff in Hin. destruct Hin as (y & <- & Hy). exists y. auto.
  Qed.

  Lemma split_pairs {A B} (gs : list A) (gs' : list B) : length gs = length gs' ->
    exists l, gs = map fst l /\ gs' = map snd l.
  Proof.
    revert gs'. induction gs as [|g gs IH]; intros [|g' gs'] H; try discriminate.
    - exists []. split; reflexivity.
    - destruct (IH gs') as (l & -> & ->); [cbn in H; lia|]. exists ((g, g') :: l). split; reflexivity.
  Qed.

  Lemma jac2_error gs gs' p : mk_particles O (layout2 gs) = Ok p -> length gs' = length gs ->
    let r := compute_flow_map_jacobian_2x2 O (set_positions p (layout2 gs')) in
    (r = Err ZeroDivisionError <-> Exists degenerate2 gs) /\
    (~ Exists degenerate2 gs -> exists Fs, r = Ok Fs /\ length Fs = length gs).
  Proof.
    intros Hp Hl r. rewrite mk_particles_2 in Hp. injection Hp as <-.
    destruct (split_pairs gs gs' (eq_sym Hl)) as (l & -> & ->).
    unfold r. rewrite jac2_pairs, <- Exists_map_fst, map_length.
    apply mapr_zde. apply jac2_group_cases.
  Qed.

  Lemma jac3_error gs gs' p : mk_particles O (layout3 gs) = Ok p -> length gs' = length gs ->
    let r := compute_flow_map_jacobian_3x3 O (set_positions p (layout3 gs')) in
    (r = Err ZeroDivisionError <-> Exists degenerate3 gs) /\
    (~ Exists degenerate3 gs -> exists Fs, r = Ok Fs /\ length Fs = length gs).
  Proof.
    intros Hp Hl r. rewrite mk_particles_3 in Hp. injection Hp as <-.
    destruct (split_pairs gs gs' (eq_sym Hl)) as (l & -> & ->).
    unfold r. rewrite jac3_pairs, <- Exists_map_fst, map_length.
    apply mapr_zde. apply jac3_group_cases.
  Qed.
End Jac.

(** C11 *)
Local Open Scope R_scope.

Lemma jac2_affine (gs : list (group2 R)) (M : m22 R) (c : R * R) p :
  mk_particles Rops (layout2 gs) = Ok p ->
  Forall (fun g => snd (g_right g) = snd (g_left g) /\ fst (g_top g) = fst (g_bottom g) /\
                   fst (g_right g) <> fst (g_left g) /\ snd (g_top g) <> snd (g_bottom g)) gs ->
  let phi := fun x : R * R => (fst (app22 M x) + fst c, snd (app22 M x) + snd c) in
  compute_flow_map_jacobian_2x2 Rops (set_positions p (layout2 (map (image2 phi) gs)))
  = Ok (map (fun _ => M) gs).
Proof.
  intros Hp HF phi. rewrite mk_particles_2 in Hp. injection Hp as <-.
  set (l := map (fun g => (g, image2 phi g)) gs).
  replace (mk2 Rops gs) with (mk2 Rops (map fst l))
    by (unfold l; rewrite map_map; cbn [fst]; rewrite map_id; reflexivity).
  replace (map (image2 phi) gs) with (map snd l) by (unfold l; rewrite map_map; reflexivity).
  rewrite jac2_pairs. rewrite (mapr_ok _ (fun _ => M)); [unfold l; rewrite map_map; reflexivity|].
  intros x Hx. unfold l in Hx. apply in_map_iff in Hx. destruct Hx as (g & <- & Hg).
  rewrite Forall_forall in HF. destruct (HF g Hg) as (H1 & H2 & H3 & H4).
  destruct g as [[lx ly] [rx ry] [tx ty] [bx by_]]. cbn in H1, H2, H3, H4. subst ry tx.
  unfold jac2_group, rl2, tb2, pt2, image2, phi, app22. cbn.
  unfold py_div, o_zero. cbn. unfold R_eqb.
  destruct (Req_EM_T (rx - lx) 0) as [E|_]; [lra|].
  destruct (Req_EM_T (ty - by_) 0) as [E|_]; [lra|]. cbn [bind].
  destruct M as [m00 m01 m10 m11]. cbn. f_equal. f_equal; field; lra.
Qed.

Lemma jac3_affine (gs : list (group3 R)) (M : m33 R) (c : R * R * R) p :
  mk_particles Rops (layout3 gs) = Ok p ->
  Forall (fun g => v1 (h_right g) = v1 (h_left g) /\ v2 (h_right g) = v2 (h_left g) /\
                   v0 (h_top g) = v0 (h_bottom g) /\ v2 (h_top g) = v2 (h_bottom g) /\
                   v0 (h_front g) = v0 (h_back g) /\ v1 (h_front g) = v1 (h_back g) /\
                   v0 (h_right g) <> v0 (h_left g) /\ v1 (h_top g) <> v1 (h_bottom g) /\
                   v2 (h_front g) <> v2 (h_back g)) gs ->
  let phi := fun x : vec3 => (v0 (app33 M x) + v0 c, v1 (app33 M x) + v1 c, v2 (app33 M x) + v2 c) in
  compute_flow_map_jacobian_3x3 Rops (set_positions p (layout3 (map (image3 phi) gs)))
  = Ok (map (fun _ => M) gs).
Proof.
  intros Hp HF phi. rewrite mk_particles_3 in Hp. injection Hp as <-.
  set (l := map (fun g => (g, image3 phi g)) gs).
  replace (mk3 Rops gs) with (mk3 Rops (map fst l))
    by (unfold l; rewrite map_map; cbn [fst]; rewrite map_id; reflexivity).
  replace (map (image3 phi) gs) with (map snd l) by (unfold l; rewrite map_map; reflexivity).
  rewrite jac3_pairs. rewrite (mapr_ok _ (fun _ => M)); [unfold l; rewrite map_map; reflexivity|].
  intros x Hx. unfold l in Hx. apply in_map_iff in Hx. destruct Hx as (g & <- & Hg).
  rewrite Forall_forall in HF. destruct (HF g Hg) as (H1 & H2 & H3 & H4 & H5 & H6 & H7 & H8 & H9).
  destruct g as [[[lx ly] lz] [[rx ry] rz] [[tx ty] tz] [[bx by_] bz] [[fx fy] fz] [[kx ky] kz]].
  unfold v0, v1, v2 in *. cbn in H1, H2, H3, H4, H5, H6, H7, H8, H9. subst ry rz tx tz fx fy.
  unfold jac3_group, rl3, tb3, fb3, pt3, image3, phi, app33, p0, p1, p2, v0, v1, v2. cbn.
  unfold py_div, o_zero. cbn. unfold R_eqb.
  destruct (Req_EM_T (rx - lx) 0) as [E|_]; [lra|].
  destruct (Req_EM_T (ty - by_) 0) as [E|_]; [lra|].
  destruct (Req_EM_T (fz - kz) 0) as [E|_]; [lra|]. cbn [bind].
  destruct M. cbn. f_equal. f_equal; field; lra.
Qed.

(** C12 over the reals. *)
Lemma degenerate2_R (g : group2 R) :
  degenerate2 Rops g <-> fst (g_right g) = fst (g_left g) \/ snd (g_top g) = snd (g_bottom g).
Proof.
  unfold degenerate2, o_zero. cbn. unfold R_eqb.
  destruct (Req_EM_T (fst (g_right g) - fst (g_left g)) 0);
  destruct (Req_EM_T (snd (g_top g) - snd (g_bottom g)) 0); intuition (try discriminate; lra).
Qed.
Lemma degenerate3_R (g : group3 R) :
  degenerate3 Rops g <-> v0 (h_right g) = v0 (h_left g) \/ v1 (h_top g) = v1 (h_bottom g)
                         \/ v2 (h_front g) = v2 (h_back g).
Proof.
  unfold degenerate3, o_zero, p0, p1, p2, v0, v1, v2. cbn. unfold R_eqb.
  destruct (Req_EM_T (fst (fst (h_right g)) - fst (fst (h_left g))) 0);
  destruct (Req_EM_T (snd (fst (h_top g)) - snd (fst (h_bottom g))) 0);
  destruct (Req_EM_T (snd (h_front g) - snd (h_back g)) 0); intuition (try discriminate; lra).
Qed.

Lemma Exists_iff' {A} (P Q : A -> Prop) (l : list A) : (forall x, P x <-> Q x) -> Exists P l <-> Exists Q l.
Proof.
  intro H. rewrite !Exists_exists.
  split; intros (x & Hx & HP); exists x; split; try assumption; apply H; assumption.
Qed.

Lemma jac2_error_R (gs gs' : list (group2 R)) p :
  mk_particles Rops (layout2 gs) = Ok p -> length gs' = length gs ->
  let bad := Exists (fun g => fst (g_right g) = fst (g_left g) \/ snd (g_top g) = snd (g_bottom g)) gs in
  let r := compute_flow_map_jacobian_2x2 Rops (set_positions p (layout2 gs')) in
  (r = Err ZeroDivisionError <-> bad) /\ (~ bad -> exists Fs, r = Ok Fs /\ length Fs = length gs).
Proof.
  intros Hp Hl bad r. destruct (jac2_error Rops gs gs' p Hp Hl) as [H1 H2].
  assert (E : Exists (degenerate2 Rops) gs <-> bad) by (apply Exists_iff', degenerate2_R).
  unfold r. rewrite <- E. split; [exact H1|intro H; apply H2; exact H].
Qed.
Lemma jac3_error_R (gs gs' : list (group3 R)) p :
  mk_particles Rops (layout3 gs) = Ok p -> length gs' = length gs ->
  let bad := Exists (fun g => v0 (h_right g) = v0 (h_left g) \/ v1 (h_top g) = v1 (h_bottom g)
                         \/ v2 (h_front g) = v2 (h_back g)) gs in
  let r := compute_flow_map_jacobian_3x3 Rops (set_positions p (layout3 gs')) in
  (r = Err ZeroDivisionError <-> bad) /\ (~ bad -> exists Fs, r = Ok Fs /\ length Fs = length gs).
Proof.
  intros Hp Hl bad r. destruct (jac3_error Rops gs gs' p Hp Hl) as [H1 H2].
  assert (E : Exists (degenerate3 Rops) gs <-> bad) by (apply Exists_iff', degenerate3_R).
  unfold r. rewrite <- E. split; [exact H1|intro H; apply H2; exact H].
Qed.
