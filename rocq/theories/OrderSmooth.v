(** The Runge-Kutta method is fourth order in smooth steady flows. *)
From Coq Require Import Reals Lra Lia Psatz.
From Verif Require Import Base Num SpecIntegrate SpecOrder IntegrateReal OrderFacts OrderRK4 OrderTaylor.
Local Open Scope R_scope.

Record env : Type := Env {
  e_v : list R -> list R; e_x : list R; e_y : R -> list R; e_t : R;
  e_a : nat -> nat -> R; e_b : nat -> nat -> nat -> R; e_c : nat -> nat -> nat -> nat -> R }.

Section Smooth.
  Variables (d : nat) (L M K r T : R).
  Hypothesis HL : 0 <= L.
  Hypothesis HM : 0 <= M.

  (** The trajectory passes [e_x] at time [e_t] and runs along the field for the time [s]. *)
  Definition fine (e : env) (s : R) : Prop :=
    lipschitz_field d L (fun _ => e_v e) /\ length (e_x e) = d /\
    (forall i, Rabs (coord i (e_v e (e_x e))) <= M) /\
    (forall i j, Rabs (e_a e i j) <= K) /\ (forall i j k, Rabs (e_b e i j k) <= K) /\ (forall i j k l, Rabs (e_c e i j k l) <= K) /\
    (forall y q, length y = d -> q <= r -> near q y (e_x e) -> forall i, (i < d)%nat ->
      let z j := coord j y - coord j (e_x e) in
      Rabs (coord i (e_v e y) - (coord i (e_v e (e_x e)) + total d (fun j => e_a e i j * z j) +
        / 2 * total d (fun j => total d (fun k => e_b e i j k * z j * z k)) +
        / 6 * total d (fun j => total d (fun k => total d (fun l => e_c e i j k l * z j * z k * z l))))) <= K * q ^ 4) /\
    e_y e (e_t e) = e_x e /\ (forall t, length (e_y e t) = d) /\
    (forall q, between 0 s q -> forall i, derivable_pt_lim (fun t => coord i (e_y e t)) (e_t e + q) (coord i (e_v e (e_y e (e_t e + q))))) /\
    (forall q, between 0 s q -> forall i, Rabs (coord i (e_v e (e_y e (e_t e + q)))) <= M) /\
    Rabs s <= T /\ Rabs s * L <= 1 /\ 2 * Rabs s * M <= r.

  Lemma fine_sub e s q : fine e s -> between 0 s q -> fine e q.
  Proof.
    intros (H1 & H2 & H3 & H4 & H5 & H6 & H7 & H8 & H9 & H10 & H11 & H12 & H13 & H14) B.
    assert (S : Rabs q <= Rabs s).
    { destruct (between_dist 0 s q B) as [X _]. rewrite !Rminus_0_r in X. exact X. }
    pose proof (Rmult_le_compat_r L _ _ HL S). pose proof (Rmult_le_compat_r M _ _ HM S).
    repeat (split; [assumption|]).
    split; [intros q' B'; apply H10; eapply (between_sub 0 s 0 q); eauto using between_l|].
    split; [intros q' B'; apply H11; eapply (between_sub 0 s 0 q); eauto using between_l|].
    repeat split; lra.
  Qed.

  Lemma fine_small e s : fine e s -> Rabs s <= T.
  Proof. intros (H1 & H2 & H3 & H4 & H5 & H6 & H7 & H8 & H9 & H10 & H11 & H12 & H13 & H14). exact H12. Qed.

  Let f (e : env) (i : nat) : R := coord i (e_v e (e_x e)).
  Let Ha : forall e s i j, fine e s -> Rabs (e_a e i j) <= K. Proof. intros e s i j H. apply H. Qed.
  Let Hb : forall e s i j k, fine e s -> Rabs (e_b e i j k) <= K. Proof. intros e s i j k H. apply H. Qed.
  Let Hc : forall e s i j k l, fine e s -> Rabs (e_c e i j k l) <= K. Proof. intros e s i j k l H. apply H. Qed.
  Let Hf : forall e s i, fine e s -> Rabs (f e i) <= M. Proof. intros e s i H. apply H. Qed.
  Notation Ov := (OrdV env fine d).
  Notation P := (Pc env d e_a e_b f).
  Notation Q := (Qc env d e_a e_b e_c f).
  Notation fld := (field env d e_a e_b e_c f).

  (** The value of the field at a displaced point. *)
  Lemma value (Y : env -> R -> list R) :
    (forall e s, fine e s -> length (Y e s) = d /\ near (2 * Rabs s * M) (Y e s) (e_x e)) ->
    Ov 4 (fun e s i => coord i (e_v e (Y e s)) - fld e (fun j => coord j (Y e s) - coord j (e_x e)) i).
  Proof.
    intros H i Hi. exists (Rabs K * (2 * M) ^ 4). split; [apply Rmult_le_pos; [apply Rabs_pos|apply pow_le; lra]|].
    intros e s F. destruct (H e s F) as [Ly Ny]. pose proof F as F0.
    destruct F as (H1 & H2 & H3 & H4 & H5 & H6 & H7 & H8 & H9 & H10 & H11 & H12 & H13 & H14).
    specialize (H7 (Y e s) (2 * Rabs s * M) Ly H14 Ny i Hi). cbv zeta in H7. unfold field, lin, bil, tri, f.
    eapply Rle_trans; [exact H7|]. rewrite (Rmult_comm (2 * Rabs s) M), <- Rmult_assoc, (Rmult_comm M 2), Rpow_mult_distr.
    rewrite Rmult_assoc. apply Rmult_le_compat_r; [|apply Rle_abs].
    apply Rmult_le_pos; apply pow_le; [lra|apply Rabs_pos].
  Qed.

  Lemma value_at k c1 c2 c3 c4 (Y : env -> R -> list R) : (1 <= k <= 4)%nat ->
    (forall e s, fine e s -> length (Y e s) = d /\ near (2 * Rabs s * M) (Y e s) (e_x e)) ->
    Ov k (fun e s i => coord i (Y e s) - coord i (e_x e) - P c1 c2 c3 c4 e s i) ->
    Ov k (fun e s i => coord i (e_v e (Y e s)) - Q c1 c2 c3 c4 e s i).
  Proof.
    intros Hk HY HU i Hi.
    pose proof (expand env fine T fine_small d K M e_a e_b e_c f Ha Hb Hc Hf k c1 c2 c3 c4 (fun e s j => coord j (Y e s) - coord j (e_x e)) Hk HU i Hi) as X.
    pose proof (Ord_weaken env fine T fine_small k 4 _ (proj2 Hk) (value Y HY i Hi)) as V.
    eapply Ord_ext; [|apply Ord_add; [exact V|exact X]]. intros. cbn. ring.
  Qed.

  (* ---- the trajectory ---- *)

  Let traj (e : env) (s : R) : list R := e_y e (e_t e + s).

  Lemma traj_near e s : fine e s -> length (traj e s) = d /\ near (Rabs s * M) (traj e s) (e_x e).
  Proof.
    intros F. pose proof F as (H1 & H2 & H3 & H4 & H5 & H6 & H7 & H8 & H9 & H10 & H11 & H12 & H13 & H14).
    split; [apply H9|]. split; [unfold traj; rewrite H9; congruence|]. intro i. rewrite <- H8. unfold traj.
    destruct (mean_value (fun q => coord i (e_y e (e_t e + q))) (fun q => coord i (e_v e (e_y e (e_t e + q)))) 0 s) as (c & Bc & Ec).
    { intros q Bq. specialize (H10 q Bq i).
      replace (coord i (e_v e (e_y e (e_t e + q)))) with (coord i (e_v e (e_y e (e_t e + q))) * 1) by ring.
      apply (derivable_pt_lim_comp (fun q => e_t e + q) (fun t => coord i (e_y e t))); [|exact H10].
      replace 1 with (0 + 1) by ring. apply (derivable_pt_lim_plus (fun _ => e_t e) (fun q => q)); [apply derivable_pt_lim_const|apply derivable_pt_lim_id]. }
    cbn in Ec. rewrite Rplus_0_r, Rminus_0_r in Ec. rewrite Ec, Rabs_mult, Rmult_comm.
    apply Rmult_le_compat_l; [apply Rabs_pos|]. apply H11. exact Bc.
  Qed.

  Lemma traj_derivable e s i : fine e s -> derivable_pt_lim (fun q => coord i (traj e q)) s (coord i (e_v e (traj e s))).
  Proof.
    intros (H1 & H2 & H3 & H4 & H5 & H6 & H7 & H8 & H9 & H10 & H11 & H12 & H13 & H14).
    specialize (H10 s (between_r 0 s) i). unfold traj.
    replace (coord i (e_v e (e_y e (e_t e + s)))) with (coord i (e_v e (e_y e (e_t e + s))) * 1) by ring.
    apply (derivable_pt_lim_comp (fun q => e_t e + q) (fun t => coord i (e_y e t))); [|exact H10].
    replace 1 with (0 + 1) by ring. apply (derivable_pt_lim_plus (fun _ => e_t e) (fun q => q)); [apply derivable_pt_lim_const|apply derivable_pt_lim_id].
  Qed.

  Lemma near2 e s y : near (Rabs s * M) y (e_x e) -> near (2 * Rabs s * M) y (e_x e).
  Proof. intro H. eapply near_le; [exact H|]. pose proof (Rmult_le_pos _ _ (Rabs_pos s) HM). lra. Qed.

  Lemma traj_good e s : fine e s -> length (traj e s) = d /\ near (2 * Rabs s * M) (traj e s) (e_x e).
  Proof. intro F. destruct (traj_near e s F) as [X Y]. split; [exact X|apply near2; exact Y]. Qed.

  Let E1 : Ov 1 (fun e s i => coord i (traj e s) - coord i (e_x e) - P 1 (/2) (/6) (/6) e s i).
  Proof.
    intros i Hi. apply Ord_sub; [|exact (OrdV_P env fine T fine_small d K M e_a e_b f Ha Hb Hf 1 (/2) (/6) (/6) i Hi)].
    exists M. split; [exact HM|]. intros e s F. cbn. rewrite Rmult_1_r, Rmult_comm. apply (traj_near e s F).
  Qed.

  (** The derivative of the polynomial. *)
  Let dP (e : env) (s : R) (i : nat) : R := poly 0 (f e i) (Af env d e_a f e i) (AAf env d e_a f e i + Bff env d e_b f e i) 0 0 s.
  Let P_poly e s i : P 1 (/2) (/6) (/6) e s i = poly 0 0 (f e i) (Af env d e_a f e i) (AAf env d e_a f e i + Bff env d e_b f e i) 0 s.
  Proof. unfold Pc, poly. field. Qed.

  Let o_A : Ov 0 (fun e _ i => Af env d e_a f e i). Proof. exact (o_Af env fine T fine_small d K M e_a f Ha Hf). Qed.
  Let o_AA : Ov 0 (fun e _ i => AAf env d e_a f e i). Proof. exact (o_AAf env fine T fine_small d K M e_a f Ha Hf). Qed.
  Let o_B : Ov 0 (fun e _ i => Bff env d e_b f e i). Proof. exact (o_Bff env fine T fine_small d K M e_b f Hb Hf). Qed.
  Let o_AAA : Ov 0 (fun e _ i => AAAf env d e_a f e i).
  Proof. exact (OrdV_lin env fine T fine_small d K e_a Ha 0 (fun e _ => AAf env d e_a f e) o_AA). Qed.
  Let o_AB : Ov 0 (fun e _ i => ABff env d e_a e_b f e i).
  Proof. exact (OrdV_lin env fine T fine_small d K e_a Ha 0 (fun e _ => Bff env d e_b f e) o_B). Qed.
  Let o_f : Ov 0 (fun e _ i => f e i). Proof. exact (OrdV_f env fine d M f Hf). Qed.
  Let o_BfAf : Ov 0 (fun e _ i => BfAf env d e_a e_b f e i).
  Proof.
    intros i Hi. apply Ord_add.
    - exact (OrdV_bil env fine T fine_small d K e_b Hb 0 0 (fun e _ => f e) (fun e _ => Af env d e_a f e) o_f o_A i Hi).
    - exact (OrdV_bil env fine T fine_small d K e_b Hb 0 0 (fun e _ => Af env d e_a f e) (fun e _ => f e) o_A o_f i Hi).
  Qed.
  Let o_C : Ov 0 (fun e _ i => Cfff env d e_c f e i).
  Proof. exact (OrdV_tri env fine T fine_small d K e_c Hc 0 0 0 (fun e _ => f e) (fun e _ => f e) (fun e _ => f e) o_f o_f o_f). Qed.

  Lemma Ord_zero k (F : env -> R -> R) : (forall e s, F e s = 0) -> Ord env fine k F.
  Proof. intro H. exists 0. split; [lra|]. intros. rewrite H, Rabs_R0. lra. Qed.

  Lemma Q_dP : Ov 3 (fun e s i => Q 1 (/2) (/6) (/6) e s i - dP e s i).
  Proof.
    intros i Hi.
    apply (Ord_ext env fine 3 (fun e s => s * (s * (s * (/6 * AAAf env d e_a f e i + /6 * ABff env d e_a e_b f e i + /4 * BfAf env d e_a e_b f e i + /6 * Cfff env d e_c f e i))))).
    - intros. unfold Qc, dP, poly. field.
    - do 3 apply Ord_s. apply Ord_add; [apply Ord_add; [apply Ord_add|]|]; apply Ord_scal; [apply o_AAA|apply o_AB|apply o_BfAf|apply o_C]; exact Hi.
  Qed.

  (** One more order of the trajectory. *)
  Let up k : (1 <= k <= 3)%nat -> Ov k (fun e s i => coord i (traj e s) - coord i (e_x e) - P 1 (/2) (/6) (/6) e s i) ->
    Ov (S k) (fun e s i => coord i (traj e s) - coord i (e_x e) - P 1 (/2) (/6) (/6) e s i).
  Proof.
    intros Hk H i Hi.
    apply (Ord_integrate env fine k _ (fun e s => coord i (e_v e (traj e s)) - dP e s i)).
    - exact fine_sub.
    - intros e s (H1 & H2 & H3 & H4 & H5 & H6 & H7 & H8 & H9 & _). unfold traj. rewrite Rplus_0_r, H8. unfold Pc. ring.
    - intros e s F.
      assert (D1 : derivable_pt_lim (fun q => coord i (traj e q) - coord i (e_x e)) s (coord i (e_v e (traj e s)) - 0)).
      { apply (derivable_pt_lim_minus (fun q => coord i (traj e q)) (fun _ => coord i (e_x e)));
          [apply traj_derivable; exact F|apply derivable_pt_lim_const]. }
      rewrite Rminus_0_r in D1.
      apply (derivable_pt_lim_minus _ (fun q => P 1 (/2) (/6) (/6) e q i) s _ _ D1).
      apply (derivable_pt_lim_ext (poly 0 0 (f e i) (Af env d e_a f e i) (AAf env d e_a f e i + Bff env d e_b f e i) 0)).
      { intro. symmetry. apply P_poly. }
      apply poly_derivative.
    - pose proof (value_at k 1 (/2) (/6) (/6) traj ltac:(lia) traj_good H i Hi) as V.
      pose proof (Ord_weaken env fine T fine_small k 3 _ (proj2 Hk) (Q_dP i Hi)) as W.
      eapply Ord_ext; [|apply Ord_add; [exact V|exact W]]. intros. cbn. ring.
  Qed.

  Let E4 : Ov 4 (fun e s i => coord i (traj e s) - coord i (e_x e) - P 1 (/2) (/6) (/6) e s i).
  Proof. apply up; [lia|]. apply up; [lia|]. apply up; [lia|]. exact E1. Qed.

  (** The fourth order Taylor polynomial of the trajectory. *)
  Definition S4 (e : env) (i : nat) : R := AAAf env d e_a f e i + ABff env d e_a e_b f e i + 3 / 2 * BfAf env d e_a e_b f e i + Cfff env d e_c f e i.
  Definition T4 (e : env) (s : R) (i : nat) : R :=
    poly 0 0 (f e i) (Af env d e_a f e i) (AAf env d e_a f e i + Bff env d e_b f e i) (S4 e i) s.

  Lemma E5 : Ov 5 (fun e s i => coord i (traj e s) - coord i (e_x e) - T4 e s i).
  Proof.
    intros i Hi.
    apply (Ord_integrate env fine 4 _ (fun e s => coord i (e_v e (traj e s)) - Q 1 (/2) (/6) (/6) e s i)).
    - exact fine_sub.
    - intros e s (H1 & H2 & H3 & H4 & H5 & H6 & H7 & H8 & H9 & _). unfold traj. rewrite Rplus_0_r, H8. unfold T4, poly. field.
    - intros e s F.
      assert (D1 : derivable_pt_lim (fun q => coord i (traj e q) - coord i (e_x e)) s (coord i (e_v e (traj e s)) - 0)).
      { apply (derivable_pt_lim_minus (fun q => coord i (traj e q)) (fun _ => coord i (e_x e)));
          [apply traj_derivable; exact F|apply derivable_pt_lim_const]. }
      rewrite Rminus_0_r in D1.
      apply (derivable_pt_lim_minus _ (fun q => T4 e q i) s _ _ D1). unfold T4.
      replace (Q 1 (/2) (/6) (/6) e s i) with (poly 0 (f e i) (Af env d e_a f e i) (AAf env d e_a f e i + Bff env d e_b f e i) (S4 e i) 0 s).
      + apply poly_derivative.
      + unfold Qc, poly, S4. field.
    - exact (value_at 4 1 (/2) (/6) (/6) traj ltac:(lia) traj_good E4 i Hi).
  Qed.

  (* ---- the method ---- *)

  Let k1 (e : env) (s : R) : list R := e_v e (e_x e).
  Let y2 (e : env) (s : R) : list R := e_x e +v (1 / 2 * s) *v k1 e s.
  Let k2 (e : env) (s : R) : list R := e_v e (y2 e s).
  Let y3 (e : env) (s : R) : list R := e_x e +v (1 / 2 * s) *v k2 e s.
  Let k3 (e : env) (s : R) : list R := e_v e (y3 e s).
  Let y4 (e : env) (s : R) : list R := e_x e +v s *v k3 e s.
  Let k4 (e : env) (s : R) : list R := e_v e (y4 e s).

  Lemma v_len e s x : fine e s -> length x = d -> length (e_v e x) = d.
  Proof. intros F. apply F; exact 0. Qed.

  Lemma stage e s c k B : fine e s -> length k = d -> (forall i, Rabs (coord i k) <= B) -> Rabs c * B <= 2 * Rabs s * M ->
    length (e_x e +v c *v k) = d /\ near (2 * Rabs s * M) (e_x e +v c *v k) (e_x e) /\
    near (Rabs c * B) (e_x e +v c *v k) (e_x e).
  Proof.
    intros F Lk Bk Hle. assert (Lx : length (e_x e) = d) by apply F.
    assert (N : near (Rabs c * B) (e_x e +v c *v k) (e_x e)).
    { split; [rewrite (stage_length d); congruence|]. intro i. rewrite coord_vadd, coord_vscale by (rewrite vscale_length; congruence).
      replace (coord i (e_x e) + c * coord i k - coord i (e_x e)) with (c * coord i k) by ring. apply abs_mul, Bk. }
    split; [apply stage_length; assumption|]. split; [eapply near_le; eassumption|exact N].
  Qed.

  Lemma bound e s q y : fine e s -> length y = d -> near q y (e_x e) -> forall i, Rabs (coord i (e_v e y)) <= M + L * q.
  Proof.
    intros F Ly N i. pose proof F as (H1 & H2 & H3 & _). destruct (proj2 H1 0 y (e_x e) q Ly H2 N) as [_ X]. specialize (X i). specialize (H3 i).
    replace (coord i (e_v e y)) with (coord i (e_v e (e_x e)) + (coord i (e_v e y) - coord i (e_v e (e_x e)))) by ring.
    apply abs_add2; assumption.
  Qed.

  Lemma stages e s : fine e s ->
    (length (k1 e s) = d /\ length (k2 e s) = d /\ length (k3 e s) = d /\ length (k4 e s) = d) /\
    (length (y2 e s) = d /\ near (2 * Rabs s * M) (y2 e s) (e_x e)) /\
    (length (y3 e s) = d /\ near (2 * Rabs s * M) (y3 e s) (e_x e)) /\
    (length (y4 e s) = d /\ near (2 * Rabs s * M) (y4 e s) (e_x e)).
  Proof.
    intro F. pose proof F as (H1 & H2 & H3 & H4 & H5 & H6 & H7 & H8 & H9 & H10 & H11 & H12 & H13 & H14).
    pose proof (Rabs_pos s) as Ps. assert (PM : 0 <= Rabs s * M) by (apply Rmult_le_pos; assumption).
    assert (Hh : Rabs (1 / 2 * s) = Rabs s / 2) by (rewrite Rabs_mult, Rabs_pos_eq by lra; field).
    set (z := Rabs s * L) in *. assert (Pz : 0 <= z) by (apply Rmult_le_pos; assumption).
    assert (PzM : 0 <= z * M) by (apply Rmult_le_pos; assumption). assert (zM : z * M <= M) by nra.
    assert (L1 : length (k1 e s) = d) by (eapply v_len; eassumption).
    destruct (stage e s (1 / 2 * s) (k1 e s) M F L1 H3) as (Ly2 & Ny2 & My2); [rewrite Hh; lra|]. fold (y2 e s) in *.
    pose proof (bound e s _ _ F Ly2 My2) as B2. fold (k2 e s) in B2.
    assert (L2 : length (k2 e s) = d) by (eapply v_len; eassumption).
    assert (Q2 : forall i, Rabs (coord i (k2 e s)) <= 3 / 2 * M).
    { intro i. eapply Rle_trans; [apply B2|]. rewrite Hh. replace (L * (Rabs s / 2 * M)) with (z * M / 2) by (unfold z; field). lra. }
    destruct (stage e s (1 / 2 * s) (k2 e s) _ F L2 Q2) as (Ly3 & Ny3 & My3); [rewrite Hh; lra|]. fold (y3 e s) in *.
    pose proof (bound e s _ _ F Ly3 My3) as B3. fold (k3 e s) in B3.
    assert (L3 : length (k3 e s) = d) by (eapply v_len; eassumption).
    assert (Q3 : forall i, Rabs (coord i (k3 e s)) <= 7 / 4 * M).
    { intro i. eapply Rle_trans; [apply B3|]. rewrite Hh. replace (L * (Rabs s / 2 * (3 / 2 * M))) with (3 / 4 * (z * M)) by (unfold z; field). lra. }
    destruct (stage e s s (k3 e s) _ F L3 Q3) as (Ly4 & Ny4 & My4); [lra|]. fold (y4 e s) in *.
    assert (L4 : length (k4 e s) = d) by (eapply v_len; eassumption).
    exact (conj (conj L1 (conj L2 (conj L3 L4))) (conj (conj Ly2 Ny2) (conj (conj Ly3 Ny3) (conj Ly4 Ny4)))).

  Qed.

  Let K2 : Ov 4 (fun e s i => coord i (k2 e s) - Q (1/2) 0 0 0 e s i).
  Proof.
    apply (value_at 4 (1/2) 0 0 0 y2); [lia|intros e s F; apply stages; exact F|].
    intros i Hi. exists 0. split; [lra|]. intros e s F. rewrite Rmult_0_l.
    destruct (stages e s F) as ((L1 & _) & _). assert (Lx : length (e_x e) = d) by apply F.
    unfold y2. rewrite coord_vadd, coord_vscale by (rewrite vscale_length; congruence).
    match goal with |- Rabs ?w <= _ => replace w with 0; [rewrite Rabs_R0; lra|] end. unfold k1, Pc, f. field.
  Qed.

  Let K3 : Ov 4 (fun e s i => coord i (k3 e s) - Q (1/2) (1/4) 0 (1/16) e s i).
  Proof.
    apply (value_at 4 (1/2) (1/4) 0 (1/16) y3); [lia|intros e s F; apply stages; exact F|].
    intros i Hi.
    pose proof (Ord_weaken env fine T fine_small 3 4 _ ltac:(lia) (K2 i Hi)) as X. cbv beta in X.
    assert (W : Ord env fine 4 (fun e s => 1 / 2 * (s * ((coord i (k2 e s) - Q (1/2) 0 0 0 e s i) + s * (s * (s * (1/48 * Cfff env d e_c f e i))))))).
    { apply Ord_scal, Ord_s, Ord_add; [exact X|]. do 3 apply Ord_s. apply Ord_scal, o_C. exact Hi. }
    destruct W as (C & HC & W). exists C. split; [exact HC|]. intros e s F. specialize (W e s F).
    destruct (stages e s F) as ((L1 & L2 & _) & _). assert (Lx : length (e_x e) = d) by apply F.
    unfold y3. rewrite coord_vadd, coord_vscale by (rewrite vscale_length; congruence).
    match type of W with Rabs ?u <= _ => match goal with |- Rabs ?w <= _ => replace w with u; [exact W|] end end.
    unfold Qc, Pc. field.
  Qed.

  Let K4 : Ov 4 (fun e s i => coord i (k4 e s) - Q 1 (1/2) (1/4) (1/8) e s i).
  Proof.
    apply (value_at 4 1 (1/2) (1/4) (1/8) y4); [lia|intros e s F; apply stages; exact F|].
    intros i Hi.
    pose proof (Ord_weaken env fine T fine_small 3 4 _ ltac:(lia) (K3 i Hi)) as X. cbv beta in X.
    assert (W : Ord env fine 4 (fun e s => s * ((coord i (k3 e s) - Q (1/2) (1/4) 0 (1/16) e s i) +
       s * (s * (s * (1/16 * ABff env d e_a e_b f e i + 1/16 * BfAf env d e_a e_b f e i + 1/48 * Cfff env d e_c f e i)))))).
    { apply Ord_s, Ord_add; [exact X|]. do 3 apply Ord_s. apply Ord_add; [apply Ord_add|]; apply Ord_scal; [apply o_AB|apply o_BfAf|apply o_C]; exact Hi. }
    destruct W as (C & HC & W). exists C. split; [exact HC|]. intros e s F. specialize (W e s F).
    destruct (stages e s F) as ((L1 & L2 & L3 & _) & _). assert (Lx : length (e_x e) = d) by apply F.
    unfold y4. rewrite coord_vadd, coord_vscale by (rewrite vscale_length; congruence).
    match type of W with Rabs ?u <= _ => match goal with |- Rabs ?w <= _ => replace w with u; [exact W|] end end.
    unfold Qc, Pc. field.
  Qed.

  Lemma rk4_local_order : exists C, 0 <= C /\ forall e s, fine e s ->
    near (C * Rabs s ^ 5) (textbook_rk4 Rops (e_v e) s (e_x e)) (e_y e (e_t e + s)).
  Proof.
    destruct (Ord_uniform env fine 5 d (fun i e s => coord i (textbook_rk4 Rops (e_v e) s (e_x e)) - coord i (traj e s))) as (C & HC & B).
    - intros i Hi.
      assert (W : Ord env fine 5 (fun e s => 1 / 6 * (s * (2 * (coord i (k2 e s) - Q (1/2) 0 0 0 e s i) +
          2 * (coord i (k3 e s) - Q (1/2) (1/4) 0 (1/16) e s i) + (coord i (k4 e s) - Q 1 (1/2) (1/4) (1/8) e s i))) -
          (coord i (traj e s) - coord i (e_x e) - T4 e s i))).
      { apply Ord_sub; [|exact (E5 i Hi)]. apply Ord_scal, Ord_s. apply Ord_add; [apply Ord_add; apply Ord_scal|]; [apply K2|apply K3|apply K4]; exact Hi. }
      destruct W as (C & HC & W). exists C. split; [exact HC|]. intros e s F. specialize (W e s F).
      destruct (stages e s F) as ((L1 & L2 & L3 & L4) & _). assert (Lx : length (e_x e) = d) by apply F.
      unfold textbook_rk4. cbv zeta.
      change (o_mul Rops (o_half Rops) s) with (1 / 2 * s). change (o_div Rops s (o_ofZ Rops 6)) with (s / 6).
      change (o_ofZ Rops 2) with 2. fold (k1 e s). fold (y2 e s). fold (k2 e s). fold (y3 e s). fold (k3 e s). fold (y4 e s). fold (k4 e s).
      assert (Sx : length (k1 e s +v 2 *v k2 e s) = d) by (apply stage_length; assumption).
      assert (Sy : length (k1 e s +v 2 *v k2 e s +v 2 *v k3 e s) = d) by (apply stage_length; assumption).
      assert (Sz : length (k1 e s +v 2 *v k2 e s +v 2 *v k3 e s +v k4 e s) = d) by (apply sum_length; assumption).
      rewrite (coord_vadd i (e_x e)), coord_vscale, (coord_vadd i _ (k4 e s)), (coord_vadd i _ (2 *v k3 e s)), (coord_vadd i (k1 e s) (2 *v k2 e s)), !coord_vscale
        by (rewrite ?vscale_length; congruence).
      match type of W with Rabs ?u <= _ => match goal with |- Rabs ?w <= _ => replace w with u; [exact W|] end end.
      change (coord i (k1 e s)) with (f e i).
      unfold Qc, T4, S4, poly. field.
    - exists C. split; [exact HC|]. intros e s F.
      assert (Lr : length (textbook_rk4 Rops (e_v e) s (e_x e)) = d).
      { apply (rk4_length d (fun _ => e_v e) L (proj1 F) 0). apply F. }
      assert (Ly : length (e_y e (e_t e + s)) = d) by apply F.
      split; [congruence|]. intro i. destruct (Nat.lt_ge_cases i d) as [Hi|Hi].
      + exact (B e s i F Hi).
      + unfold coord. rewrite !nth_overflow by lia. rewrite Rminus_0_r, Rabs_R0.
        apply Rmult_le_pos; [exact HC|apply pow_le, Rabs_pos].
  Qed.
End Smooth.

Lemma rk4_fourth_order d L M K r T : 0 <= L -> 0 <= M -> exists C, 0 <= C /\
  forall v n h t0 y x, lipschitz_field d L (fun _ => v) ->
  INR n * Rabs h <= T -> Rabs h * L <= 1 -> 2 * Rabs h * M <= r ->
  trajectory d (fun _ => v) t0 (t0 + INR n * h) y ->
  (forall t, between t0 (t0 + INR n * h) t -> (forall i, Rabs (coord i (v (y t))) <= M) /\ taylor3 d K r v (y t)) -> x = y t0 ->
  near (C * h ^ 4) (path Rops MRK4 (snapshots (fun _ => v) t0 h n) x) (y (t0 + INR n * h)).
Proof.
  intros HL HM. destruct (rk4_local_order d L M K r T HL HM) as (C & HC & Loc).
  exists (C * Rabs T * exp (Rabs T * L)).
  split; [apply Rmult_le_pos; [apply Rmult_le_pos; [exact HC|apply Rabs_pos]|left; apply exp_pos]|].
  intros v n h t0 y x Hv HT Hz Hr Hy HB ->.
  destruct n as [|n].
  { cbn. replace (t0 + 0 * h) with t0 by ring. eapply near_le; [apply near_refl|]. apply Rmult_le_pos; [|].
    - apply Rmult_le_pos; [apply Rmult_le_pos; [exact HC|apply Rabs_pos]|left; apply exp_pos].
    - replace (h * (h * (h * (h * 1)))) with ((h * h) * (h * h)) by ring. nra. }
  set (N := S n) in *. cbn [path]. unfold snapshots. rewrite rk4_fold.
  pose proof (Rabs_pos h) as Ph. assert (Hz0 : 0 <= Rabs h * L) by (apply Rmult_le_pos; assumption).
  set (z := Rabs h * L) in *.
  assert (HN : 1 <= INR N) by (unfold N; rewrite S_INR; pose proof (pos_INR n); lra).
  assert (HhT : Rabs h <= T) by nra.
  assert (H5 : 0 <= C * Rabs h ^ 5) by (apply Rmult_le_pos; [exact HC|apply pow_le; exact Ph]).
  apply near_le with (accumulate (1 + z + z * z / 2 + z * z * z / 6 + z * z * z * z / 24) (C * Rabs h ^ 5) N 0).
  - apply (one_step_method d (textbook_rk4 Rops) (fun _ => v) t0 (t0 + INR N * h)).
    + intros t x Hx. apply (rk4_length d (fun _ => v) L Hv 0). exact Hx.
    + apply Hy.
    + intros t H1 H2. destruct (HB t H1) as [HM1 (a & b & c & Ha & Hb & Hc & Ht)].
      apply (Loc (Env v (y t) y t a b c) h). unfold fine. cbn [e_v e_x e_y e_t e_a e_b e_c].
      assert (Sub : forall q, between 0 h q -> between t0 (t0 + INR N * h) (t + q)).
      { intros q Hq. apply (between_sub t0 (t0 + INR N * h) t (t + h)); [exact H1|exact H2|].
        revert Hq. unfold between, Rmin, Rmax. repeat destruct (Rle_dec _ _); lra. }
      split; [exact Hv|]. split; [apply Hy|]. split; [exact HM1|]. split; [exact Ha|]. split; [exact Hb|]. split; [exact Hc|].
      split; [exact Ht|]. split; [reflexivity|]. split; [apply Hy|].
      split; [intros q Hq i; apply (proj2 Hy); apply Sub; exact Hq|].
      split; [intros q Hq i; apply (proj1 (HB (t + q) (Sub q Hq)))|].
      split; [exact HhT|]. split; assumption.
    + intros e t x Hx Hn. apply (rk4_spread d (fun _ => v) L Hv e 0); [exact Hx|apply Hy|exact Hn].
    + intros j Hj. apply between_step. lia.
    + apply Hy.
    + cbn. rewrite Rmult_0_l, Rplus_0_r. apply near_refl.
  - assert (0 <= z * z) by nra. assert (0 <= z * z * z) by (apply Rmult_le_pos; assumption).
    assert (0 <= z * z * z * z) by (apply Rmult_le_pos; assumption).
    eapply Rle_trans; [apply (accumulate_bound _ _ _ _ z); try lra; apply exp_ge4; exact Hz0|].
    assert (HT0 : 0 <= T) by lra. rewrite (Rabs_pos_eq T HT0).
    assert (E4 : Rabs h ^ 4 = h ^ 4).
    { replace (Rabs h ^ 4) with ((Rabs h * Rabs h) * (Rabs h * Rabs h)) by ring. rewrite abs_sq. ring. }
    assert (P4 : 0 <= h ^ 4) by (rewrite <- E4; apply pow_le; exact Ph).
    assert (X : exp (INR N * z) <= exp (T * L)).
    { assert (Y : INR N * z <= T * L) by (unfold z; rewrite <- Rmult_assoc; apply Rmult_le_compat_r; assumption).
      destruct Y as [Y|Y]; [left; apply exp_increasing; exact Y|right; rewrite Y; reflexivity]. }
    replace (C * T * exp (T * L) * h ^ 4) with (exp (T * L) * (C * h ^ 4 * T)) by ring.
    match goal with |- ?w <= _ => replace w with (exp (INR N * z) * (C * h ^ 4 * (INR N * Rabs h))) by (rewrite <- E4; ring) end.
    assert (0 <= C * h ^ 4) by (apply Rmult_le_pos; assumption).
    apply Rmult_le_compat; [left; apply exp_pos| |exact X|apply Rmult_le_compat_l; assumption].
    apply Rmult_le_pos; [assumption|]. apply Rmult_le_pos; [apply pos_INR|exact Ph].
Qed.
