(** Expansions in powers of the step size, with constants that do not depend on the flow. *)
From Coq Require Import Reals Lra Lia Psatz.
From Verif Require Import Base Num SpecOrder OrderFacts OrderRK4.
Local Open Scope R_scope.

Lemma total_ext d f g : (forall j, (j < d)%nat -> f j = g j) -> total d f = total d g.
Proof. induction d; intro H; cbn; [reflexivity|]. rewrite IHd, H by auto. reflexivity. Qed.
Lemma total_plus d f g : total d (fun j => f j + g j) = total d f + total d g.
Proof. induction d; cbn; [lra|]. rewrite IHd. ring. Qed.
Lemma total_scal d c f : total d (fun j => c * f j) = c * total d f.
Proof. induction d; cbn; [lra|]. rewrite IHd. ring. Qed.

Section Asymptotics.
  (** [E] collects what varies besides the step size; [G e s] says that [s] is an admissible step. *)
  Variables (E : Type) (G : E -> R -> Prop) (T : R).
  Hypothesis small : forall e s, G e s -> Rabs s <= T.

  Definition Ord (k : nat) (F : E -> R -> R) : Prop := exists C, 0 <= C /\ forall e s, G e s -> Rabs (F e s) <= C * Rabs s ^ k.

  Lemma Ord_ext k F F' : (forall e s, F e s = F' e s) -> Ord k F -> Ord k F'.
  Proof. intros H (C & HC & B). exists C. split; [exact HC|]. intros. rewrite <- H. auto. Qed.

  Lemma Ord_add k F F' : Ord k F -> Ord k F' -> Ord k (fun e s => F e s + F' e s).
  Proof.
    intros (C & HC & B) (C' & HC' & B'). exists (C + C'). split; [lra|]. intros e s H. rewrite Rmult_plus_distr_r.
    apply abs_add2; auto.
  Qed.

  Lemma Ord_mul j k F F' : Ord j F -> Ord k F' -> Ord (j + k) (fun e s => F e s * F' e s).
  Proof.
    intros (C & HC & B) (C' & HC' & B'). exists (C * C'). split; [apply Rmult_le_pos; assumption|]. intros e s H.
    rewrite Rabs_mult, pow_add. specialize (B e s H). specialize (B' e s H).
    replace (C * C' * (Rabs s ^ j * Rabs s ^ k)) with ((C * Rabs s ^ j) * (C' * Rabs s ^ k)) by ring.
    apply Rmult_le_compat; auto using Rabs_pos.
  Qed.

  Lemma Ord_weaken j k F : (j <= k)%nat -> Ord k F -> Ord j F.
  Proof.
    intros Hjk (C & HC & B). exists (C * Rabs T ^ (k - j)). split.
    - apply Rmult_le_pos; [exact HC|]. apply pow_le, Rabs_pos.
    - intros e s H. eapply Rle_trans; [apply B; exact H|].
      replace (Rabs s ^ k) with (Rabs s ^ (k - j) * Rabs s ^ j) by (rewrite <- pow_add; f_equal; lia).
      rewrite Rmult_assoc. apply Rmult_le_compat_l; [exact HC|]. apply Rmult_le_compat_r; [apply pow_le, Rabs_pos|].
      apply pow_incr. split; [apply Rabs_pos|]. eapply Rle_trans; [eapply small; exact H|apply Rle_abs].
  Qed.

  Lemma Ord_bounded (F : E -> R -> R) C : (forall e s, G e s -> Rabs (F e s) <= C) -> Ord 0 F.
  Proof.
    intro B. exists (Rabs C). split; [apply Rabs_pos|]. intros e s H. cbn. rewrite Rmult_1_r.
    eapply Rle_trans; [apply B; exact H|apply Rle_abs].
  Qed.

  Lemma Ord_const c : Ord 0 (fun _ _ => c).
  Proof. apply (Ord_bounded _ (Rabs c)). intros. lra. Qed.

  Lemma Ord_id : Ord 1 (fun _ s => s).
  Proof. exists 1. split; [lra|]. intros. cbn. lra. Qed.

  Lemma Ord_scal k c F : Ord k F -> Ord k (fun e s => c * F e s).
  Proof. intro H. exact (Ord_mul 0 k _ _ (Ord_const c) H). Qed.

  Lemma Ord_sub k F F' : Ord k F -> Ord k F' -> Ord k (fun e s => F e s - F' e s).
  Proof.
    intros H H'. eapply Ord_ext; [|apply (Ord_add k F (fun e s => (-1) * F' e s)); [exact H|apply Ord_scal; exact H']].
    intros. cbn. ring.
  Qed.

  Lemma Ord_s k F : Ord k F -> Ord (S k) (fun e s => s * F e s).
  Proof. intro H. exact (Ord_mul 1 k _ _ Ord_id H). Qed.

  Lemma Ord_total k d (F : nat -> E -> R -> R) : (forall j, (j < d)%nat -> Ord k (F j)) -> Ord k (fun e s => total d (fun j => F j e s)).
  Proof.
    induction d; intro H; cbn.
    - apply (Ord_weaken k k); [lia|]. exists 0. split; [lra|]. intros. rewrite Rabs_R0. lra.
    - apply Ord_add; [apply IHd|]; auto.
  Qed.

  (** Integration in the step size. *)
  Lemma Ord_integrate k (F D : E -> R -> R) : (forall e s c, G e s -> between 0 s c -> G e c) ->
    (forall e s, G e s -> F e 0 = 0) -> (forall e s, G e s -> derivable_pt_lim (F e) s (D e s)) ->
    Ord k D -> Ord (S k) F.
  Proof.
    intros Sub Z Der (C & HC & B). exists C. split; [exact HC|]. intros e s H.
    pose proof (taylor_step (F e) (D e) (fun _ => 0) (fun _ => 0) 0 s C k HC) as P.
    replace (Rabs s) with (Rabs (s - 0)) by (f_equal; ring). replace (F e s) with (F e s - 0) by ring.
    replace (s - 0) with (s - 0) in * by ring. apply P.
    - intros c Hc. apply Der. eauto.
    - intros. apply derivable_pt_lim_const.
    - symmetry. eapply Z. exact H.
    - intros c Hc. rewrite Rminus_0_r. replace (c - 0) with c by ring. apply B. eauto.
  Qed.

  (** One constant for all coordinates. *)
  Lemma Ord_uniform k d (F : nat -> E -> R -> R) : (forall j, (j < d)%nat -> Ord k (F j)) ->
    exists C, 0 <= C /\ forall e s j, G e s -> (j < d)%nat -> Rabs (F j e s) <= C * Rabs s ^ k.
  Proof.
    induction d; intro H.
    - exists 0. split; [lra|]. intros. lia.
    - destruct IHd as (C & HC & B); [auto|]. destruct (H d) as (C' & HC' & B'); [lia|].
      exists (C + C'). split; [lra|]. intros e s j Hg Hj. rewrite Rmult_plus_distr_r.
      pose proof (pow_le (Rabs s) k (Rabs_pos s)) as P.
      pose proof (Rmult_le_pos _ _ HC P). pose proof (Rmult_le_pos _ _ HC' P).
      assert (j < d \/ j = d)%nat as [Hj'|Hj'] by lia.
      + specialize (B e s j Hg Hj'). lra.
      + subst j. specialize (B' e s Hg). lra.
  Qed.

  (** Vectors, given by their coordinates, and the tensors of the expansion. *)
  Variables (d : nat) (K M : R).
  Variables (a : E -> nat -> nat -> R) (b : E -> nat -> nat -> nat -> R) (c : E -> nat -> nat -> nat -> nat -> R).
  Variable f : E -> nat -> R.
  Hypothesis Ha : forall e s i j, G e s -> Rabs (a e i j) <= K.
  Hypothesis Hb : forall e s i j k, G e s -> Rabs (b e i j k) <= K.
  Hypothesis Hc : forall e s i j k l, G e s -> Rabs (c e i j k l) <= K.
  Hypothesis Hf : forall e s i, G e s -> Rabs (f e i) <= M.

  Definition lin (e : E) (w : nat -> R) (i : nat) : R := total d (fun j => a e i j * w j).
  Definition bil (e : E) (w z : nat -> R) (i : nat) : R := total d (fun j => total d (fun k => b e i j k * w j * z k)).
  Definition tri (e : E) (w z y : nat -> R) (i : nat) : R :=
    total d (fun j => total d (fun k => total d (fun l => c e i j k l * w j * z k * y l))).

  Lemma lin_comb e p q w z i : lin e (fun j => p * w j + q * z j) i = p * lin e w i + q * lin e z i.
  Proof. unfold lin. rewrite <- !total_scal, <- total_plus. apply total_ext. intros. ring. Qed.
  Lemma bil_comb_l e p q w z y i : bil e (fun j => p * w j + q * z j) y i = p * bil e w y i + q * bil e z y i.
  Proof.
    unfold bil. rewrite <- !total_scal, <- total_plus. apply total_ext. intros.
    rewrite <- !total_scal, <- total_plus. apply total_ext. intros. ring.
  Qed.
  Lemma bil_comb_r e p q w z y i : bil e y (fun j => p * w j + q * z j) i = p * bil e y w i + q * bil e y z i.
  Proof.
    unfold bil. rewrite <- !total_scal, <- total_plus. apply total_ext. intros.
    rewrite <- !total_scal, <- total_plus. apply total_ext. intros. ring.
  Qed.
  Ltac tri_tac := unfold tri; rewrite <- !total_scal, <- total_plus; apply total_ext; intros;
    rewrite <- !total_scal, <- total_plus; apply total_ext; intros;
    rewrite <- !total_scal, <- total_plus; apply total_ext; intros; ring.
  Lemma tri_comb_1 e p q w z y x i : tri e (fun j => p * w j + q * z j) y x i = p * tri e w y x i + q * tri e z y x i.
  Proof. tri_tac. Qed.
  Lemma tri_comb_2 e p q w z y x i : tri e y (fun j => p * w j + q * z j) x i = p * tri e y w x i + q * tri e y z x i.
  Proof. tri_tac. Qed.
  Lemma tri_comb_3 e p q w z y x i : tri e y x (fun j => p * w j + q * z j) i = p * tri e y x w i + q * tri e y x z i.
  Proof. tri_tac. Qed.
  Lemma lin_ext e w z i : (forall j, w j = z j) -> lin e w i = lin e z i.
  Proof. intro H. apply total_ext. intros. rewrite H. reflexivity. Qed.
  Lemma bil_ext e w z w' z' i : (forall j, w j = w' j) -> (forall j, z j = z' j) -> bil e w z i = bil e w' z' i.
  Proof. intros H H'. apply total_ext. intros. apply total_ext. intros. rewrite H, H'. reflexivity. Qed.
  Lemma tri_ext e w z y w' z' y' i : (forall j, w j = w' j) -> (forall j, z j = z' j) -> (forall j, y j = y' j) ->
    tri e w z y i = tri e w' z' y' i.
  Proof.
    intros H H' H''. apply total_ext. intros. apply total_ext. intros. apply total_ext. intros.
    rewrite H, H', H''. reflexivity.
  Qed.

  Definition vec := E -> R -> nat -> R.
  Definition OrdV (k : nat) (W : vec) : Prop := forall i, (i < d)%nat -> Ord k (fun e s => W e s i).

  Lemma OrdV_lin k W : OrdV k W -> OrdV k (fun e s => lin e (W e s)).
  Proof.
    intros H i Hi. apply Ord_total. intros j Hj. apply (Ord_mul 0 k (fun e s => a e i j)); [|apply H; exact Hj].
    apply (Ord_bounded _ K). intros. eapply Ha. eassumption.
  Qed.
  Lemma OrdV_bil k l W Z : OrdV k W -> OrdV l Z -> OrdV (k + l) (fun e s => bil e (W e s) (Z e s)).
  Proof.
    intros H H' i Hi. apply Ord_total. intros j Hj. apply Ord_total. intros m Hm.
    apply (Ord_mul k l (fun e s => b e i j m * W e s j)); [|apply H'; exact Hm].
    apply (Ord_mul 0 k (fun e s => b e i j m)); [|apply H; exact Hj].
    apply (Ord_bounded _ K). intros. eapply Hb. eassumption.
  Qed.
  Lemma OrdV_tri k l m W Z Y : OrdV k W -> OrdV l Z -> OrdV m Y -> OrdV (k + l + m) (fun e s => tri e (W e s) (Z e s) (Y e s)).
  Proof.
    intros H H' H'' i Hi. apply Ord_total. intros j Hj. apply Ord_total. intros j' Hj'. apply Ord_total. intros j'' Hj''.
    apply (Ord_mul (k + l) m (fun e s => c e i j j' j'' * W e s j * Z e s j')); [|apply H''; exact Hj''].
    apply (Ord_mul k l (fun e s => c e i j j' j'' * W e s j)); [|apply H'; exact Hj'].
    apply (Ord_mul 0 k (fun e s => c e i j j' j'')); [|apply H; exact Hj].
    apply (Ord_bounded _ K). intros. eapply Hc. eassumption.
  Qed.
  Lemma OrdV_f : OrdV 0 (fun e _ => f e).
  Proof. intros i _. apply (Ord_bounded _ M). intros. eapply Hf. eassumption. Qed.

  (** The elementary differentials. *)
  Definition Af (e : E) := lin e (f e).
  Definition AAf (e : E) := lin e (Af e).
  Definition AAAf (e : E) := lin e (AAf e).
  Definition Bff (e : E) := bil e (f e) (f e).
  Definition ABff (e : E) := lin e (Bff e).
  Definition BfAf (e : E) (i : nat) := bil e (f e) (Af e) i + bil e (Af e) (f e) i.
  Definition Cfff (e : E) := tri e (f e) (f e) (f e).

  (** The third order expansion of the field at displacement [u]. *)
  Definition field (e : E) (u : nat -> R) (i : nat) : R := f e i + lin e u i + / 2 * bil e u u i + / 6 * tri e u u u i.

  Definition Pc (c1 c2 c3 c4 : R) : vec := fun e s i => s * (c1 * f e i + s * (c2 * Af e i + s * (c3 * AAf e i + c4 * Bff e i))).
  Definition Qc (c1 c2 c3 c4 : R) : vec := fun e s i => f e i + s * (c1 * Af e i) + s * s * (c2 * AAf e i + c1 * c1 / 2 * Bff e i) +
    s * s * s * (c3 * AAAf e i + c4 * ABff e i + c1 * c2 / 2 * BfAf e i + c1 * c1 * c1 / 6 * Cfff e i).

  Lemma o_Af : OrdV 0 (fun e _ => Af e).
  Proof. apply (OrdV_lin 0 (fun e _ => f e)), OrdV_f. Qed.
  Lemma o_AAf : OrdV 0 (fun e _ => AAf e).
  Proof. apply (OrdV_lin 0 (fun e _ => Af e)), o_Af. Qed.
  Lemma o_Bff : OrdV 0 (fun e _ => Bff e).
  Proof. apply (OrdV_bil 0 0 (fun e _ => f e) (fun e _ => f e)); apply OrdV_f. Qed.

  Lemma OrdV_P c1 c2 c3 c4 : OrdV 1 (Pc c1 c2 c3 c4).
  Proof.
    intros i Hi. unfold Pc. apply Ord_s. apply Ord_add; [apply Ord_scal, OrdV_f; exact Hi|].
    apply (Ord_weaken 0 1); [lia|]. apply Ord_s.
    apply Ord_add; [apply Ord_scal, o_Af; exact Hi|]. apply (Ord_weaken 0 1); [lia|]. apply Ord_s.
    apply Ord_add; apply Ord_scal; [apply o_AAf|apply o_Bff]; exact Hi.
  Qed.

  (** The expansion at a polynomial displacement. *)
  Lemma expand_poly c1 c2 c3 c4 : OrdV 4 (fun e s i => field e (Pc c1 c2 c3 c4 e s) i - Qc c1 c2 c3 c4 e s i).
  Proof.
    set (P3 := fun (e : E) (s : R) (i : nat) => c3 * AAf e i + c4 * Bff e i).
    set (P2 := fun (e : E) (s : R) (i : nat) => c2 * Af e i + s * P3 e s i).
    set (P1 := fun (e : E) (s : R) (i : nat) => c1 * f e i + s * P2 e s i).
    assert (O3 : OrdV 0 P3). { intros i Hi. apply Ord_add; apply Ord_scal; [apply o_AAf|apply o_Bff]; exact Hi. }
    assert (O2 : OrdV 0 P2).
    { intros i Hi. apply Ord_add; [apply Ord_scal, o_Af; exact Hi|]. apply (Ord_weaken 0 1); [lia|]. apply Ord_s, O3; exact Hi. }
    assert (O1 : OrdV 0 P1).
    { intros i Hi. apply Ord_add; [apply Ord_scal, OrdV_f; exact Hi|]. apply (Ord_weaken 0 1); [lia|]. apply Ord_s, O2; exact Hi. }
    assert (EP : forall e s j, Pc c1 c2 c3 c4 e s j = s * P1 e s j + 0 * P1 e s j) by (intros; unfold Pc, P1, P2, P3; ring).
    intros i Hi.
    apply (Ord_ext 4 (fun e s => s * (s * (s * (s * (
        / 2 * (c1 * (bil e (f e) (P3 e s) i + bil e (P3 e s) (f e) i) + bil e (P2 e s) (P2 e s) i) +
        / 6 * (c1 * c1 * tri e (f e) (f e) (P2 e s) i + c1 * tri e (f e) (P2 e s) (P1 e s) i + tri e (P2 e s) (P1 e s) (P1 e s) i))))))).
    2:{ do 4 apply Ord_s. pose proof OrdV_f as O0.
        apply Ord_add; apply Ord_scal.
        - apply Ord_add; [apply Ord_scal, Ord_add|].
          + exact (OrdV_bil 0 0 _ _ O0 O3 i Hi).
          + exact (OrdV_bil 0 0 _ _ O3 O0 i Hi).
          + exact (OrdV_bil 0 0 _ _ O2 O2 i Hi).
        - apply Ord_add; [apply Ord_add|].
          + apply Ord_scal. exact (OrdV_tri 0 0 0 _ _ _ O0 O0 O2 i Hi).
          + apply Ord_scal. exact (OrdV_tri 0 0 0 _ _ _ O0 O2 O1 i Hi).
          + exact (OrdV_tri 0 0 0 _ _ _ O2 O1 O1 i Hi). }
    intros e s. unfold field.
    rewrite (lin_ext _ _ _ i (EP e s)), (bil_ext _ _ _ _ _ i (EP e s) (EP e s)), (tri_ext _ _ _ _ _ _ _ i (EP e s) (EP e s) (EP e s)).
    rewrite lin_comb, bil_comb_l, !bil_comb_r, tri_comb_1, !tri_comb_2, !tri_comb_3.
    set (TT := tri e (P1 e s) (P1 e s) (P1 e s) i). set (BB := bil e (P1 e s) (P1 e s) i). set (LL := lin e (P1 e s) i).
    assert (HL : LL = c1 * Af e i + s * (c2 * AAf e i + s * (c3 * AAAf e i + c4 * ABff e i))).
    { unfold LL, P1. rewrite lin_comb. unfold P2. rewrite lin_comb. unfold P3. rewrite lin_comb. reflexivity. }
    assert (HB : BB = c1 * c1 * Bff e i + s * (c1 * (c2 * BfAf e i + s * (bil e (f e) (P3 e s) i + bil e (P3 e s) (f e) i))) +
      s * s * bil e (P2 e s) (P2 e s) i).
    { assert (X : bil e (f e) (P2 e s) i = c2 * bil e (f e) (Af e) i + s * bil e (f e) (P3 e s) i) by (unfold P2; apply bil_comb_r).
      assert (Y : bil e (P2 e s) (f e) i = c2 * bil e (Af e) (f e) i + s * bil e (P3 e s) (f e) i) by (unfold P2; apply bil_comb_l).
      unfold BB, P1 at 1. rewrite bil_comb_l. unfold P1. rewrite !bil_comb_r, X, Y. unfold BfAf, Bff. ring. }
    assert (HT : TT = c1 * c1 * c1 * Cfff e i + s * (c1 * c1 * tri e (f e) (f e) (P2 e s) i + c1 * tri e (f e) (P2 e s) (P1 e s) i +
      tri e (P2 e s) (P1 e s) (P1 e s) i)).
    { unfold TT, P1 at 1. rewrite tri_comb_1.
      assert (X : tri e (f e) (P1 e s) (P1 e s) i = c1 * tri e (f e) (f e) (P1 e s) i + s * tri e (f e) (P2 e s) (P1 e s) i)
        by (unfold P1 at 1; apply tri_comb_2).
      assert (Y : tri e (f e) (f e) (P1 e s) i = c1 * Cfff e i + s * tri e (f e) (f e) (P2 e s) i)
        by (unfold P1; apply tri_comb_3).
      rewrite X, Y. ring. }
    rewrite HL, HB, HT. unfold Qc. field.
  Qed.

  (** The expansion at a displacement known up to order [r]. *)
  Lemma expand r c1 c2 c3 c4 (U : vec) : (1 <= r <= 4)%nat -> OrdV r (fun e s i => U e s i - Pc c1 c2 c3 c4 e s i) ->
    OrdV r (fun e s i => field e (U e s) i - Qc c1 c2 c3 c4 e s i).
  Proof.
    intros Hr HU.
    set (P := Pc c1 c2 c3 c4) in *. set (D := fun e s i => U e s i - P e s i) in *.
    pose proof (OrdV_P c1 c2 c3 c4) as HP. fold P in HP.
    assert (HU1 : OrdV 1 U).
    { intros i Hi. eapply Ord_ext; [|apply Ord_add; [apply (HP i Hi)|apply (Ord_weaken 1 r); [lia|apply (HU i Hi)]]].
      intros. unfold D. cbn. ring. }
    assert (EU : forall e s j, U e s j = 1 * P e s j + 1 * D e s j) by (intros; unfold D; ring).
    intros i Hi.
    apply (Ord_ext r (fun e s => (field e (P e s) i - Qc c1 c2 c3 c4 e s i) + (lin e (D e s) i +
      / 2 * (bil e (D e s) (U e s) i + bil e (P e s) (D e s) i) +
      / 6 * (tri e (D e s) (U e s) (U e s) i + tri e (P e s) (D e s) (U e s) i + tri e (P e s) (P e s) (D e s) i)))).
    2:{ apply Ord_add; [apply (Ord_weaken r 4); [lia|]; exact (expand_poly c1 c2 c3 c4 i Hi)|].
        apply Ord_add; [apply Ord_add|].
        - exact (OrdV_lin r D HU i Hi).
        - apply Ord_scal, Ord_add.
          + apply (Ord_weaken r (r + 1)); [lia|]. exact (OrdV_bil r 1 D U HU HU1 i Hi).
          + apply (Ord_weaken r (1 + r)); [lia|]. exact (OrdV_bil 1 r P D HP HU i Hi).
        - apply Ord_scal, Ord_add; [apply Ord_add|].
          + apply (Ord_weaken r (r + 1 + 1)); [lia|]. exact (OrdV_tri r 1 1 D U U HU HU1 HU1 i Hi).
          + apply (Ord_weaken r (1 + r + 1)); [lia|]. exact (OrdV_tri 1 r 1 P D U HP HU HU1 i Hi).
          + apply (Ord_weaken r (1 + 1 + r)); [lia|]. exact (OrdV_tri 1 1 r P P D HP HP HU i Hi). }
    intros e s. unfold field.
    assert (X1 : lin e (U e s) i = lin e (P e s) i + lin e (D e s) i).
    { rewrite (lin_ext _ _ _ i (EU e s)), lin_comb. ring. }
    assert (X2 : bil e (U e s) (U e s) i = bil e (P e s) (P e s) i + bil e (P e s) (D e s) i + bil e (D e s) (U e s) i).
    { rewrite (bil_ext e _ _ _ _ i (EU e s) (fun _ => eq_refl)), bil_comb_l.
      rewrite (bil_ext e (P e s) _ _ _ i (fun _ => eq_refl) (EU e s)), bil_comb_r. ring. }
    assert (X3 : tri e (U e s) (U e s) (U e s) i = tri e (P e s) (P e s) (P e s) i + tri e (P e s) (P e s) (D e s) i +
      tri e (P e s) (D e s) (U e s) i + tri e (D e s) (U e s) (U e s) i).
    { rewrite (tri_ext e _ _ _ _ _ _ i (EU e s) (fun _ => eq_refl) (fun _ => eq_refl)), tri_comb_1.
      rewrite (tri_ext e (P e s) _ _ _ _ _ i (fun _ => eq_refl) (EU e s) (fun _ => eq_refl)), tri_comb_2.
      rewrite (tri_ext e (P e s) (P e s) _ _ _ _ i (fun _ => eq_refl) (fun _ => eq_refl) (EU e s)), tri_comb_3. ring. }
    rewrite X1, X2, X3. ring.
  Qed.
End Asymptotics.
