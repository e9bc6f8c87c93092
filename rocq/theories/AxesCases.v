(** The arithmetics of C126 and its concrete cases. *)
From Coq Require Import ZArith Floats SpecFloat FloatAxioms Bool Reals List.
From Verif Require Import Base Num SpecSeeds SpecAxes SolverCases UnitsFacts.
Open Scope R_scope.

Lemma Rops_commutative : commutative Rops.
Proof. split; [exact Rplus_comm|exact Rmult_comm]. Qed.
Lemma Fops_commutative lnF : commutative (Fops lnF).
Proof.
  split; intros a b; apply Prim2SF_inj; cbn [o_add o_mul Fops].
  - rewrite !add_spec. unfold SF64add, SFadd. destruct (Prim2SF a) as [s|s| |s m e], (Prim2SF b) as [s'|s'| |s' m' e']; try reflexivity;
      try (destruct s, s'; reflexivity).
    rewrite Z.min_comm, Z.add_comm. reflexivity.
  - rewrite !mul_spec. unfold SF64mul, SFmul. destruct (Prim2SF a) as [s|s| |s m e], (Prim2SF b) as [s'|s'| |s' m' e']; try reflexivity;
      try (destruct s, s'; reflexivity).
    rewrite xorb_comm, Pos.mul_comm, Z.add_comm. reflexivity.
Qed.

(* ---- concrete cases ---- *)
(** The pendulum with the velocity on the x axis and the angle, reversed, on the y axis. *)
Definition quarter_turn : axes2 := Axes2 true false true.
Definition pendulum_turned (p : R * R) : R * R := (sin (snd p), - fst p).
Lemma pendulum_is_turned : turned2 quarter_turn pendulum pendulum_turned.
Proof. intros [x y]. unfold pendulum_turned, pendulum, turn2. cbn. rewrite sin_neg. reflexivity. Qed.
Lemma seed1_turned : turn_group2 quarter_turn seed1 = seed1.
Proof. unfold turn_group2, seed1, image2, turn2. cbn. repeat f_equal; ring. Qed.

(** The ABC flow: a new x axis along the old y axis, and so on. *)
Definition abc (a b c : R) (p : R * R * R) : R * R * R :=
  (a * sin (snd p) + c * cos (snd (fst p)), b * sin (fst (fst p)) + a * cos (snd p), c * sin (snd (fst p)) + b * cos (fst (fst p))).
Definition cycle : axes3 := Axes3 YZX false false false.
Lemma abc_cycle a b c : turned3 cycle (abc a b c) (abc b c a).
Proof. intros [[x y] z]. reflexivity. Qed.
