(** Statements of the kernel bounds in powers of two. *)
From Coq Require Import Reals Lia Lra Floats.
From Flocq Require Import Core PrimFloat.
From Verif Require Import Base Num NdArray GridInterp SpecGrid SpecKernel SpecFloat64 SpecFloatGrid
  FloatKernel FloatAxis FloatPlaceCases.
Local Open Scope R_scope.

Lemma kernel2_accurate : forall (lnF : PrimFloat.float -> PrimFloat.float) v sx sy V M pts qs out,
  stores2 v sx sy V M -> 0 <= M -> M <= 2 ^ 898 ->
  (Z.of_nat sx <= INT_MAX)%Z -> (Z.of_nat sy <= INT_MAX)%Z ->
  Forall2 stand2 pts qs -> Forall fits2 qs -> length out = length pts ->
  exists vals, interp2d_vec_inplace (Fops lnF) v (q2 pts) out = Ok vals /\
    Forall2 (fun q val => exists r, sampled2 sx sy V q r /\ accurate M val r) qs vals.
Proof. intros lnF v sx sy V M pts qs out H PM HM. rewrite pow_bpow in HM. exact (kernel2_F lnF v sx sy V M pts qs out H PM HM). Qed.

Lemma kernel3_accurate : forall (lnF : PrimFloat.float -> PrimFloat.float) v sx sy sz V M pts qs out,
  stores3 v sx sy sz V M -> 0 <= M -> M <= 2 ^ 898 ->
  (Z.of_nat sx <= INT_MAX)%Z -> (Z.of_nat sy <= INT_MAX)%Z -> (Z.of_nat sz <= INT_MAX)%Z ->
  (Z.of_nat sy * Z.of_nat sz <= INT_MAX)%Z ->
  Forall2 stand3 pts qs -> Forall fits3 qs -> length out = length pts ->
  exists vals, interp3d_vec_inplace (Fops lnF) v (q3 pts) out = Ok vals /\
    Forall2 (fun q val => exists r, sampled3 sx sy sz V q r /\ accurate M val r) qs vals.
Proof. intros lnF v sx sy sz V M pts qs out H PM HM. rewrite pow_bpow in HM. exact (kernel3_F lnF v sx sy sz V M pts qs out H PM HM). Qed.

Lemma kernel_case : stores2 (Nd [4; 2]%nat ones8) 4 2 (fun _ _ => 1) 1 /\
  stores3 (Nd [2; 2; 2]%nat ones8) 2 2 2 (fun _ _ _ => 1) 1 /\
  stand2 (0x1p-1, 0x1p-1)%float (/ 2, / 2) /\ fits2 (/ 2, / 2).
Proof.
  split; [|split; [|split; [split; exact rep_half|unfold fits2, fits; cbn [fst snd]; lra]]].
  - split; [reflexivity|]. intros i j Hi Hj. exists 1%float. split; [|split; [exact rep_1|rewrite Rabs_R1; lra]].
    destruct j as [|[|j]]; [| |lia]; do 4 (destruct i as [|i]; [reflexivity|]); lia.
  - split; [reflexivity|]. intros i j k Hi Hj Hk. exists 1%float. split; [|split; [exact rep_1|rewrite Rabs_R1; lra]].
    destruct k as [|[|k]]; [| |lia]; (destruct j as [|[|j]]; [| |lia]); do 2 (destruct i as [|i]; [reflexivity|]); lia.
Qed.
