(** Cases for the grid interpolator in binary64. *)
From Coq Require Import Reals Lia Lra Psatz Floats.
From Flocq Require Import Core BinarySingleNaN PrimFloat.
From Verif Require Import Base Num NdArray Integrate GridInterp Interpolate SpecSeeds SpecGrid SpecKernel SpecFloat64 SpecFloatGrid SpecIntegrate
  FloatGrid FloatPlace.
Local Open Scope R_scope.

(** Coordinates of a 4 x 2 grid on the unit square, x fastest. *)
Definition edge_x : list PrimFloat.float := [0; 0x1.5555555555555p-2; 0x1.5555555555555p-1; 1; 0; 0x1.5555555555555p-2; 0x1.5555555555555p-1; 1]%float.
Definition edge_y : list PrimFloat.float := [0; 0; 0; 0; 1; 1; 1; 1]%float.
Definition ones8 : list PrimFloat.float := [1; 1; 1; 1; 1; 1; 1; 1]%float.
Definition near_one : PrimFloat.float := 0x1.fffffffffffffp-1%float.

Lemma rep_0 : represents 0%float 0. Proof. exact (int_rep 0 ltac:(lia)). Qed.
Lemma rep_1 : represents 1%float 1. Proof. exact (int_rep 1 ltac:(lia)). Qed.
Lemma rep_lit f m e : Prim2SF f = S754_finite false m e -> represents f (IZR (Zpos m) * bpow radix2 e).
Proof. intro E. split; [unfold is_finite_SF; rewrite E; reflexivity|]. rewrite E. unfold SF2R, F2R. cbn. reflexivity. Qed.
Lemma rep_half : represents 0x1p-1%float (/ 2).
Proof.
  replace (/ 2) with (IZR 4503599627370496 * bpow radix2 (-53)); [|cbn; lra].
  apply (rep_lit _ 4503599627370496 (-53)). reflexivity.
Qed.
Lemma rep_near : represents near_one (1 - / 2 ^ 53).
Proof.
  replace (1 - / 2 ^ 53) with (IZR 9007199254740991 * bpow radix2 (-53)); [|cbn; lra].
  apply (rep_lit _ 9007199254740991 (-53)). reflexivity.
Qed.
Lemma rep_third : represents 0x1.5555555555555p-2%float (6004799503160661 * bpow radix2 (-54)).
Proof. apply (rep_lit _ 6004799503160661 (-54)). reflexivity. Qed.
Lemma rep_two_thirds : represents 0x1.5555555555555p-1%float (6004799503160661 * bpow radix2 (-53)).
Proof. apply (rep_lit _ 6004799503160661 (-53)). reflexivity. Qed.

Lemma spans_x : spans edge_x 0 1.
Proof.
  split; [|split].
  - intros x Hx. cbn [In edge_x] in Hx.
    assert (C : x = 0%float \/ x = 0x1.5555555555555p-2%float \/ x = 0x1.5555555555555p-1%float \/ x = 1%float)
      by (repeat (destruct Hx as [<-|Hx]; [tauto|]); destruct Hx).
    destruct C as [-> | [-> | [-> | ->]]]; eexists; (split; [first [exact rep_0|exact rep_1|exact rep_third|exact rep_two_thirds]|]); cbn; lra.
  - exists 0%float. split; [left; reflexivity|exact rep_0].
  - exists 1%float. split; [cbn; tauto|exact rep_1].
Qed.
Lemma spans_y : spans edge_y 0 1.
Proof.
  split; [|split].
  - intros x Hx. cbn [In edge_y] in Hx.
    assert (C : x = 0%float \/ x = 1%float) by (repeat (destruct Hx as [<-|Hx]; [tauto|]); destruct Hx).
    destruct C as [-> | ->]; eexists; (split; [first [exact rep_0|exact rep_1]|]); lra.
  - exists 0%float. split; [left; reflexivity|exact rep_0].
  - exists 1%float. split; [cbn; tauto|exact rep_1].
Qed.
Lemma samples_ones : finite_samples ones8 8 (fun _ => 1) 1.
Proof.
  split; [reflexivity|]. intros k Hk. exists 1%float. split; [|split; [exact rep_1|rewrite Rabs_R1; lra]].
  do 8 (destruct k as [|k]; [reflexivity|]). lia.
Qed.
Lemma unit_extent : sane_extent 0 1.
Proof.
  unfold sane_extent. rewrite Rminus_0_r. assert (1 <= 2 ^ 900) by (apply pow_R1_Rle; lra). split; [|assumption].
  rewrite <- Rinv_1. apply Rinv_le_contravar; lra.
Qed.

Lemma last_cell (lnF : PrimFloat.float -> PrimFloat.float) (scp : scipy PrimFloat.float) fn mem :
  exists i0 i1 i2 p q,
    create_interpolator (Fops lnF) scp "grid" (Some [4; 2]%nat) fn = Ok i0 /\
    update (Fops lnF) scp i0 (Mat 8 [ones8; ones8]) (Some (Mat 8 [edge_x; edge_y])) = (i1, Ok tt) /\
    stand2 p q /\ inside 4 (position 4 0 1 (fst q)) /\ inside 2 (position 2 0 1 (snd q)) /\
    interpolate (Fops lnF) scp mem i1 (arr2 [p]) = (i2, Ok (arr2 [(0, 0)%float])).
Proof.
  eexists _, _, _, (near_one, 0x1p-1%float), (1 - / 2 ^ 53, / 2).
  split; [reflexivity|]. split; [vm_compute; reflexivity|]. split; [split; [exact rep_near|exact rep_half]|].
  unfold inside, position. cbn [fst snd].
  split; [cbn [INR]; lra|]. split; [cbn [INR]; lra|]. vm_compute. reflexivity.
Qed.

Lemma inside_grid_zero (lnF : PrimFloat.float -> PrimFloat.float) (scp : scipy PrimFloat.float) fn mem :
  exists (nx ny : nat) px py us x0 x1 y0 y1 i0 i1 i2 p q,
    spans px x0 x1 /\ spans py y0 y1 /\ sane_extent x0 x1 /\ sane_extent y0 y1 /\
    finite_samples us (nx * ny) (fun _ => 1) 1 /\
    create_interpolator (Fops lnF) scp "grid" (Some [nx; ny]) fn = Ok i0 /\
    update (Fops lnF) scp i0 (Mat (nx * ny) [us; us]) (Some (Mat (nx * ny) [px; py])) = (i1, Ok tt) /\
    stand2 p q /\ inside nx (position nx x0 x1 (fst q)) /\ inside ny (position ny y0 y1 (snd q)) /\
    interpolate (Fops lnF) scp mem i1 (arr2 [p]) = (i2, Ok (arr2 [(0, 0)%float])) /\
    forall r, sampled2 nx ny (lattice2 nx (fun _ => 1)) (position nx x0 x1 (fst q), position ny y0 y1 (snd q)) r -> r = 1.
Proof.
  destruct (last_cell lnF scp fn mem) as (i0 & i1 & i2 & p & q & C & U & S & Ix & Iy & E).
  exists 4%nat, 2%nat, edge_x, edge_y, ones8, 0, 1, 0, 1, i0, i1, i2, p, q.
  split; [exact spans_x|]. split; [exact spans_y|]. split; [exact unit_extent|]. split; [exact unit_extent|].
  split; [exact samples_ones|]. split; [exact C|]. split; [exact U|]. split; [exact S|].
  split; [exact Ix|]. split; [exact Iy|]. split; [exact E|]. intros r Hr.
  rewrite (sampled2_pw _ _ _ _ _ _ Ix Iy Hr). unfold pw2, pw, lattice2. ring.
Qed.

Lemma well_case : well_inside 4 (position 4 0 1 (/ 2)) /\ well_inside 2 (position 2 0 1 (/ 2)) /\
  stand2 (0x1p-1, 0x1p-1)%float (/ 2, / 2).
Proof.
  unfold well_inside, position. cbn [INR]. split; [|split]; [lra|lra|split; exact rep_half].
Qed.

Definition cube_x : list PrimFloat.float := [0; 0; 1; 1; 0; 0; 1; 1]%float.
Definition cube_z : list PrimFloat.float := [0; 1; 0; 1; 0; 1; 0; 1]%float.
Lemma spans_01 l : (forall x, In x l -> x = 0%float \/ x = 1%float) -> In 0%float l -> In 1%float l -> spans l 0 1.
Proof.
  intros H H0 H1. split; [|split; [exists 0%float; split; [exact H0|exact rep_0]|exists 1%float; split; [exact H1|exact rep_1]]].
  intros x Hx. destruct (H x Hx) as [-> | ->]; eexists; (split; [first [exact rep_0|exact rep_1]|]); lra.
Qed.
Lemma cube_case : spans cube_x 0 1 /\ spans edge_y 0 1 /\ spans cube_z 0 1 /\ length cube_x = (2 * 2 * 2)%nat /\
  length edge_y = (2 * 2 * 2)%nat /\ length cube_z = (2 * 2 * 2)%nat /\ finite_samples ones8 (2 * 2 * 2) (fun _ => 1) 1 /\
  well_inside 2 (position 2 0 1 (/ 2)) /\ stand3 (0x1p-1, 0x1p-1, 0x1p-1)%float (/ 2, / 2, / 2).
Proof.
  split; [apply spans_01; [intros x Hx; cbn [In cube_x] in Hx; repeat (destruct Hx as [<-|Hx]; [tauto|]); destruct Hx|cbn; tauto|cbn; tauto]|].
  split; [exact spans_y|].
  split; [apply spans_01; [intros x Hx; cbn [In cube_z] in Hx; repeat (destruct Hx as [<-|Hx]; [tauto|]); destruct Hx|cbn; tauto|cbn; tauto]|].
  split; [reflexivity|]. split; [reflexivity|]. split; [reflexivity|]. split; [exact samples_ones|].
  split; [unfold well_inside, position; cbn [INR]; lra|]. split; [exact rep_half|split; exact rep_half].
Qed.
