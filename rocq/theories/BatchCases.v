(** Concrete cases for the properties of batches. *)
From Coq Require Import Reals Lra Lia Floats.
From Verif Require Import Base Num NdArray Particles Integrate Interpolate DataSource Solver Batches FileRun Writers AnalyticalRun
  SpecFloat64 AnalyticalFacts BatchFacts PathFacts BatchFloat.
From Flocq Require Import Core BinarySingleNaN.

(** period 1, h = 1/2: three snapshots per window. *)
Local Open Scope R_scope.
Lemma window_case : window_length Rops 1 (1/2) = Ok 3%Z /\ o_ltb Rops (1/2)%R (o_zero Rops) = false.
Proof.
  split.
  - replace 1%R with (IZR 2 * Rabs (1/2))%R at 1; [apply (window_multiple 2); lra|]. rewrite Rabs_pos_eq; lra.
  - cbn. unfold R_ltb. destruct (Rlt_dec (1/2) 0); [lra|reflexivity].
Qed.
Lemma window_back_case : window_length Rops 1 (-(1/2)) = Ok 3%Z /\ o_ltb Rops (-(1/2))%R (o_zero Rops) = true.
Proof.
  split.
  - replace 1%R with (IZR 2 * Rabs (-(1/2)))%R at 1; [apply (window_multiple 2); lra|]. rewrite Rabs_left; lra.
  - cbn. unfold R_ltb. destruct (Rlt_dec (-(1/2)) 0); [reflexivity|lra].
Qed.

(** 0.3 and 0.1 as binary64 numbers. *)
Definition f03 : PrimFloat.float := 0x1.3333333333333p-2%float.
Definition f01 : PrimFloat.float := 0x1.999999999999ap-4%float.
Lemma window_decimal lnF : window_length (Fops lnF) f03 f01 = Ok 3%Z.
Proof. vm_compute. reflexivity. Qed.

Lemma round_64 r k m : bpow radix2 (k - 1) <= Rabs r < bpow radix2 k -> (-1074 <= k - 53)%Z ->
  Rabs (r * bpow radix2 (53 - k) - IZR m) < /2 ->
  rnd64 r = IZR m * bpow radix2 (k - 53).
Proof.
  intros Hr Hk Hm. unfold round, scaled_mantissa, cexp. rewrite (mag_unique radix2 r k Hr).
  unfold FLT_exp. rewrite Z.max_l by lia. replace (- (k - 53))%Z with (53 - k)%Z by lia.
  rewrite (Znearest_imp _ _ m Hm). reflexivity.
Qed.

Lemma near_01 : nearest f01 (1/10).
Proof.
  unfold nearest. rewrite (round_64 (1/10) (-3) 7205759403792794).
  - split; [reflexivity|]. replace (Prim2SF f01) with (S754_finite false 7205759403792794 (-56)) by (vm_compute; reflexivity).
    reflexivity.
  - rewrite Rabs_pos_eq by lra. cbn. lra.
  - lia.
  - apply Rabs_def1; cbn; lra.
Qed.
Lemma near_03 : nearest f03 (IZR 3 * Rabs (1/10)).
Proof.
  unfold nearest. rewrite (Rabs_pos_eq (1/10)) by lra. rewrite (round_64 (IZR 3 * (1/10)) (-1) 5404319552844595).
  - split; [reflexivity|]. replace (Prim2SF f03) with (S754_finite false 5404319552844595 (-54)) by (vm_compute; reflexivity).
    reflexivity.
  - rewrite Rabs_pos_eq by lra. cbn. lra.
  - lia.
  - apply Rabs_def1; cbn; lra.
Qed.
Lemma small_01 : bpow radix2 (-1000) <= Rabs (1/10).
Proof. rewrite Rabs_pos_eq by lra. apply Rle_trans with (bpow radix2 (-4)); [apply bpow_le; lia|cbn; lra]. Qed.

Lemma decimal_refuted lnF : exists period h, nearest h (1/10) /\ nearest period (IZR 3 * Rabs (1/10)) /\
  window_length (Fops lnF) period h = Ok 3%Z.
Proof. exists f03, f01. split; [exact near_01|]. split; [exact near_03|]. apply window_decimal. Qed.

(** 1/4 and 3/4 are binary64 numbers. *)
Lemma exact_case : represents 0x1p-2%float (1/4) /\ represents 0x1.8p-1%float (IZR 3 * Rabs (1/4)).
Proof.
  rewrite (Rabs_pos_eq (1/4)) by lra. split; (split; [reflexivity|]).
  - replace (Prim2SF 0x1p-2%float) with (S754_finite false 4503599627370496 (-54)) by (vm_compute; reflexivity).
    unfold SF2R, F2R; cbn. lra.
  - replace (Prim2SF 0x1.8p-1%float) with (S754_finite false 6755399441055744 (-53)) by (vm_compute; reflexivity).
    unfold SF2R, F2R; cbn. lra.
Qed.

Lemma analytical_kept (scp : scipy R) imems eigvals mems wr m n h i j a b x y qu use (w : world R (istate scp) (particles R) (@wstate R)) :
  (0 < n)%nat -> 1/1000000 <= Rabs h -> i <> j ->
  nth_error (analytical_tasks Rops scp format6 (Z.of_nat m) (Z.of_nat n) h) i = Some a ->
  nth_error (analytical_tasks Rops scp format6 (Z.of_nat m) (Z.of_nat n) h) j = Some b ->
  src_id a = Ok x -> src_id b = Ok y ->
  let p := output_path wr (append "ftle_" x) in
  p <> output_path wr (append "ftle_" y) /\
  w_files (w_writer (fst (analytical_worker Rops scp imems eigvals mems (write Rops wr) b qu use w))) p = w_files (w_writer w) p.
Proof.
  intros Hn Hh Hij Ha Hb Hx Hy p.
  assert (G : p <> output_path wr (append "ftle_" y)).
  { intro H. apply task_path_inj in H. apply (ids_distinct scp m n h i j a b Hn Hh Hij Ha Hb). congruence. }
  split; [exact G|]. apply analytical_only. intros id Hid. rewrite Hy in Hid. injection Hid as <-. exact G.
Qed.

Lemma analytical_collide (scp : scipy R) n h : (0 < n)%nat -> 0 < h < 1/2000000 -> exists a b x,
  nth_error (analytical_tasks Rops scp format6 2 (Z.of_nat n) h) 0 = Some a /\
  nth_error (analytical_tasks Rops scp format6 2 (Z.of_nat n) h) 1 = Some b /\ src_id a = Ok x /\ src_id b = Ok x.
Proof.
  intros Hn Hh. destruct (ids_collide scp n h Hn Hh) as (a & b & Ha & Hb & E).
  pose proof (task_id scp 2 n h 0 a Hn Ha) as Hx. exists a, b. eexists. split; [exact Ha|]. split; [exact Hb|].
  split; [exact Hx|]. rewrite <- E. exact Hx.
Qed.

Lemma names_case : exists tasks, file_tasks Rops ["d/v0.mat"; "d/v1.mat"; "d/v2.mat"; "d/v3.mat"]%string ["c.mat"]%string ["p.mat"]%string 1 (1/2) = Ok tasks /\ length tasks = 2%nat.
Proof.
  destruct window_case as [W L].
  destruct (windows Rops ["d/v0.mat"; "d/v1.mat"; "d/v2.mat"; "d/v3.mat"]%string ["c.mat"]%string ["p.mat"]%string 1 (1/2) 3 L W) as (t & E & El & _);
    [cbn; lia|discriminate|discriminate|]. exists t. split; [exact E|]. rewrite El. reflexivity.
Qed.
