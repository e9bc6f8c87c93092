(** From the files of a 3D task to the fields its interpolator works with. *)
From Coq Require Import Reals Lia Lra Psatz Floats.
From Flocq Require Import Core BinarySingleNaN PrimFloat.
From Verif Require Import Base Num NdArray Particles Integrate GridInterp Interpolate Readers DataSource Solver FileRun SpecSeeds SpecInterp SpecFtle SpecGrid SpecFiles SpecIntegrate SpecOrder
  SpecFloat64 SpecFloatGrid SpecRounding SpecGridRun SpecGridRun3 FloatKernel FloatAxis FloatFtleRun FloatFtleRun3 GridRunField GridRunFiles GridRunField3.
Local Open Scope R_scope.

Lemma mesh3_length n nz Q a : mesh3 n nz Q a -> length (data a) = (n * n * nz)%nat.
Proof. intros (E & Hw & _). unfold wf_nd in Hw. rewrite Hw, E. unfold size. cbn [fold_right]. lia. Qed.

Lemma mesh3_at n nz Q a i j k : mesh3 n nz Q a -> (i < n)%nat -> (j < n)%nat -> (k < nz)%nat -> let s := sample3 n nz i j k in
  exists x, nth_error (data a) s = Some x /\ represents x (value_at (data a) s) /\ Q i j k (value_at (data a) s).
Proof.
  intros (E & _ & H) Hi Hj Hk s. destruct (H i j k Hi Hj Hk) as (x & X & G & Rx & QX). unfold nd_get in G. rewrite E in G.
  destruct (in_bounds [n; n; nz] [j; i; k]); [|discriminate]. unfold get in G.
  replace (c_ravel [n; n; nz] [j; i; k]) with s in G by (cbn [c_ravel]; unfold size; cbn [fold_right]; unfold s, sample3; lia).
  unfold value_at. destruct (nth_error (data a) s) as [y|]; [|discriminate]. injection G as ->.
  exists x. split; [reflexivity|]. destruct Rx as [R1 <-]. split; [split; [exact R1|reflexivity]|exact QX].
Qed.

Lemma sample3_split n nz s : (s < n * n * nz)%nat -> exists i j k, (i < n)%nat /\ (j < n)%nat /\ (k < nz)%nat /\ s = sample3 n nz i j k.
Proof.
  intro Hs. assert (Hz : (nz <> 0)%nat) by (intro; subst; lia).
  destruct (sample_split n n (s / nz)) as (i & j & Hi & Hj & E); [apply Nat.div_lt_upper_bound; [exact Hz|lia]|].
  exists i, j, (s mod nz)%nat. split; [exact Hi|]. split; [exact Hj|]. split; [apply Nat.mod_upper_bound; exact Hz|].
  unfold sample2 in E. unfold sample3. replace (j * n + i)%nat with (s / nz)%nat by lia. rewrite (Nat.div_mod s nz Hz) at 1. lia.
Qed.

Lemma mesh3_finite n nz Q a M : mesh3 n nz Q a -> (forall i j k X, Q i j k X -> Rabs X <= M) -> finite_samples (data a) (n * n * nz) (value_at (data a)) M.
Proof.
  intros Hm HQ. split; [exact (mesh3_length _ _ _ _ Hm)|]. intros s Hs. destruct (sample3_split n nz s Hs) as (i & j & k & Hi & Hj & Hk & ->).
  destruct (mesh3_at n nz Q a i j k Hm Hi Hj Hk) as (x & E & Rx & QX). exists x. split; [exact E|]. split; [exact Rx|exact (HQ _ _ _ _ QX)].
Qed.

Lemma mesh3_spans n nz Q a lo hi (p q : nat * nat * nat) : mesh3 n nz Q a -> (forall i j k X, Q i j k X -> lo <= X <= hi) ->
  (fst (fst p) < n)%nat -> (snd (fst p) < n)%nat -> (snd p < nz)%nat -> (forall X, Q (fst (fst p)) (snd (fst p)) (snd p) X -> X = lo) ->
  (fst (fst q) < n)%nat -> (snd (fst q) < n)%nat -> (snd q < nz)%nat -> (forall X, Q (fst (fst q)) (snd (fst q)) (snd q) X -> X = hi) -> spans (data a) lo hi.
Proof.
  intros Hm HQ P1 P2 P3 P4 Q1 Q2 Q3 Q4. split; [|split].
  - intros x Hx. apply In_nth_error in Hx. destruct Hx as (s & Es).
    assert (Hs : (s < n * n * nz)%nat) by (rewrite <- (mesh3_length _ _ _ _ Hm); apply nth_error_Some; congruence).
    destruct (sample3_split n nz s Hs) as (i & j & k & Hi & Hj & Hk & ->). destruct (mesh3_at n nz Q a i j k Hm Hi Hj Hk) as (y & E & Ry & QY).
    rewrite Es in E. injection E as <-. eexists. split; [exact Ry|exact (HQ i j k _ QY)].
  - destruct (mesh3_at n nz Q a _ _ _ Hm P1 P2 P3) as (y & E & Ry & QY). exists y. split; [exact (nth_error_In _ _ E)|]. rewrite (P4 _ QY) in Ry. exact Ry.
  - destruct (mesh3_at n nz Q a _ _ _ Hm Q1 Q2 Q3) as (y & E & Ry & QY). exists y. split; [exact (nth_error_In _ _ E)|]. rewrite (Q4 _ QY) in Ry. exact Ry.
Qed.

Lemma stack3 {A} (a b c : list A) n : length a = n -> length b = n -> length c = n -> stack [a; b; c] = Ok (Mat n [a; b; c]).
Proof. intros <- Hb Hc. unfold stack. cbn [forallb]. rewrite Hb, Hc, Nat.eqb_refl. reflexivity. Qed.

Section Task.
  Context (lnF : PrimFloat.float -> PrimFloat.float) (scp : scipy PrimFloat.float) (fs : filesystem PrimFloat.float).
  Local Notation O := (Fops lnF).
  Variables (n nz : nat) (x0 x1 y0 y1 z0 z1 : R).
  Hypothesis Hn : (2 <= n)%nat.
  Hypothesis Hnz : (2 <= nz)%nat.
  Hypothesis Bn : (Z.of_nat n <= INT_MAX)%Z.
  Hypothesis Bz : (Z.of_nat nz <= INT_MAX)%Z.
  Hypothesis Bnz : (Z.of_nat n * Z.of_nat nz <= INT_MAX)%Z.
  Hypothesis Ex : sane_extent x0 x1.
  Hypothesis Ey : sane_extent y0 y1.
  Hypothesis Ez : sane_extent z0 z1.
  Variables (M eps L : R).
  Hypothesis PM : 0 <= M.
  Hypothesis HM : M <= 2 ^ 898.

  (** What step [k] of the task gives to the integrator. *)
  Definition serves3 (src : file_source PrimFloat.float) (v : list R -> list R) (k : nat) (f : list PrimFloat.float -> list PrimFloat.float) : Prop :=
    (forall x, length x = 3%nat -> length (f x) = 3%nat) /\
    (forall s, shaped3 scp n nz s -> exists s', src_update (file_task O scp fs src) s k = (s', Ok tt) /\
       knows3 lnF scp n nz x0 x1 y0 y1 z0 z1 f s') /\
    (forall x q, stands x (row3 q) -> well_in3 n nz x0 x1 y0 y1 z0 z1 q ->
       exists V, stands (f x) V /\ near (sampling_error3 n nz x0 x1 y0 y1 z0 z1 L M eps) V (v (row3 q))).

  Lemma task_step3 src v k vf cf dv dc : nth_error (snapshot_files src) k = Some vf -> nth_error (coordinate_files src) k = Some cf ->
    reuse_coordinates src = false -> fs vf = Ok dv -> fs cf = Ok dc ->
    holds_velocity3 n nz x0 x1 y0 y1 z0 z1 M eps v dv -> holds_grid3 n nz x0 x1 y0 y1 z0 z1 dc -> lipschitz_field 3 L (fun _ => v) ->
    exists f, serves3 src v k f.
  Proof.
    intros Ev Ec Hr Fv Fc (a & b & c & Ea & Eb & Ec0 & Ma & Mb & Mc) (d & e & g & Ed & Ee & Eg & Md & Me & Mg) HL.
    pose proof (mesh3_length _ _ _ _ Ma) as La. pose proof (mesh3_length _ _ _ _ Mb) as Lb. pose proof (mesh3_length _ _ _ _ Mc) as Lc.
    pose proof (mesh3_length _ _ _ _ Md) as Ld. pose proof (mesh3_length _ _ _ _ Me) as Le. pose proof (mesh3_length _ _ _ _ Mg) as Lg.
    destruct (step_field3 lnF scp n nz x0 x1 y0 y1 z0 z1 Hn Hnz Bn Bz Bnz Ex Ey Ez (data d) (data e) (data g) (data a) (data b) (data c)
      (value_at (data a)) (value_at (data b)) (value_at (data c)) M L eps v) as (f & F1 & F2 & F3); try assumption.
    - apply (mesh3_spans _ _ _ _ _ _ (0, 0, 0)%nat (n - 1, 0, 0)%nat Md); cbn [fst snd]; try lia; try (intros; tauto).
      intros X (_ & _ & H). apply H. lia.
    - apply (mesh3_spans _ _ _ _ _ _ (0, 0, 0)%nat (0, n - 1, 0)%nat Me); cbn [fst snd]; try lia; try (intros; tauto).
      intros X (_ & _ & H). apply H. lia.
    - apply (mesh3_spans _ _ _ _ _ _ (0, 0, 0)%nat (0, 0, nz - 1)%nat Mg); cbn [fst snd]; try lia; try (intros; tauto).
      intros X (_ & _ & H). apply H. lia.
    - apply (mesh3_finite _ _ _ _ _ Ma). intros i j l X H. apply H.
    - apply (mesh3_finite _ _ _ _ _ Mb). intros i j l X H. apply H.
    - apply (mesh3_finite _ _ _ _ _ Mc). intros i j l X H. apply H.
    - intros i j l Hi Hj Hl. cbv zeta. destruct (mesh3_at _ _ _ _ i j l Ma Hi Hj Hl) as (_ & _ & _ & H1). destruct (mesh3_at _ _ _ _ i j l Mb Hi Hj Hl) as (_ & _ & _ & H2).
      destruct (mesh3_at _ _ _ _ i j l Mc Hi Hj Hl) as (_ & _ & _ & H3). split; [apply H1|]. split; [apply H2|apply H3].
    - exists f. split; [exact F1|]. split; [|exact F3]. intros s Hs. cbn [file_task file_batch src_update]. unfold get_data_for_step, get.
      rewrite Ev, Ec. cbn [bind]. rewrite Fv. cbn [bind]. unfold read_velocity. rewrite Ea, Eb, Ec0. unfold ravel_c. rewrite (stack3 _ _ _ _ La Lb Lc). cbn [bind].
      rewrite Hr, orb_true_r. rewrite Fc. cbn [bind]. unfold read_coordinate. rewrite Ed, Ee, Eg. unfold ravel_c. rewrite (stack3 _ _ _ _ Ld Le Lg). cbn [bind].
      exact (F2 s Hs).
  Qed.

  Lemma task_fields3 src v : gridded3 fs n nz x0 x1 y0 y1 z0 z1 M eps v (snapshot_files src) (coordinate_files src) -> reuse_coordinates src = false ->
    (forall k, lipschitz_field 3 L (fun _ => v k)) ->
    exists f, forall k, (k < length (snapshot_files src))%nat -> serves3 src (v k) k (f k).
  Proof.
    intros Hg Hr HL. apply (finite_choice n n Hn Hn (fun x => x) (fun k f => serves3 src (v k) k f)). intros k Hk. destruct (Hg k Hk) as (vf & cf & dv & dc & E1 & E2 & E3 & E4 & H1 & H2).
    exact (task_step3 src (v k) k vf cf dv dc E1 E2 Hr E3 E4 H1 H2 (HL k)).
  Qed.
End Task.
