(** From the files of a task to the fields its interpolator works with. *)
From Coq Require Import Reals Lia Lra Psatz Floats.
From Flocq Require Import Core BinarySingleNaN PrimFloat.
From Verif Require Import Base Num NdArray Particles Integrate GridInterp Interpolate Readers DataSource Solver FileRun SpecSeeds SpecInterp SpecGrid SpecFiles SpecIntegrate SpecOrder
  SpecFloat64 SpecFloatGrid SpecRounding SpecGridRun FloatKernel FloatAxis FloatFtleRun GridRunField.
Local Open Scope R_scope.

Definition value_at (l : list PrimFloat.float) (k : nat) : R := match nth_error l k with Some x => value x | None => 0 end.

Lemma mesh_length nx ny Q a : mesh nx ny Q a -> length (data a) = (nx * ny)%nat.
Proof. intros (E & Hw & _). unfold wf_nd in Hw. rewrite Hw, E. cbn [size fold_right]. unfold size. cbn. lia. Qed.

Lemma mesh_at nx ny Q a i j : mesh nx ny Q a -> (i < nx)%nat -> (j < ny)%nat ->
  exists x, nth_error (data a) (sample2 nx i j) = Some x /\ represents x (value_at (data a) (sample2 nx i j)) /\ Q i j (value_at (data a) (sample2 nx i j)).
Proof.
  intros (E & _ & H) Hi Hj. destruct (H i j Hi Hj) as (x & X & G & Rx & QX). unfold nd_get in G. rewrite E in G.
  destruct (in_bounds [ny; nx] [j; i]); [|discriminate]. unfold get in G.
  replace (c_ravel [ny; nx] [j; i]) with (sample2 nx i j) in G by (cbn; unfold sample2; lia).
  unfold value_at. destruct (nth_error (data a) (sample2 nx i j)) as [y|]; [|discriminate]. injection G as ->.
  exists x. split; [reflexivity|]. destruct Rx as [R1 <-]. split; [split; [exact R1|reflexivity]|exact QX].
Qed.

Lemma sample_split nx ny k : (k < nx * ny)%nat -> exists i j, (i < nx)%nat /\ (j < ny)%nat /\ k = sample2 nx i j.
Proof.
  intro Hk. assert (nx <> 0)%nat by (intro; subst; lia). exists (k mod nx)%nat, (k / nx)%nat.
  split; [apply Nat.mod_upper_bound; assumption|]. split; [apply Nat.div_lt_upper_bound; assumption|].
  unfold sample2. rewrite Nat.add_comm. apply Nat.div_mod. assumption.
Qed.

Lemma mesh_finite nx ny Q a M : mesh nx ny Q a -> (forall i j X, Q i j X -> Rabs X <= M) -> finite_samples (data a) (nx * ny) (value_at (data a)) M.
Proof.
  intros Hm HQ. split; [exact (mesh_length _ _ _ _ Hm)|]. intros k Hk. destruct (sample_split nx ny k Hk) as (i & j & Hi & Hj & ->).
  destruct (mesh_at nx ny Q a i j Hm Hi Hj) as (x & E & Rx & QX). exists x. split; [exact E|]. split; [exact Rx|exact (HQ _ _ _ QX)].
Qed.

Lemma mesh_spans nx ny Q a lo hi p q : mesh nx ny Q a -> (forall i j X, (i < nx)%nat -> (j < ny)%nat -> Q i j X -> lo <= X <= hi) ->
  (fst p < nx)%nat -> (snd p < ny)%nat -> (forall X, Q (fst p) (snd p) X -> X = lo) ->
  (fst q < nx)%nat -> (snd q < ny)%nat -> (forall X, Q (fst q) (snd q) X -> X = hi) -> spans (data a) lo hi.
Proof.
  intros Hm HQ P1 P2 P3 Q1 Q2 Q3. split; [|split].
  - intros x Hx. apply In_nth_error in Hx. destruct Hx as (k & Ek).
    assert (Hk : (k < nx * ny)%nat) by (rewrite <- (mesh_length _ _ _ _ Hm); apply nth_error_Some; congruence).
    destruct (sample_split nx ny k Hk) as (i & j & Hi & Hj & ->). destruct (mesh_at nx ny Q a i j Hm Hi Hj) as (y & E & Ry & QY).
    rewrite Ek in E. injection E as <-. exists (value_at (data a) (sample2 nx i j)). split; [exact Ry|exact (HQ i j _ Hi Hj QY)].
  - destruct (mesh_at nx ny Q a _ _ Hm P1 P2) as (y & E & Ry & QY). exists y. split; [exact (nth_error_In _ _ E)|]. rewrite (P3 _ QY) in Ry. exact Ry.
  - destruct (mesh_at nx ny Q a _ _ Hm Q1 Q2) as (y & E & Ry & QY). exists y. split; [exact (nth_error_In _ _ E)|]. rewrite (Q3 _ QY) in Ry. exact Ry.
Qed.

Lemma stack2 {A} (a b : list A) n : length a = n -> length b = n -> stack [a; b] = Ok (Mat n [a; b]).
Proof. intros <- Hb. unfold stack. cbn [forallb]. rewrite Hb, Nat.eqb_refl. reflexivity. Qed.

Section Task.
  Context (lnF : PrimFloat.float -> PrimFloat.float) (scp : scipy PrimFloat.float) (fs : filesystem PrimFloat.float).
  Local Notation O := (Fops lnF).
  Variables (nx ny : nat) (x0 x1 y0 y1 : R).
  Hypothesis Hnx : (2 <= nx)%nat.
  Hypothesis Hny : (2 <= ny)%nat.
  Hypothesis Bx : (Z.of_nat nx <= INT_MAX)%Z.
  Hypothesis By : (Z.of_nat ny <= INT_MAX)%Z.
  Hypothesis Ex : sane_extent x0 x1.
  Hypothesis Ey : sane_extent y0 y1.
  Variables (M eps L : R).
  Hypothesis PM : 0 <= M.
  Hypothesis HM : M <= 2 ^ 898.

  (** What step [k] of the task gives to the integrator. *)
  Definition serves (src : file_source PrimFloat.float) (v : list R -> list R) (k : nat) (f : list PrimFloat.float -> list PrimFloat.float) : Prop :=
    (forall x, length x = 2%nat -> length (f x) = 2%nat) /\
    (forall s, shaped scp nx ny s -> exists s', src_update (file_task O scp fs src) s k = (s', Ok tt) /\
       knows lnF scp nx ny x0 x1 y0 y1 f s') /\
    (forall x q, stands x (row2 q) -> well_inside nx (position nx x0 x1 (fst q)) -> well_inside ny (position ny y0 y1 (snd q)) ->
       exists V, stands (f x) V /\ near (sampling_error nx ny x0 x1 y0 y1 L M eps) V (v (row2 q))).

  Lemma task_step src v k vf cf dv dc : nth_error (snapshot_files src) k = Some vf -> nth_error (coordinate_files src) k = Some cf ->
    reuse_coordinates src = false -> fs vf = Ok dv -> fs cf = Ok dc ->
    holds_velocity nx ny x0 x1 y0 y1 M eps v dv -> holds_grid nx ny x0 x1 y0 y1 dc -> lipschitz_field 2 L (fun _ => v) ->
    exists f, serves src v k f.
  Proof.
    intros Ev Ec Hr Fv Fc (a & b & Ea & Eb & Ez & Ma & Mb) (c & d & Ec' & Ed & Ez' & Mc & Md) HL.
    pose proof (mesh_length _ _ _ _ Ma) as La. pose proof (mesh_length _ _ _ _ Mb) as Lb.
    pose proof (mesh_length _ _ _ _ Mc) as Lc. pose proof (mesh_length _ _ _ _ Md) as Ld.
    destruct (step_field lnF scp nx ny x0 x1 y0 y1 Hnx Hny Bx By Ex Ey (data c) (data d) (data a) (data b)
      (value_at (data a)) (value_at (data b)) M L eps v) as (f & F1 & F2 & F3); try assumption.
    - apply (mesh_spans _ _ _ _ _ _ (0, 0)%nat (nx - 1, 0)%nat Mc); cbn [fst snd]; try lia; try (intros; tauto).
      intros X (_ & _ & H). apply H. lia.
    - apply (mesh_spans _ _ _ _ _ _ (0, 0)%nat (0, ny - 1)%nat Md); cbn [fst snd]; try lia; try (intros; tauto).
      intros X (_ & _ & H). apply H. lia.
    - apply (mesh_finite _ _ _ _ _ Ma). intros i j X H. apply H.
    - apply (mesh_finite _ _ _ _ _ Mb). intros i j X H. apply H.
    - intros i j Hi Hj. destruct (mesh_at _ _ _ _ i j Ma Hi Hj) as (_ & _ & _ & H). apply H.
    - intros i j Hi Hj. destruct (mesh_at _ _ _ _ i j Mb Hi Hj) as (_ & _ & _ & H). apply H.
    - exists f. split; [exact F1|]. split; [|exact F3]. intros s Hs. cbn [file_task file_batch src_update]. unfold get_data_for_step, get.
      rewrite Ev, Ec. cbn [bind]. rewrite Fv. cbn [bind]. unfold read_velocity. rewrite Ea, Eb, Ez. unfold ravel_c. rewrite (stack2 _ _ _ La Lb). cbn [bind].
      rewrite Hr, orb_true_r. rewrite Fc. cbn [bind]. unfold read_coordinate. rewrite Ec', Ed, Ez'. unfold ravel_c. rewrite (stack2 _ _ _ Lc Ld). cbn [bind].
      exact (F2 s Hs).
  Qed.

  Lemma finite_choice {A} (a0 : A) (Q : nat -> A -> Prop) n : (forall k, (k < n)%nat -> exists a, Q k a) -> exists F, forall k, (k < n)%nat -> Q k (F k).
  Proof.
    induction n as [|n IH]; intro H; [exists (fun _ => a0); intros k Hk; lia|].
    destruct IH as (F & HF); [intros k Hk; apply H; lia|]. destruct (H n (le_n _)) as (a & Ha).
    exists (fun k => if Nat.eq_dec k n then a else F k). intros k Hk. destruct (Nat.eq_dec k n) as [->|]; [exact Ha|apply HF; lia].
  Qed.

  Lemma task_fields src v : gridded fs nx ny x0 x1 y0 y1 M eps v (snapshot_files src) (coordinate_files src) -> reuse_coordinates src = false ->
    (forall k, lipschitz_field 2 L (fun _ => v k)) ->
    exists f, forall k, (k < length (snapshot_files src))%nat -> serves src (v k) k (f k).
  Proof.
    intros Hg Hr HL. apply (finite_choice (fun x => x) (fun k f => serves src (v k) k f)). intros k Hk. destruct (Hg k Hk) as (vf & cf & dv & dc & E1 & E2 & E3 & E4 & H1 & H2).
    exact (task_step src (v k) k vf cf dv dc E1 E2 Hr E3 E4 H1 H2 (HL k)).
  Qed.
End Task.

Lemma not_reused {T} snapshots coordinates particle (h : T) period f : mk_file_source snapshots coordinates particle h period = Ok f ->
  (exists a b, In a coordinates /\ In b coordinates /\ a <> b) -> reuse_coordinates f = false.
Proof.
  intros E (a & b & Ha & Hb & Hab). unfold mk_file_source in E. destruct snapshots; [discriminate|]. injection E as <-. cbn [reuse_coordinates].
  apply Nat.eqb_neq. intro E. apply (nodup_In string_dec) in Ha, Hb.
  destruct (nodup string_dec coordinates) as [|x [|y l]]; try discriminate. destruct Ha as [<-|[]]. destruct Hb as [<-|[]]. exact (Hab eq_refl).
Qed.
