(** Rounding of the time integration: whole runs, and the distance to the trajectory. *)
From Coq Require Import Reals Lia Lra Psatz Floats.
From Flocq Require Import Core BinarySingleNaN PrimFloat.
From Verif Require Import Base Num Particles Integrate SpecIntegrate SpecOrder SpecFloat64 SpecRounding OrderFacts OrderAB2 OrderRK4 OrderLinear IntegrateReal
  IntegratePoint IntegrateMisc FloatArith FloatGrid FloatKernel FloatAxis FloatVec FloatSteps FloatPath.
Local Open Scope R_scope.

Section Runs.
  Context (lnF : PrimFloat.float -> PrimFloat.float).
  Context {SF : Type} (intF : SF -> mat PrimFloat.float -> SF * res (mat PrimFloat.float))
    (IF : (list PrimFloat.float -> list PrimFloat.float) -> SF -> Prop) (HIF : samples_field intF IF).

  Lemma float_run (Q : list PrimFloat.float -> list R -> Prop) m f hF n (Z : list R -> Prop) :
    (forall x X, stands x X -> Z X -> Q (path (Fops lnF) m (steps f hF n) x) X) ->
    forall mems k hist w s p Xs, presents IF hist (steps f hF n) -> IF w s ->
    Forall2 stands (mrows (positions p)) Xs -> Forall Z Xs ->
    exists i' s' p', integrate_seq (Fops lnF) intF mems k (fresh m) s hist p = (i', s', p', Ok tt) /\
      Forall2 Q (mrows (positions p')) Xs.
  Proof.
    intros H mems k hist w s p Xs Hp Hs HX HZ.
    destruct (seq_path (Fops lnF) intF IF HIF mems k m hist (steps f hF n) w s p Hp Hs) as (i' & s' & E).
    exists i', s'. eexists. split; [exact E|]. destruct p as [pos ? ? ?]. cbn [set_positions positions mrows] in *.
    clear E. revert HZ. induction HX as [|x X xs Xs Hx HX IH]; intro HZ; cbn [map]; [constructor|]. inversion HZ as [|? ? Z1 Z2]; subst.
    constructor; [exact (H x X Hx Z1)|exact (IH Z2)].
  Qed.
End Runs.

Lemma Forall2_imp {A B} (P Q : A -> B -> Prop) l m : (forall a b, P a b -> Q a b) -> Forall2 P l m -> Forall2 Q l m.
Proof. intro H. induction 1; constructor; auto. Qed.
Lemma Forall2_map_r {A B C} (P : A -> C -> Prop) (g : B -> C) l m : Forall2 (fun a b => P a (g b)) l m -> Forall2 P l (map g m).
Proof. induction 1; cbn; constructor; assumption. Qed.

Lemma runs_round : forall lnF {SF} (intF : SF -> mat PrimFloat.float -> SF * res (mat PrimFloat.float)) IF, samples_field intF IF ->
  forall {SR} (intR : SR -> mat R -> SR * res (mat R)) IR, samples_field intR IR ->
  forall m d B B0 M delta L n h hF f v,
  / 2 ^ 100 <= B <= 2 ^ 800 -> / 2 ^ 500 <= M -> 0 <= delta -> 0 <= L -> M + delta <= 2 ^ 800 -> Rabs h <= 2 ^ 800 ->
  INR n <= 2 ^ 47 -> 2 * (B0 + 3 * (INR n * Rabs h * (M + delta))) <= B -> (m = MRK4 -> Rabs h * L <= 1) -> represents hF h ->
  (forall k, (k < n)%nat -> evaluates d B delta (f k) (v k) /\ speed d B M (v k) /\ lipschitz_field d L (fun _ => v k)) ->
  forall memF kF histF wF sF pF memR kR histR wR sR pR,
  presents IF histF (steps f hF n) -> presents IR histR (steps v h n) -> IF wF sF -> IR wR sR ->
  Forall2 stands (mrows (positions pF)) (mrows (positions pR)) ->
  Forall (fun X => length X = d /\ sized B0 X) (mrows (positions pR)) ->
  exists iF' sF' pF' iR' sR' pR',
    integrate_seq (Fops lnF) intF memF kF (fresh m) sF histF pF = (iF', sF', pF', Ok tt) /\
    integrate_seq Rops intR memR kR (fresh m) sR histR pR = (iR', sR', pR', Ok tt) /\
    Forall2 (fun x X => exists Y, stands x Y /\
        near (INR n * (2 * Rabs h * delta + B / 2 ^ 50) * exp (2 * (INR n * Rabs h * L))) Y X)
      (mrows (positions pF')) (mrows (positions pR')).
Proof.
  intros lnF SF intF IF HIF SR intR IR HIR m d B B0 M delta L n h hF f v H1 H2 H3 H4 H5 H6 H7 H8 H9 H10 H11
    memF kF histF wF sF pF memR kR histR wR sR pR PF PR JF JR HX HZ.
  destruct (float_run lnF intF IF HIF (fun x X => exists Y, stands x Y /\
        near (INR n * (2 * Rabs h * delta + B / 2 ^ 50) * exp (2 * (INR n * Rabs h * L))) Y (path Rops m (steps v h n) X)) m f hF n
     (fun X => length X = d /\ sized B0 X)) with (mems := memF) (k := kF) (hist := histF) (w := wF) (s := sF) (p := pF) (Xs := mrows (positions pR))
    as (i' & s' & p' & E & F); try assumption.
  { intros x X Sx [LX SX]. apply (point_rounds lnF m d B B0 M delta L); assumption. }
  destruct (seq_path Rops intR IR HIR memR kR m histR (steps v h n) wR sR pR PR JR) as (j' & t' & ER).
  exists i', s', p', j', t'. eexists. split; [exact E|]. split; [exact ER|].
  destruct pR as [pos ? ? ?]. cbn [set_positions positions mrows] in *. apply Forall2_map_r. exact F.
Qed.

(** The error to the trajectory: rounding, plus the error of the method. *)
Lemma rounds_and_tracks : forall lnF {SF} (intF : SF -> mat PrimFloat.float -> SF * res (mat PrimFloat.float)) IF, samples_field intF IF ->
  forall m d B B0 M delta L n h hF f v t0,
  / 2 ^ 100 <= B <= 2 ^ 800 -> / 2 ^ 500 <= M -> 0 <= delta -> 0 <= L -> M + delta <= 2 ^ 800 -> Rabs h <= 2 ^ 800 ->
  INR n <= 2 ^ 47 -> 2 * (B0 + 3 * (INR n * Rabs h * (M + delta))) <= B -> (m = MRK4 -> Rabs h * L <= 1) -> represents hF h ->
  lipschitz_field d L v ->
  (forall k, (k < n)%nat -> evaluates d B delta (f k) (v (t0 + INR k * h)) /\ speed d B M (v (t0 + INR k * h))) ->
  forall (C : list R -> (R -> list R) -> Prop) E0, 
  (forall X y, C X y -> near E0 (path Rops m (snapshots v t0 h n) X) (y (t0 + INR n * h))) ->
  forall mems k hist w s p Xs,
  presents IF hist (steps f hF n) -> IF w s ->
  Forall2 stands (mrows (positions p)) Xs -> Forall (fun X => length X = d /\ sized B0 X) Xs ->
  exists i' s' p', integrate_seq (Fops lnF) intF mems k (fresh m) s hist p = (i', s', p', Ok tt) /\
    Forall2 (fun x X => exists Y, stands x Y /\ forall y, C X y ->
        near (INR n * (2 * Rabs h * delta + B / 2 ^ 50) * exp (2 * (INR n * Rabs h * L)) + E0) Y (y (t0 + INR n * h)))
      (mrows (positions p')) Xs.
Proof.
  intros lnF SF intF IF HIF m d B B0 M delta L n h hF f v t0 H1 H2 H3 H4 H5 H6 H7 H8 H9 H10 HL Hf C E0 HC mems k hist w s p Xs PF JF HX HZ.
  apply (float_run lnF intF IF HIF) with (m := m) (f := f) (hF := hF) (n := n) (w := w) (Z := fun X => length X = d /\ sized B0 X); try assumption.
  intros x X Sx [LX SX].
  destruct (point_rounds lnF m d B B0 M delta L n h hF f (fun k => v (t0 + INR k * h)) H1 H2 H3 H4 H5 H6 H7 H8 H9 H10) with (x := x) (X := X) as (Y & SY & NY); try assumption.
  { intros j Hj. destruct (Hf j Hj) as [A1 A2]. split; [exact A1|]. split; [exact A2|].
    destruct HL as [K1 K2]. split; [intro; apply K1|intro; apply K2]. }
  exists Y. split; [exact SY|]. intros y Hy. eapply near_trans; [exact NY|]. exact (HC X y Hy).
Qed.

Lemma euler_true : forall lnF {SF} (intF : SF -> mat PrimFloat.float -> SF * res (mat PrimFloat.float)) IF, samples_field intF IF ->
  forall d B B0 M delta L K n h hF f v t0,
  / 2 ^ 100 <= B <= 2 ^ 800 -> / 2 ^ 500 <= M -> 0 <= delta -> 0 <= L -> M + delta <= 2 ^ 800 -> Rabs h <= 2 ^ 800 ->
  INR n <= 2 ^ 47 -> 2 * (B0 + 3 * (INR n * Rabs h * (M + delta))) <= B -> represents hF h -> 0 <= K ->
  lipschitz_field d L v ->
  (forall k, (k < n)%nat -> evaluates d B delta (f k) (v (t0 + INR k * h)) /\ speed d B M (v (t0 + INR k * h))) ->
  forall mems k hist w s p Xs,
  presents IF hist (steps f hF n) -> IF w s ->
  Forall2 stands (mrows (positions p)) Xs -> Forall (fun X => length X = d /\ sized B0 X) Xs ->
  exists i' s' p', integrate_seq (Fops lnF) intF mems k (fresh MEuler) s hist p = (i', s', p', Ok tt) /\
    Forall2 (fun x X => exists Y, stands x Y /\ forall y, y t0 = X -> trajectory d v t0 (t0 + INR n * h) y ->
        rate t0 (t0 + INR n * h) K (fun t => v t (y t)) ->
        near (INR n * (2 * Rabs h * delta + B / 2 ^ 50) * exp (2 * (INR n * Rabs h * L)) +
          Rabs h * (INR n * Rabs h * K * exp (INR n * Rabs h * L))) Y (y (t0 + INR n * h)))
      (mrows (positions p')) Xs.
Proof.
  intros lnF SF intF IF HIF d B B0 M delta L K n h hF f v t0 H1 H2 H3 H4 H5 H6 H7 H8 H10 HK HL Hf mems k hist w s p Xs PF JF HX HZ.
  destruct (rounds_and_tracks lnF intF IF HIF MEuler d B B0 M delta L n h hF f v t0 H1 H2 H3 H4 H5 H6 H7 H8 ltac:(discriminate) H10 HL Hf
    (fun X y => y t0 = X /\ trajectory d v t0 (t0 + INR n * h) y /\ rate t0 (t0 + INR n * h) K (fun t => v t (y t)))
    (Rabs h * (INR n * Rabs h * K * exp (INR n * Rabs h * L)))) with (mems := mems) (k := k) (hist := hist) (w := w) (s := s) (p := p) (Xs := Xs)
    as (i' & s' & p' & E & F); try assumption.
  - intros X y (<- & A1 & A2). eapply euler_order; try eassumption; reflexivity.
  - exists i', s', p'. split; [exact E|]. eapply Forall2_imp; [|exact F].
    cbn. intros x X (Y & SY & G). exists Y. split; [exact SY|]. intros y A1 A2 A3. exact (G y (conj A1 (conj A2 A3))).
Qed.

Lemma ab2_true : forall lnF {SF} (intF : SF -> mat PrimFloat.float -> SF * res (mat PrimFloat.float)) IF, samples_field intF IF ->
  forall d B B0 M delta L K J n h hF f v t0,
  / 2 ^ 100 <= B <= 2 ^ 800 -> / 2 ^ 500 <= M -> 0 <= delta -> 0 <= L -> M + delta <= 2 ^ 800 -> Rabs h <= 2 ^ 800 ->
  INR n <= 2 ^ 47 -> 2 * (B0 + 3 * (INR n * Rabs h * (M + delta))) <= B -> represents hF h -> 0 <= K -> 0 <= J ->
  lipschitz_field d L v ->
  (forall k, (k < n)%nat -> evaluates d B delta (f k) (v (t0 + INR k * h)) /\ speed d B M (v (t0 + INR k * h))) ->
  forall mems k hist w s p Xs,
  presents IF hist (steps f hF n) -> IF w s ->
  Forall2 stands (mrows (positions p)) Xs -> Forall (fun X => length X = d /\ sized B0 X) Xs ->
  exists i' s' p', integrate_seq (Fops lnF) intF mems k (fresh MAB2) s hist p = (i', s', p', Ok tt) /\
    Forall2 (fun x X => exists Y, stands x Y /\ forall y acc, y t0 = X -> trajectory d v t0 (t0 + INR n * h) y ->
        rate t0 (t0 + INR n * h) K (fun t => v t (y t)) ->
        derivative t0 (t0 + INR n * h) (fun t => v t (y t)) acc -> rate t0 (t0 + INR n * h) J acc ->
        near (INR n * (2 * Rabs h * delta + B / 2 ^ 50) * exp (2 * (INR n * Rabs h * L)) +
          h * h * ((K + 3 / 2 * J * (INR n * Rabs h)) * exp (2 * (INR n * Rabs h * L)))) Y (y (t0 + INR n * h)))
      (mrows (positions p')) Xs.
Proof.
  intros lnF SF intF IF HIF d B B0 M delta L K J n h hF f v t0 H1 H2 H3 H4 H5 H6 H7 H8 H10 HK HJ HL Hf mems k hist w s p Xs PF JF HX HZ.
  destruct (rounds_and_tracks lnF intF IF HIF MAB2 d B B0 M delta L n h hF f v t0 H1 H2 H3 H4 H5 H6 H7 H8 ltac:(discriminate) H10 HL Hf
    (fun X y => exists acc, y t0 = X /\ trajectory d v t0 (t0 + INR n * h) y /\ rate t0 (t0 + INR n * h) K (fun t => v t (y t)) /\
       derivative t0 (t0 + INR n * h) (fun t => v t (y t)) acc /\ rate t0 (t0 + INR n * h) J acc)
    (h * h * ((K + 3 / 2 * J * (INR n * Rabs h)) * exp (2 * (INR n * Rabs h * L))))) with (mems := mems) (k := k) (hist := hist) (w := w) (s := s) (p := p) (Xs := Xs)
    as (i' & s' & p' & E & F); try assumption.
  - intros X y (acc & <- & A1 & A2 & A3 & A4). eapply ab2_order; try eassumption; reflexivity.
  - exists i', s', p'. split; [exact E|]. eapply Forall2_imp; [|exact F].
    cbn. intros x X (Y & SY & G). exists Y. split; [exact SY|]. intros y acc A1 A2 A3 A4 A5.
    exact (G y (ex_intro _ acc (conj A1 (conj A2 (conj A3 (conj A4 A5)))))).
Qed.

Lemma rk4_true : forall lnF {SF} (intF : SF -> mat PrimFloat.float -> SF * res (mat PrimFloat.float)) IF, samples_field intF IF ->
  forall d B B0 M delta L K V n h hF f v t0,
  / 2 ^ 100 <= B <= 2 ^ 800 -> / 2 ^ 500 <= M -> 0 <= delta -> 0 <= L -> M + delta <= 2 ^ 800 -> Rabs h <= 2 ^ 800 ->
  INR n <= 2 ^ 47 -> 2 * (B0 + 3 * (INR n * Rabs h * (M + delta))) <= B -> Rabs h * L <= 1 -> represents hF h -> 0 <= K ->
  lipschitz_field d L v ->
  (forall k, (k < n)%nat -> evaluates d B delta (f k) (v (t0 + INR k * h)) /\ speed d B M (v (t0 + INR k * h))) ->
  forall mems k hist w s p Xs,
  presents IF hist (steps f hF n) -> IF w s ->
  Forall2 stands (mrows (positions p)) Xs -> Forall (fun X => length X = d /\ sized B0 X) Xs ->
  exists i' s' p', integrate_seq (Fops lnF) intF mems k (fresh MRK4) s hist p = (i', s', p', Ok tt) /\
    Forall2 (fun x X => exists Y, stands x Y /\ forall y, y t0 = X -> trajectory d v t0 (t0 + INR n * h) y ->
        rate t0 (t0 + INR n * h) K (fun t => v t (y t)) ->
        (forall t i, between t0 (t0 + INR n * h) t -> Rabs (coord i (v t (y t))) <= V) ->
        near (INR n * (2 * Rabs h * delta + B / 2 ^ 50) * exp (2 * (INR n * Rabs h * L)) +
          Rabs h * (INR n * Rabs h * (K + L * V) * exp (INR n * Rabs h * L))) Y (y (t0 + INR n * h)))
      (mrows (positions p')) Xs.
Proof.
  intros lnF SF intF IF HIF d B B0 M delta L K V n h hF f v t0 H1 H2 H3 H4 H5 H6 H7 H8 HhL H10 HK HL Hf mems k hist w s p Xs PF JF HX HZ.
  destruct (rounds_and_tracks lnF intF IF HIF MRK4 d B B0 M delta L n h hF f v t0 H1 H2 H3 H4 H5 H6 H7 H8 (fun _ => HhL) H10 HL Hf
    (fun X y => y t0 = X /\ trajectory d v t0 (t0 + INR n * h) y /\ rate t0 (t0 + INR n * h) K (fun t => v t (y t)) /\
       (forall t i, between t0 (t0 + INR n * h) t -> Rabs (coord i (v t (y t))) <= V))
    (Rabs h * (INR n * Rabs h * (K + L * V) * exp (INR n * Rabs h * L)))) with (mems := mems) (k := k) (hist := hist) (w := w) (s := s) (p := p) (Xs := Xs)
    as (i' & s' & p' & E & F); try assumption.
  - intros X y (<- & A1 & A2 & A3). eapply rk4_first_order; try eassumption; reflexivity.
  - exists i', s', p'. split; [exact E|]. eapply Forall2_imp; [|exact F].
    cbn. intros x X (Y & SY & G). exists Y. split; [exact SY|]. intros y A1 A2 A3 A4. exact (G y (conj A1 (conj A2 (conj A3 A4)))).
Qed.

(** The saddle (x, y) -> (y, x), evaluated without rounding; a particle at (1, 1), eight steps of 1/64. *)
Definition saddle {T} (x : list T) : list T := match x with [a; b] => [b; a] | _ => x end.

Lemma saddle_evaluates B : 0 <= B -> evaluates 2 B 0 saddle saddle.
Proof.
  intros HB x X HX Sx SX. destruct X as [|a [|b [|]]]; try discriminate. inversion Sx as [|? ? ? ? Ra Sx1]; subst.
  inversion Sx1 as [|? ? ? ? Rb Sx2]; subst. inversion Sx2; subst. exists [b; a]. split; [|apply near_refl].
  cbn. apply Forall2_cons; [exact Rb|]. apply Forall2_cons; [exact Ra|]. apply Forall2_nil.
Qed.
Lemma saddle_speed B : speed 2 B B saddle.
Proof.
  intros X HX SX. destruct X as [|a [|b [|]]]; try discriminate. intro i. pose proof (SX 0%nat) as A. pose proof (SX 1%nat) as C.
  pose proof (SX 2%nat) as D. cbn in A, C, D. destruct i as [|[|i]]; cbn; [exact C|exact A|]. destruct i; exact D.
Qed.
Lemma saddle_lipschitz : lipschitz_field 2 1 (fun _ => saddle).
Proof.
  split.
  - intros t x Hx. destruct x as [|a [|b [|]]]; try discriminate. reflexivity.
  - intros t x y e Hx Hy [_ N]. destruct x as [|a [|b [|]]]; try discriminate. destruct y as [|c [|d [|]]]; try discriminate.
    split; [reflexivity|]. pose proof (N 0%nat) as A. pose proof (N 1%nat) as C. pose proof (N 2%nat) as D. cbn in A, C, D.
    rewrite Rmult_1_l. intro i. destruct i as [|[|i]]; cbn; [exact C|exact A|]. destruct i; exact D.
Qed.

Lemma rounding_case : / 2 ^ 100 <= 8 <= 2 ^ 800 /\ / 2 ^ 500 <= 8 /\ 8 + 0 <= 2 ^ 800 /\ Rabs (1 / 64) <= 2 ^ 800 /\ INR 8 <= 2 ^ 47 /\
  2 * (1 + 3 * (INR 8 * Rabs (1 / 64) * (8 + 0))) <= 8 /\ Rabs (1 / 64) * 1 <= 1 /\ represents 0.015625%float (1 / 64) /\
  evaluates 2 8 0 saddle saddle /\ speed 2 8 8 saddle /\ lipschitz_field 2 1 (fun _ => saddle) /\
  stands [1; 1]%float [1; 1] /\ sized 1 [1; 1].
Proof.
  assert (A64 : Rabs (1 / 64) = 1 / 64) by (apply Rabs_pos_eq; lra).
  assert (P100 : / 2 ^ 100 <= 1) by (rewrite <- Rinv_1; apply Rinv_le_contravar; [lra|apply pow_R1_Rle; lra]).
  assert (P500 : / 2 ^ 500 <= 1) by (rewrite <- Rinv_1; apply Rinv_le_contravar; [lra|apply pow_R1_Rle; lra]).
  assert (P800 : 8 <= 2 ^ 800).
  { change 800%nat with (3 + 797)%nat. rewrite pow_add. pose proof (pow_R1_Rle 2 797 ltac:(lra)). cbn [pow]. lra. }
  assert (I8 : INR 8 = 8) by (cbn; lra).
  rewrite A64, I8.
  split; [lra|]. split; [lra|]. split; [lra|]. split; [lra|]. split; [cbn [pow]; lra|]. split; [lra|]. split; [lra|].
  split; [split; [reflexivity|]; vm_compute (Prim2SF _); unfold SF2R, F2R; cbn; lra|]. split; [apply saddle_evaluates; lra|]. split; [apply saddle_speed|].
  split; [exact saddle_lipschitz|]. split.
  - apply Forall2_cons; [exact (int_rep 1 ltac:(lia))|]. apply Forall2_cons; [exact (int_rep 1 ltac:(lia))|]. apply Forall2_nil.
  - intros [|[|i]]; cbn; [rewrite Rabs_R1; lra|rewrite Rabs_R1; lra|]. destruct i; rewrite Rabs_R0; lra.
Qed.
