(** Facts about tasks of the file workflow. *)
From Coq Require Import Lia.
From Verif Require Import Base Num NdArray NdFacts Particles Jacobian Ftle Integrate GridInterp Interpolate Readers DataSource Solver FileRun
  SpecIntegrate SpecInterp SpecSeeds ScipyFacts InterpMain ParticleFacts IntegrateFacts SpecSolver SolverFacts SolverRerun.

Section Facts.
  Context {T : Type} (O : ops T) (scp : scipy T).
  Variable imems : nat -> memory (T := T).
  Notation istate := (istate scp).

  (* ---- unstructured interpolators up to the third component ---- *)
  Definition strip {Obj} (o : unstructured scp Obj) : unstructured scp Obj :=
    Unstr (u_velocities o) (u_points o) (u_tri o) (u_interp o) None.
  Definition alike (i j : interp scp) : Prop :=
    match i, j with
    | ICubic a, ICubic b => strip a = strip b
    | ILinear a, ILinear b => strip a = strip b
    | INearest a, INearest b => strip a = strip b
    | _, _ => False
    end.
  Definition same_kind (i j : interp scp) : Prop :=
    match i, j with
    | ICubic _, ICubic _ => True | ILinear _, ILinear _ => True | INearest _, INearest _ => True
    | _, _ => False
    end.
  Definition E (s t : istate) : Prop := alike (fst s) (fst t).

  Lemma strip_eq {Obj} (a b : unstructured scp Obj) : strip a = strip b ->
    u_velocities a = u_velocities b /\ u_points a = u_points b /\ u_tri a = u_tri b /\ u_interp a = u_interp b.
  Proof. unfold strip. intros [= -> -> -> ->]. auto. Qed.

  Lemma set_complex_junk j1 j2 (q : mat T) z : mcols q = 2 ->
    set_complex (empty_like j1 q) z = set_complex (empty_like j2 q) z.
  Proof.
    intro H. unfold empty_like, junk_mat. rewrite H.
    assert (X : forall j : nat -> nat -> T, Mat 2 (map (fun i => map (fun k => j i k) (seq 0 2)) (seq 0 (nrows q)))
              = arr2 (map (fun i => (j i 0, j i 1)) (seq 0 (nrows q)))).
    { intro j. unfold arr2. rewrite map_map. reflexivity. }
    destruct (Nat.eq_dec (length z) (nrows q)) as [L|L].
    - etransitivity; [refine (eq_trans (f_equal (fun m => set_complex m z) _) (set_complex2_ok _ z _))|
        symmetry; refine (eq_trans (f_equal (fun m => set_complex m z) _) (set_complex2_ok _ z _))]; try apply X;
        rewrite map_length, seq_length; exact L.
    - assert (Z : forall rows : list (list T), length rows = nrows q -> set_complex (Mat 2 rows) z = Err ValueError).
      { intros rows Hr. unfold set_complex, set_col at 1. cbn [mcols Nat.ltb Nat.leb negb]. unfold nrows at 1. cbn [mrows].
        rewrite Hr, map_length. destruct (Nat.eqb_spec (nrows q) (length z)); [congruence|]. reflexivity. }
      rewrite !Z by (rewrite map_length, seq_length; reflexivity). reflexivity.
  Qed.

  Lemma interpolate_alike m1 m2 i j q : alike i j -> nrows q <> 3 -> mcols q = 2 ->
    fst (interpolate O scp m1 i q) = i /\ snd (interpolate O scp m1 i q) = snd (interpolate O scp m2 j q).
  Proof.
    intros Ha Hr Hc. destruct i as [a|a|a| | | ], j as [b|b|b| | | ]; try contradiction;
      apply strip_eq in Ha; destruct Ha as (_ & _ & _ & Hi); cbn [interpolate fst snd]; split; try reflexivity.
    - unfold cubic_interpolate. rewrite Hi. destruct (u_interp b) as [[t c]|]; [|reflexivity].
      destruct (ct_eval _ _ _ _); [|reflexivity]. cbn [bind]. apply set_complex_junk, Hc.
    - unfold linear_interpolate. rewrite Hi. destruct (u_interp b) as [[t c]|]; [|reflexivity].
      destruct (lin_c _ _ _ _) as [z|]; [|reflexivity]. cbn [bind]. rewrite (set_complex_junk (m1 0) (m2 0) q z Hc).
      apply Nat.eqb_neq in Hr. rewrite Hr. reflexivity.
    - unfold nearest_interpolate. rewrite Hi. destruct (u_interp b) as [[t c]|]; [|reflexivity].
      destruct (near_c _ _ _ _) as [z|]; [|reflexivity]. cbn [bind]. rewrite (set_complex_junk (m1 0) (m2 0) q z Hc).
      apply Nat.eqb_neq in Hr. rewrite Hr. reflexivity.
  Qed.

  Definition D (rows cols : nat) : Prop := rows <> 3 /\ cols = 2.

  Lemma HE s t q : E s t -> inD D q ->
    E (fst (i_interpolate O scp imems s q)) (fst (i_interpolate O scp imems t q)) /\
    snd (i_interpolate O scp imems s q) = snd (i_interpolate O scp imems t q).
  Proof.
    unfold E, i_interpolate. intros H [Hr Hc].
    destruct (interpolate_alike (imems (snd s)) (imems (snd t)) _ _ q H Hr Hc) as [A B].
    assert (H' : alike (fst t) (fst s)).
    { destruct (fst s), (fst t); try contradiction; symmetry; exact H. }
    destruct (interpolate_alike (imems (snd t)) (imems (snd s)) _ _ q H' Hr Hc) as [A' _].
    destruct (interpolate O scp (imems (snd s)) (fst s) q), (interpolate O scp (imems (snd t)) (fst t) q).
    cbn [fst snd] in *. subst. auto.
  Qed.

  (** An update with the same velocities and the same resulting coordinates. *)
  Lemma update_same i j v p : same_kind i j -> (p = None -> alike i j) ->
    snd (update O scp i v p) = snd (update O scp j v p) /\
    (snd (update O scp i v p) = Ok tt -> alike (fst (update O scp i v p)) (fst (update O scp j v p))).
  Proof.
    intros K Hp.
    assert (Q : forall Obj (a b : unstructured scp Obj), (p = None -> strip a = strip b) ->
      match p with Some _ => p | None => u_points a end = match p with Some _ => p | None => u_points b end).
    { intros Obj a b H. destruct p; [reflexivity|]. apply (strip_eq a b (H eq_refl)). }
    destruct i as [a|a|a| | | ], j as [b|b|b| | | ]; try contradiction; cbn [update alike] in *;
      specialize (Q _ a b Hp); unfold base_update; rewrite Q; destruct (match p with Some _ => p | None => u_points b end) as [pt|];
      cbn; try (split; [reflexivity|discriminate]).
    - destruct (nrows pt =? 3); [cbn; split; [reflexivity|discriminate]|].
      destruct (let* c := to_complex v in _) as [[t c]|e]; cbn; split; reflexivity || discriminate.
    - destruct (let* c := to_complex v in _) as [[t c]|e]; cbn; [|split; [reflexivity|discriminate]].
      destruct (nrows pt =? 3); [|cbn; split; reflexivity].
      destruct (let* w := get (mrows v) 2 in _); cbn; split; reflexivity || discriminate.
    - destruct (let* c := to_complex v in _) as [[t c]|e]; cbn; [|split; [reflexivity|discriminate]].
      destruct (nrows pt =? 3); [|cbn; split; reflexivity].
      destruct (let* w := get (mrows v) 2 in _); cbn; split; reflexivity || discriminate.
  Qed.
  Lemma alike_kind i j : alike i j -> same_kind i j.
  Proof. destruct i, j; cbn; tauto. Qed.
  Lemma same_kind_trans i j k : same_kind i j -> same_kind i k -> same_kind j k.
  Proof. destruct i, j, k; cbn; tauto. Qed.
  Lemma kind_update i v p : is_unstructured i -> same_kind i (fst (update O scp i v p)).
  Proof.
    destruct i; intro H; try contradiction; cbn [update]; destruct (base_update _ _ _ _ _); exact I.
  Qed.

  Variable fs : filesystem T.
  Variable f : file_source T.
  Notation src := (file_task O scp fs f).

  Lemma src_same j (s t : istate) : same_kind (fst s) (fst t) -> (j <> 0 -> alike (fst s) (fst t)) ->
    (snd (src_update src s j) = Ok tt -> E (fst (src_update src s j)) (fst (src_update src t j))) /\
    snd (src_update src s j) = snd (src_update src t j).
  Proof.
    intros K H. cbn [src_update file_task file_batch].
    destruct (get_data_for_step fs f j) as [[v c]|e] eqn:G; [|split; [discriminate|reflexivity]].
    assert (Hc : c = None -> alike (fst s) (fst t)).
    { intros ->. apply H. intros ->. unfold get_data_for_step in G. cbn [Nat.eqb orb] in G.
      destruct (get (snapshot_files f) 0) as [x|]; [|discriminate]. destruct (get (coordinate_files f) 0) as [y|]; [|discriminate].
      cbn [bind] in G. destruct (fs x) as [m|]; [|discriminate]. cbn [bind] in G.
      destruct (read_velocity m); [|discriminate]. cbn [bind] in G.
      destruct (fs y) as [m'|]; [|discriminate]. cbn [bind] in G. destruct (read_coordinate m'); discriminate. }
    destruct (update_same (fst s) (fst t) v c K Hc) as [A B]. unfold i_update, E.
    destruct (update O scp (fst s) v c), (update O scp (fst t) v c). cbn [fst snd] in *. auto.
  Qed.

  Lemma file_rerun {W} eigvals mems (write : W -> string -> list (xval T) -> mat T -> W * res unit) q
    (w : world T istate unit W) :
    is_unstructured (fst (w_interp w)) ->
    reachable O (i_interpolate O scp imems) (w_integrator w) -> one_step (w_integrator w) (w_integrator w) ->
    (forall p, src_particles src tt = Ok p -> mcols (positions p) = 2 /\ nrows (positions p) <> 3) ->
    let again := file_worker O scp imems eigvals mems write fs f q false in
    snd (again (fst (again w))) = snd (again w).
  Proof.
    intros K R K1 Hp. cbn zeta. unfold file_worker.
    apply (rerun O (i_interpolate O scp imems) eigvals mems write E D HE
             (Solver src q false)) with (J := fun s => same_kind (fst (w_interp w)) (fst s));
      cbn [s_source s_writer].
    - intros j s t H. apply src_same; [apply alike_kind, H|intros _; exact H].
    - intros s t Hs Ht. apply src_same; [exact (same_kind_trans _ _ _ Hs Ht)|congruence].
    - intros s qq Hs. unfold i_interpolate. destruct (fst s) eqn:Es; cbn; destruct (fst (w_interp w)); try contradiction; exact I.
    - intros s j Hs. cbn [src_update file_task file_batch]. destruct (get_data_for_step fs f j) as [[v c]|e]; [|exact Hs].
      unfold i_update. pose proof (kind_update (fst s) v c) as Hk. destruct (update O scp (fst s) v c) as [i r]. cbn [fst] in *.
      assert (is_unstructured (fst s)) by (destruct (fst s), (fst (w_interp w)); try contradiction; exact I).
      specialize (Hk H). clear - Hs Hk. destruct (fst (w_interp w)), (fst s), i; try contradiction; exact I.
    - reflexivity.
    - exact R.
    - exact K1.
    - destruct (fst (w_interp w)); try contradiction; exact I.
    - reflexivity.
    - intros p E0. destruct (w_source w). destruct (Hp p E0). split; assumption.
  Qed.
End Facts.

(* ---- C45 ---- *)
Section Steps.
  Context {T : Type} (O : ops T) (scp : scipy T).
  Variable fs : filesystem T.

  Lemma nodup_one (l : list string) : length (nodup string_dec l) = 1 ->
    forall j x y, get l 0 = Ok x -> get l j = Ok y -> x = y.
  Proof.
    intros H j x y Hx Hy.
    assert (A : forall z k, get l k = Ok z -> In z (nodup string_dec l)).
    { intros z k Hz. apply nodup_In. unfold get in Hz. destruct (nth_error l k) eqn:En; [|discriminate].
      injection Hz as <-. exact (nth_error_In _ _ En). }
    apply A in Hx. apply A in Hy. destruct (nodup string_dec l) as [|a [|b r]]; try discriminate H.
    destruct Hx as [<-|[]], Hy as [<-|[]]. reflexivity.
  Qed.

  Definition points_are (C : mat T) (i : interp scp) : Prop :=
    match i with
    | ICubic o => u_points o = Some C | ILinear o => u_points o = Some C | INearest o => u_points o = Some C
    | _ => False
    end.
  Lemma points_update i v C r i' : is_unstructured i -> update O scp i v (Some C) = (i', r) -> points_are C i'.
  Proof.
    destruct i; intros K H; try contradiction; cbn [update] in H; unfold base_update in H.
    - match type of H with (let (_, _) := ?x in _) = _ => destruct x as [o' r'] eqn:Eo end. injection H as <- _. cbn.
      unfold cubic_init in Eo. cbn [u_velocities u_points u_tri u_interp u_interp_z] in Eo.
      destruct (nrows C =? 3); [injection Eo as <- _; reflexivity|].
      destruct (let* c := to_complex v in _) as [[t c]|e]; injection Eo as <- _; reflexivity.
    - match type of H with (let (_, _) := ?x in _) = _ => destruct x as [o' r'] eqn:Eo end. injection H as <- _. cbn.
      unfold linear_init in Eo. cbn [u_velocities u_points u_tri u_interp u_interp_z] in Eo.
      destruct (let* c := to_complex v in _) as [[t c]|e]; [|injection Eo as <- _; reflexivity].
      destruct (nrows C =? 3); [|injection Eo as <- _; reflexivity].
      destruct (let* w := get (mrows v) 2 in _); injection Eo as <- _; reflexivity.
    - match type of H with (let (_, _) := ?x in _) = _ => destruct x as [o' r'] eqn:Eo end. injection H as <- _. cbn.
      unfold nearest_init in Eo. cbn [u_velocities u_points u_tri u_interp u_interp_z] in Eo.
      destruct (let* c := to_complex v in _) as [[t c]|e]; [|injection Eo as <- _; reflexivity].
      destruct (nrows C =? 3); [|injection Eo as <- _; reflexivity].
      destruct (let* w := get (mrows v) 2 in _); injection Eo as <- _; reflexivity.
  Qed.
  Lemma points_none i v C : points_are C i -> update O scp i v None = update O scp i v (Some C).
  Proof. destruct i; cbn [points_are update]; intro H; try contradiction; unfold base_update; rewrite H; reflexivity. Qed.
  Lemma points_query i C mem q : points_are C i -> points_are C (fst (interpolate O scp mem i q)).
  Proof. destruct i; cbn; auto; contradiction. Qed.
  Lemma points_kind i C : points_are C i -> is_unstructured i.
  Proof. destruct i; cbn; auto. Qed.

  Lemma get_data_cases f j v c : get_data_for_step fs f j = Ok (v, c) ->
    exists vf cf, get (snapshot_files f) j = Ok vf /\ get (coordinate_files f) j = Ok cf /\
      (let* d := fs vf in read_velocity d) = Ok v /\
      ((c = None /\ j <> 0 /\ reuse_coordinates f = true) \/
       (exists C, c = Some C /\ (let* d := fs cf in read_coordinate d) = Ok C)).
  Proof.
    unfold get_data_for_step. intro G.
    destruct (get (snapshot_files f) j) as [x|]; [|discriminate]. destruct (get (coordinate_files f) j) as [y|]; [|discriminate].
    cbn [bind] in G. exists x, y. split; [reflexivity|split; [reflexivity|]].
    destruct (fs x) as [m|]; [|discriminate]. cbn [bind] in *. destruct (read_velocity m) as [u|]; [|discriminate]. cbn [bind] in G.
    destruct (Nat.eqb_spec j 0) as [->|Hj]; cbn [orb] in G.
    - destruct (fs y) as [m'|]; [|discriminate]. cbn [bind] in *. destruct (read_coordinate m') as [C|]; [|discriminate].
      injection G as <- <-. split; [reflexivity|]. right. eauto.
    - destruct (reuse_coordinates f) eqn:Er; cbn [negb] in G.
      + injection G as <- <-. split; [reflexivity|]. left. auto.
      + destruct (fs y) as [m'|]; [|discriminate]. cbn [bind] in *. destruct (read_coordinate m') as [C|]; [|discriminate].
        injection G as <- <-. split; [reflexivity|]. right. eauto.
  Qed.

  Variable f : file_source T.
  Hypothesis Hreuse : reuse_coordinates f = true -> length (nodup string_dec (coordinate_files f)) = 1.
  Notation src := (file_batch O (update O scp) fs f).

  Lemma step_both i i' j :
    is_unstructured i ->
    (j <> 0 -> reuse_coordinates f = true ->
       exists cf C, get (coordinate_files f) 0 = Ok cf /\ (let* d := fs cf in read_coordinate d) = Ok C /\ points_are C i) ->
    src_update src i j = (i', Ok tt) ->
    exists vf cf V C, get (snapshot_files f) j = Ok vf /\ get (coordinate_files f) j = Ok cf /\
      (let* d := fs vf in read_velocity d) = Ok V /\ (let* d := fs cf in read_coordinate d) = Ok C /\
      update O scp i V (Some C) = (i', Ok tt).
  Proof.
    intros K Hi H. cbn [src_update file_batch] in H. destruct (get_data_for_step fs f j) as [[v c]|e] eqn:G; [|discriminate].
    apply get_data_cases in G. destruct G as (vf & cf & E1 & E2 & E3 & [(-> & Hj & Hr) | (C & -> & E4)]).
    - destruct (Hi Hj Hr) as (c0 & C & E0 & EC & HP). exists vf, cf, v, C.
      pose proof (nodup_one _ (Hreuse Hr) j _ _ E0 E2) as <-.
      rewrite <- (points_none i v C HP). auto.
    - exists vf, cf, v, C. auto.
  Qed.

  Variable imems : nat -> memory (T := T).
  Definition held (j : nat) (s : istate scp) : Prop :=
    is_unstructured (fst s) /\ (j <> 0 -> reuse_coordinates f = true ->
       exists cf C, get (coordinate_files f) 0 = Ok cf /\ (let* d := fs cf in read_coordinate d) = Ok C /\ points_are C (fst s)).
  Lemma held_query j s q : held j s -> held j (fst (i_interpolate O scp imems s q)).
  Proof.
    intros [K H].
    assert (E : fst (fst (i_interpolate O scp imems s q)) = fst (interpolate O scp (imems (snd s)) (fst s) q))
      by (unfold i_interpolate; destruct (interpolate _ _ _ _ _); reflexivity).
    unfold held. rewrite E. split.
    - destruct (fst s) as [o|o|o|o|o|o]; try contradiction; cbn; try exact I;
        destruct (unstructured_interpolate _ _ _ _ _); exact I.
    - intros Hj Hr. destruct (H Hj Hr) as (cf & C & E1 & E2 & E3). exists cf, C. split; [exact E1|]. split; [exact E2|].
      apply points_query, E3.
  Qed.
  Lemma own_run mems k (a b : integrator T * istate scp * particles T) j : is_unstructured (fst (snd (fst a))) ->
    advance O (i_interpolate O scp imems) mems k (file_task O scp fs f) j a b -> held j (snd (fst b)).
  Proof.
    intros K H. induction H as [a|j a ig s p s1 ig' s' p' H IH Hu Hg]; [split; [exact K|congruence]|].
    specialize (IH K). cbn [fst snd] in IH |- *. destruct IH as [K1 IH].
    assert (Hu' : src_update (file_batch O (update O scp) fs f) (fst s) j = (fst s1, Ok tt)).
    { revert Hu. cbn [src_update file_task file_batch]. unfold file_task, file_batch, i_update. cbn [src_update].
      destruct (get_data_for_step fs f j) as [[v c]|e]; [|discriminate]. destruct (update O scp (fst s) v c) as [i r].
      intros [= <- <-]. reflexivity. }
    destruct (step_both _ _ _ K1 IH Hu') as (vf & cf & V & C & E1 & E2 & E3 & E4 & E5).
    pose proof (points_update _ _ _ _ _ K1 E5) as HP.
    unfold integrate in Hg. destruct (integrate_pos _ _ _ _ _ _ _) as [[i2 s2] r2] eqn:EI.
    assert (Hs : s2 = s') by (destruct r2; injection Hg; auto). subst s2. clear Hg.
    refine (J_integrate O (i_interpolate O scp imems) (held (1 + j)) (held_query (1 + j)) _ _ _ _ _ _ _ _ _ EI).
    split; [exact (points_kind _ _ HP)|]. intros _ Hr. exists cf, C. split; [|auto].
    destruct (get (coordinate_files f) 0) as [c0|] eqn:E0.
    - f_equal. exact (nodup_one _ (Hreuse Hr) j _ _ E0 E2).
    - unfold get in E0, E2. destruct (coordinate_files f); [destruct j; discriminate|discriminate].
  Qed.
  Lemma own_snapshot mems k ig0 i0 c0 p0 j ig i c p s1 :
    is_unstructured i0 ->
    advance O (i_interpolate O scp imems) mems k (file_task O scp fs f) j (ig0, (i0, c0), p0) (ig, (i, c), p) ->
    src_update (file_task O scp fs f) (i, c) j = (s1, Ok tt) ->
    exists vf cf V C, get (snapshot_files f) j = Ok vf /\ get (coordinate_files f) j = Ok cf /\
      (let* d := fs vf in read_velocity d) = Ok V /\ (let* d := fs cf in read_coordinate d) = Ok C /\
      update O scp i V (Some C) = (fst s1, Ok tt).
  Proof.
    intros K H Hu. pose proof (own_run mems k (ig0, (i0, c0), p0) (ig, (i, c), p) j K H) as [K1 Hh]. apply step_both; [exact K1|exact Hh|].
    revert Hu. unfold file_task, file_batch, i_update. cbn [src_update fst snd].
    destruct (get_data_for_step fs f j) as [[v c']|e]; [|discriminate]. destruct (update O scp i v c') as [i' r].
    intros [= <- <-]. reflexivity.
  Qed.
End Steps.

(* ---- C83 ---- *)
Lemma advance_last {T} (O : ops T) {S P} interpolate mems k (src : source T S P) n a b :
  advance O interpolate mems k src (1 + n) a b -> exists ig s p s1 ig' s' p', b = (ig', s', p') /\
    advance O interpolate mems k src n a (ig, s, p) /\ src_update src s n = (s1, Ok tt) /\
    integrate O interpolate (mems (k + n)) ig s1 (src_timestep src) p = (ig', s', p', Ok tt).
Proof. intro H. inversion H; subst. eauto 12. Qed.
Lemma advance_none {T} (O : ops T) {S P} interpolate mems k (src : source T S P) a b :
  advance O interpolate mems k src 0 a b -> b = a.
Proof. intro H. inversion H; subst. reflexivity. Qed.
Section GridFile.
  Context {T : Type} (O : ops T) (scp : scipy T).
  Variable imems : nat -> memory (T := T).
  Notation istate := (istate scp).

  Definition has_parts (s : istate) : Prop :=
    match fst s with IHigh o => h_x o <> None /\ h_y o <> None | _ => False end.
  (** The values of the first component are not a grid any more. *)
  Definition flat_values (c : component T) : Prop :=
    match c with C2 i => length (shape (i2_v i)) = 1 | C3 i => length (shape (i3_v i)) = 1 end.
  Definition flat (s : istate) : Prop :=
    match fst s with IHigh o => exists c, h_x o = Some c /\ flat_values c | _ => False end.

  Lemma call_flat junk c q out : flat_values c -> exists e, snd (call_component O junk c q out) = Err e.
  Proof.
    destruct c as [i|i]; cbn [flat_values call_component]; intro H.
    - assert (X : forall b, exists e, snd (call2d O junk i q b) = Err e).
      { intro b. unfold call2d. destruct (let* b0 := _ in _) as [b1|e]; [|eexists; reflexivity]. cbn [snd].
        unfold interp2d_vec_inplace. destruct (shape (i2_v i)) as [|? [|? ?]]; try discriminate H. eexists; reflexivity. }
      destruct out as [b|]; [destruct (X b) as [e E0]|destruct (X []) as [e E0]];
        destruct (call2d O junk i q _); cbn [snd] in *; subst; eexists; reflexivity.
    - assert (X : forall b, exists e, snd (call3d O junk i q b) = Err e).
      { intro b. unfold call3d. destruct (let* b0 := _ in _) as [b1|e]; [|eexists; reflexivity]. cbn [snd].
        unfold interp3d_vec_inplace. destruct (shape (i3_v i)) as [|? [|? ?]]; try discriminate H. eexists; reflexivity. }
      destruct out as [b|]; [destruct (X b) as [e E0]|destruct (X []) as [e E0]];
        destruct (call3d O junk i q _); cbn [snd] in *; subst; eexists; reflexivity.
  Qed.
  Lemma ensure_parts mem (o : highperf T) n d :
    h_x (ensure_buffers mem o n d) = h_x o /\ h_y (ensure_buffers mem o n d) = h_y o /\ h_z (ensure_buffers mem o n d) = h_z o.
  Proof. unfold ensure_buffers. destruct (h_u o) as [b|]; [destruct (length b =? n)|]; auto. Qed.
  Lemma flat_err s q : flat s -> exists e, snd (i_interpolate O scp imems s q) = Err e.
  Proof.
    unfold flat, i_interpolate. destruct (fst s) as [| | | |o| ]; try contradiction. intros (c & Hx & Hc).
    cbn [interpolate]. unfold highperf_interpolate.
    destruct (ensure_parts (imems (snd s)) o (nrows q) (mcols q)) as (Ex & Ey & Ez).
    set (o0 := ensure_buffers _ _ _ _) in *. clearbody o0. rewrite Ex, Ey, Ez, Hx.
    assert (X : exists o1 e, run_x O (imems (snd s)) o0 c q = (o1, Err e)).
    { unfold run_x. destruct (call_flat (index_junk (imems (snd s)) 4) c q (h_u o0) Hc) as [e E0].
      destruct (call_component _ _ _ _ _) as [c' r]. cbn in E0. subst r. eauto. }
    destruct X as (o1 & e & X). destruct (mcols q) as [|[|[|[|?]]]]; try (eexists; reflexivity).
    - destruct (h_y o); [|eexists; reflexivity]. rewrite X. eexists; reflexivity.
    - destruct (h_y o); [|eexists; reflexivity]. destruct (h_z o); [|eexists; reflexivity]. rewrite X. eexists; reflexivity.
  Qed.
  Lemma parts_query s q : has_parts s -> has_parts (fst (i_interpolate O scp imems s q)).
  Proof.
    unfold has_parts, i_interpolate. destruct (fst s) as [| | | |o| ]; try contradiction. intros [Hx Hy].
    cbn [interpolate]. unfold highperf_interpolate.
    destruct (ensure_parts (imems (snd s)) o (nrows q) (mcols q)) as (Ex & Ey & Ez).
    set (o0 := ensure_buffers _ _ _ _) in *. clearbody o0. rewrite <- Ex in Hx. rewrite <- Ey in Hy. clear Ex Ey Ez.
    assert (RX : forall o1 r c, h_x o1 <> None -> h_y o1 <> None -> h_x (fst (run_x O (imems (snd s)) o1 c q)) <> None /\
              h_y (fst (run_x O (imems (snd s)) o1 c q)) <> None /\ r = r :> nat).
    { intros o1 r c A B. unfold run_x. destruct (call_component _ _ _ _ _) as [c' [b|e]]; cbn; repeat split; congruence. }
    assert (RY : forall o1 c, h_x o1 <> None -> h_y o1 <> None -> h_x (fst (run_y O (imems (snd s)) o1 c q)) <> None /\
              h_y (fst (run_y O (imems (snd s)) o1 c q)) <> None).
    { intros o1 c A B. unfold run_y. destruct (call_component _ _ _ _ _) as [c' [b|e]]; cbn; split; congruence. }
    assert (RZ : forall o1 c, h_x o1 <> None -> h_y o1 <> None -> h_x (fst (run_z O (imems (snd s)) o1 c q)) <> None /\
              h_y (fst (run_z O (imems (snd s)) o1 c q)) <> None).
    { intros o1 c A B. unfold run_z. destruct (call_component _ _ _ _ _) as [c' [b|e]]; cbn; split; congruence. }
    destruct (mcols q) as [|[|[|[|?]]]]; try (cbn; tauto).
    - destruct (h_x o0) as [cx|] eqn:Ex; [|congruence]. destruct (h_y o0) as [cy|] eqn:Ey; [|congruence].
      destruct (RX o0 0 cx) as (A & B & _); try congruence.
      destruct (run_x _ _ _ _ _) as [o1 [bu|e]]; [|cbn in *; tauto]. cbn [fst] in *.
      destruct (RY o1 cy A B) as (A' & B'). destruct (run_y _ _ _ _ _) as [o2 [bv|e]]; cbn in *; tauto.
    - destruct (h_x o0) as [cx|] eqn:Ex; [|congruence]. destruct (h_y o0) as [cy|] eqn:Ey; [|congruence].
      destruct (h_z o0) as [cz|] eqn:Ez; [|cbn; rewrite Ex, Ey; split; congruence].
      destruct (RX o0 0 cx) as (A & B & _); try congruence.
      destruct (run_x _ _ _ _ _) as [o1 [bu|e]]; [|cbn in *; tauto]. cbn [fst] in *.
      destruct (RY o1 cy A B) as (A' & B'). destruct (run_y _ _ _ _ _) as [o2 [bv|e]]; [|cbn in *; tauto]. cbn [fst] in *.
      destruct (RZ o2 cz A' B') as (A2 & B2). destruct (run_z _ _ _ _ _) as [o3 [bw|e]]; cbn in *; tauto.
  Qed.
  Lemma parts_init (s s' : istate) v p : (exists o, fst s = IHigh o) ->
    i_update O scp s v (Some p) = (s', Ok tt) -> has_parts s'.
  Proof.
    intros [o Eo]. unfold i_update, has_parts. rewrite Eo. cbn [update highperf_update].
    unfold highperf_init. cbn [h_velocities h_points h_shape].
    match goal with |- context [match ?x with Ok o' => (o', Ok tt) | Err e => _ end] => destruct x as [o'|e] eqn:E0 end;
      cbn; intro H; [|discriminate]. injection H as <-. cbn.
    destruct (reshape_c (nd_of_mat p) (length (h_shape o) :: h_shape o)) as [rc|]; [|discriminate]. cbn [bind] in E0.
    destruct (h_shape o) as [|n1 [|n2 [|n3 [|? ?]]]]; try discriminate E0.
    - repeat match type of E0 with bind ?x _ = _ => destruct x; [cbn [bind] in E0|discriminate E0] end.
      injection E0 as <-. cbn. split; congruence.
    - repeat match type of E0 with bind ?x _ = _ => destruct x; [cbn [bind] in E0|discriminate E0] end.
      injection E0 as <-. cbn. split; congruence.
  Qed.
  Lemma flat_update (s s' : istate) v : has_parts s -> i_update O scp s v None = (s', Ok tt) -> flat s'.
  Proof.
    unfold has_parts, i_update, flat. destruct (fst s) as [| | | |o| ]; try contradiction. intros [Hx Hy].
    cbn [update highperf_update]. destruct (h_x o) as [cx|]; [|congruence]. destruct (h_y o) as [cy|]; [|congruence].
    destruct (get (mrows v) 0) as [r0|]; [|cbn; discriminate]. destruct (get (mrows v) 1) as [r1|]; [|cbn; discriminate].
    assert (F : flat_values (set_field r0 cx)) by (destruct cx; reflexivity).
    destruct (h_z o) as [cz|].
    - destruct (get (mrows v) 2) as [r2|]; cbn; intro H; [|discriminate]. injection H as <-. cbn. eauto.
    - cbn. intro H. injection H as <-. cbn. eauto.
  Qed.

  Variable fs : filesystem T.
  Variable f : file_source T.
  Lemma grid_static_fails {W} eigvals mems (write : W -> string -> list (xval T) -> mat T -> W * res unit) q wr
    (w : world T istate unit W) :
    (exists o, fst (w_interp w) = IHigh o) -> reuse_coordinates f = true -> 2 <= length (snapshot_files f) ->
    exists e, snd (file_worker O scp imems eigvals mems write fs f q wr w) = Err e /\
              w_writer (fst (file_worker O scp imems eigvals mems write fs f q wr w)) = w_writer w.
  Proof.
    intros Hi Hr Hn. unfold file_worker.
    destruct (run O (i_interpolate O scp imems) eigvals mems write (Solver (file_task O scp fs f) q wr) w) as [w' r] eqn:E0.
    pose proof (run_outcome _ _ _ _ _ _ _ _ _ E0) as HH. clear E0. cbn [fst snd].
    destruct HH as [(e & _ & -> & ->) | (id & p & _ & _ & HH)]; [eauto|].
    destruct HH as [(e & m & b & c & -> & _ & _ & _ & _ & _ & Ew & _) | (p' & Ha & _)]; [eauto|]. exfalso.
    cbn [s_source file_task file_batch src_steps] in Ha.
    destruct (advance_le _ _ _ _ _ _ _ _ Ha 2 Hn) as [z Hz]. clear Ha.
    destruct (advance_last _ _ _ _ _ _ _ _ Hz) as (ig1 & s1 & p1 & s1' & ig2 & s2 & p2 & -> & H1 & Hu1 & Hi1).
    destruct (advance_last _ _ _ _ _ _ _ _ H1) as (ig0 & s0 & p0 & s0' & ig3 & s3 & p3 & Eb & H0 & Hu0 & Hi0).
    injection Eb as <- <- <-. apply advance_none in H0. injection H0 as -> -> ->.
    cbn [src_update s_source file_task file_batch] in Hu0, Hu1.
    destruct (get_data_for_step fs f 0) as [[v0 c0]|] eqn:G0; [|discriminate].
    apply get_data_cases in G0. destruct G0 as (_ & _ & _ & _ & _ & [(_ & X & _) | (C & -> & _)]); [congruence|].
    apply parts_init in Hu0; [|exact Hi].
    unfold integrate in Hi0. destruct (integrate_pos O (i_interpolate O scp imems) _ _ s0' _ _) as [[? sx] [?|?]] eqn:E1; [|discriminate].
    injection Hi0 as _ <- _. apply (J_integrate O (i_interpolate O scp imems) has_parts parts_query) in E1; [|exact Hu0].
    destruct (get_data_for_step fs f 1) as [[v1 c1]|] eqn:G1; [|discriminate].
    assert (c1 = None).
    { unfold get_data_for_step in G1. rewrite Hr in G1. cbn [Nat.eqb orb negb] in G1.
      repeat match type of G1 with bind ?x _ = _ => destruct x; [cbn [bind] in G1|discriminate G1] end. congruence. }
    subst c1. pose proof (flat_update sx s1' v1 E1 Hu1) as HF.
    unfold integrate in Hi1. destruct (integrate_pos O (i_interpolate O scp imems) _ _ s1' _ _) as [[? ?] [?|?]] eqn:E2; [|discriminate].
    clear - E2 HF.
    assert (X : forall buf pos, exists s e, sample (i_interpolate O scp imems) s1' buf pos = (s, Err e)).
    { intros buf pos. unfold sample. destruct (flat_err s1' pos HF) as [e E0].
      destruct (i_interpolate O scp imems s1' pos) as [? ?]. cbn in E0. subst. do 2 eexists. reflexivity. }
    destruct ig1 as [b|pv b|b]; cbn [integrate_pos] in E2.
    - unfold euler_integrate in E2. match type of E2 with context [sample ?i ?s ?b ?q] => destruct (X b q) as (? & ? & Y) end.
      rewrite Y in E2. discriminate.
    - unfold ab2_integrate in E2. match type of E2 with context [sample ?i ?s ?b ?q] => destruct (X b q) as (? & ? & Y) end.
      rewrite Y in E2. discriminate.
    - unfold rk4_integrate in E2. destruct (match b with Some _ => _ | None => _ end) as [[[[k1 k2] k3] k4] tm].
      destruct (X k1 (positions p1)) as (? & ? & Y). rewrite Y in E2. discriminate.
  Qed.
End GridFile.
