(** C34-C37, C39, C40, C86: the SciPy based interpolators and the factory. *)
From Coq Require Import Reals Lra Lia Sorted.
From Verif Require Import Base Num NdArray Integrate GridInterp Interpolate SpecSeeds SpecGrid SpecKernel SpecIntegrate SpecInterp
  NdFacts GridInterpFacts HighPerfFacts HighPerfReal IntegrateMisc GridPlace.

Section Unstructured.
  Context {T : Type} (O : ops T) (scp : scipy T).

  (** C35 *)
  Lemma only_cubic (o o1 : unstructured scp (tri scp)) v1 v2 p r1 :
    base_update scp (cubic_init scp) o v1 (Some p) = (o1, r1) ->
    snd (base_update scp (cubic_init scp) o1 v2 None) = snd (base_update scp (cubic_init scp) o v2 (Some p)) /\
    (snd (base_update scp (cubic_init scp) o v2 (Some p)) = Ok tt ->
     fst (base_update scp (cubic_init scp) o1 v2 None) = fst (base_update scp (cubic_init scp) o v2 (Some p))).
  Proof.
    intros H. unfold base_update in *.
    assert (P : u_points o1 = Some p /\ u_interp_z o1 = u_interp_z o).
    { unfold cubic_init in H. cbn [u_velocities u_points] in H.
      destruct (nrows p =? 3); [injection H as <- _; auto|].
      destruct (bind _ _) as [[t c]|e]; injection H as <- _; auto. }
    destruct P as [P1 P2]. unfold cubic_init. cbn [u_velocities u_points u_tri u_interp u_interp_z]. rewrite P1, P2.
    destruct (nrows p =? 3); cbn; [split; [reflexivity|discriminate]|].
    destruct (bind _ _) as [[t c]|e]; cbn; split; try reflexivity. discriminate.
  Qed.

  Lemma only_linear (o o1 : unstructured scp (tri scp)) v1 v2 p r1 :
    base_update scp (linear_init scp) o v1 (Some p) = (o1, r1) ->
    snd (base_update scp (linear_init scp) o1 v2 None) = snd (base_update scp (linear_init scp) o v2 (Some p)) /\
    (snd (base_update scp (linear_init scp) o v2 (Some p)) = Ok tt ->
     fst (base_update scp (linear_init scp) o1 v2 None) = fst (base_update scp (linear_init scp) o v2 (Some p))).
  Proof.
    intros H. unfold base_update in *.
    assert (P : u_points o1 = Some p /\ (nrows p <> 3 -> u_interp_z o1 = u_interp_z o)).
    { unfold linear_init in H. cbn [u_velocities u_points] in H.
      destruct (bind _ _) as [[t c]|e]; [|injection H as <- _; auto].
      destruct (Nat.eqb_spec (nrows p) 3); [|injection H as <- _; auto].
      destruct (bind _ _) as [w|e']; injection H as <- _; cbn; split; auto; congruence. }
    destruct P as [P1 P2]. unfold linear_init. cbn [u_velocities u_points u_tri u_interp u_interp_z]. rewrite P1.
    destruct (let* c := to_complex v2 in _) as [[t c]|e]; [|cbn; split; [reflexivity|discriminate]].
    destruct (Nat.eqb_spec (nrows p) 3) as [E|E].
    - destruct (bind _ _) as [w|e']; cbn; split; try reflexivity. discriminate.
    - rewrite (P2 E). cbn. split; reflexivity.
  Qed.

  Lemma only_nearest (o o1 : unstructured scp (mat T)) v1 v2 p r1 :
    base_update scp (nearest_init scp) o v1 (Some p) = (o1, r1) ->
    snd (base_update scp (nearest_init scp) o1 v2 None) = snd (base_update scp (nearest_init scp) o v2 (Some p)) /\
    (snd (base_update scp (nearest_init scp) o v2 (Some p)) = Ok tt ->
     fst (base_update scp (nearest_init scp) o1 v2 None) = fst (base_update scp (nearest_init scp) o v2 (Some p))).
  Proof.
    intros H. unfold base_update in *.
    assert (P : u_points o1 = Some p /\ (nrows p <> 3 -> u_interp_z o1 = u_interp_z o)).
    { unfold nearest_init in H. cbn [u_velocities u_points] in H.
      destruct (bind _ _) as [[t c]|e]; [|injection H as <- _; auto].
      destruct (Nat.eqb_spec (nrows p) 3); [|injection H as <- _; auto].
      destruct (bind _ _) as [w|e']; injection H as <- _; cbn; split; auto; congruence. }
    destruct P as [P1 P2]. unfold nearest_init. cbn [u_velocities u_points u_tri u_interp u_interp_z]. rewrite P1.
    destruct (let* c := to_complex v2 in _) as [[t c]|e]; [|cbn; split; [reflexivity|discriminate]].
    destruct (Nat.eqb_spec (nrows p) 3) as [E|E].
    - destruct (bind _ _) as [w|e']; cbn; split; try reflexivity. discriminate.
    - rewrite (P2 E). cbn. split; reflexivity.
  Qed.

  Lemma only_unstructured (i i1 : interp scp) v1 v2 p r1 : is_unstructured i ->
    update O scp i v1 (Some p) = (i1, r1) ->
    snd (update O scp i1 v2 None) = snd (update O scp i v2 (Some p)) /\
    (snd (update O scp i v2 (Some p)) = Ok tt ->
     fst (update O scp i1 v2 None) = fst (update O scp i v2 (Some p))).
  Proof.
    destruct i as [o|o|o|o|o|o]; intros K H; try contradiction; cbn [update] in *.
    - destruct (base_update scp (cubic_init scp) o v1 (Some p)) as [o1 r] eqn:E. injection H as <- <-.
      destruct (only_cubic o o1 v1 v2 p r E) as [A B]. cbn [update].
      destruct (base_update scp (cubic_init scp) o1 v2 None), (base_update scp (cubic_init scp) o v2 (Some p)).
      cbn [fst snd] in *. split; [exact A|]. intros X. rewrite (B X). reflexivity.
    - destruct (base_update scp (linear_init scp) o v1 (Some p)) as [o1 r] eqn:E. injection H as <- <-.
      destruct (only_linear o o1 v1 v2 p r E) as [A B]. cbn [update].
      destruct (base_update scp (linear_init scp) o1 v2 None), (base_update scp (linear_init scp) o v2 (Some p)).
      cbn [fst snd] in *. split; [exact A|]. intros X. rewrite (B X). reflexivity.
    - destruct (base_update scp (nearest_init scp) o v1 (Some p)) as [o1 r] eqn:E. injection H as <- <-.
      destruct (only_nearest o o1 v1 v2 p r E) as [A B]. cbn [update].
      destruct (base_update scp (nearest_init scp) o1 v2 None), (base_update scp (nearest_init scp) o v2 (Some p)).
      cbn [fst snd] in *. split; [exact A|]. intros X. rewrite (B X). reflexivity.
  Qed.

  (** C36, C37: one component of the complex values, and the third component. *)
  Local Notation is_linear_or_nearest := (@is_linear_or_nearest T scp).

  Lemma set_complex3 (bs : list (T * T * T)) z m : set_complex (arr3 bs) z = Ok m ->
    length z = length bs /\ m = arr3 (zip_with (fun b uv => (fst uv, snd uv, snd b)) bs z).
  Proof.
    unfold set_complex. intros H. assert (L : length z = length bs).
    { unfold set_col in H at 1. change (mcols (arr3 bs)) with 3 in H. cbn [Nat.ltb Nat.leb negb] in H.
      rewrite arr3_nrows, map_length in H. destruct (Nat.eqb_spec (length bs) (length z)); [auto|discriminate]. }
    split; [exact L|]. rewrite set_col3_0 in H by (rewrite map_length; exact L). cbn [bind] in H.
    rewrite set_col3_1 in H by (rewrite map_length, zip_length2; rewrite ?map_length; congruence).
    injection H as <-. f_equal. clear L. revert z. induction bs as [|b bs IH]; intros [|uv z]; cbn; try reflexivity.
    rewrite IH. reflexivity.
  Qed.

  Lemma set_complex2 (bs : list (T * T)) z m : set_complex (arr2 bs) z = Ok m ->
    length z = length bs /\ m = arr2 z.
  Proof.
    unfold set_complex. intros H. assert (L : length z = length bs).
    { unfold set_col in H at 1. change (mcols (arr2 bs)) with 2 in H. cbn [Nat.ltb Nat.leb negb] in H.
      rewrite arr2_nrows, map_length in H. destruct (Nat.eqb_spec (length bs) (length z)); [auto|discriminate]. }
    split; [exact L|]. rewrite fill2 in H by (rewrite map_length; exact L). injection H as <-. f_equal.
    clear L. induction z as [|[a b] z IH]; cbn; [reflexivity|]. rewrite IH. reflexivity.
  Qed.

  Lemma set_complex3_ok (bs : list (T * T * T)) z : length z = length bs ->
    set_complex (arr3 bs) z = Ok (arr3 (zip_with (fun b uv => (fst uv, snd uv, snd b)) bs z)).
  Proof.
    intros L. unfold set_complex. rewrite set_col3_0 by (rewrite map_length; exact L). cbn [bind].
    rewrite set_col3_1 by (rewrite map_length, zip_length2; rewrite ?map_length; congruence).
    f_equal. f_equal. clear L. revert z. induction bs as [|b bs IH]; intros [|uv z]; cbn; try reflexivity.
    rewrite IH. reflexivity.
  Qed.

  Lemma set_complex2_ok (bs : list (T * T)) z : length z = length bs -> set_complex (arr2 bs) z = Ok (arr2 z).
  Proof.
    intros L. unfold set_complex. rewrite fill2 by (rewrite map_length; exact L). do 2 f_equal.
    clear L. induction z as [|[a b] z IH]; cbn; [reflexivity|]. rewrite IH. reflexivity.
  Qed.

  (** A linear or nearest interpolator after a successful first update. *)
  Definition is_ready (i : interp scp) (three : bool) (zc : mat T -> res (list (T * T)))
    (zr : mat T -> res (list T)) : Prop :=
    forall mem q, interpolate O scp mem i q =
      (i, let* z := zc q in
          let* out := set_complex (empty_like (mem 0) q) z in
          if nrows q =? 3 then
            if three then let* zz := zr q in set_col out 2 zz else Err AttributeError
          else Ok out).

  Lemma ready (i i1 : interp scp) v p : is_linear_or_nearest i ->
    update O scp i v (Some p) = (i1, Ok tt) ->
    exists zc zr, is_ready i1 (nrows p =? 3) zc zr.
  Proof.
    destruct i as [o|o|o|o|o|o]; intros K H; try contradiction; cbn in K; subst o; cbn [update] in H; unfold base_update in H.
    - unfold linear_init in H. cbn [u_velocities u_points unstructured_new] in H.
      destruct (bind _ _) as [[t c]|e]; [|discriminate].
      destruct (nrows p =? 3).
      + destruct (bind _ _) as [w|e]; [injection H as <-|discriminate].
        exists (lin_c scp t c), (lin_r scp t w). intros mem q. reflexivity.
      + injection H as <-. exists (lin_c scp t c), (fun _ => Ok []). intros mem q. reflexivity.
    - unfold nearest_init in H. cbn [u_velocities u_points unstructured_new] in H.
      destruct (bind _ _) as [[t c]|e]; [|discriminate].
      destruct (nrows p =? 3).
      + destruct (bind _ _) as [w|e]; [injection H as <-|discriminate].
        exists (near_c scp t c), (near_r scp t w). intros mem q. reflexivity.
      + injection H as <-. exists (near_c scp t c), (fun _ => Ok []). intros mem q. reflexivity.
  Qed.

  Lemma empty_arr3 (mem : memory) (pts : list (T * T * T)) :
    empty_like (mem 0) (arr3 pts) = arr3 (map (fun i => (mem 0 i 0, mem 0 i 1, mem 0 i 2)) (seq 0 (length pts))).
  Proof. unfold empty_like. rewrite arr3_nrows. change (mcols (arr3 pts)) with 3. apply junk_arr3. Qed.
  Lemma empty_arr2 (mem : memory) (pts : list (T * T)) :
    empty_like (mem 0) (arr2 pts) = arr2 (map (fun i => (mem 0 i 0, mem 0 i 1)) (seq 0 (length pts))).
  Proof. unfold empty_like. rewrite arr2_nrows. change (mcols (arr2 pts)) with 2. apply junk_arr2. Qed.

  (** C36: with another number of query points than three, w is whatever the memory held. *)
  Lemma w_is_junk (i i1 : interp scp) v p pts mem out :
    is_linear_or_nearest i -> update O scp i v (Some p) = (i1, Ok tt) -> length pts <> 3 ->
    snd (interpolate O scp mem i1 (arr3 pts)) = Ok out ->
    exists uv, length uv = length pts /\ forall mem',
      interpolate O scp mem' i1 (arr3 pts) =
        (i1, Ok (arr3 (zip_with (fun k c => (fst c, snd c, mem' 0 k 2)) (seq 0 (length pts)) uv))).
  Proof.
    intros K U Hn H. destruct (ready i i1 v p K U) as [zc [zr R]]. rewrite R in H. cbn [snd] in H.
    destruct (zc (arr3 pts)) as [z|] eqn:Ez; [|discriminate]. cbn [bind] in H. rewrite empty_arr3 in H.
    destruct (set_complex _ z) as [m|] eqn:Es; [|discriminate].
    apply set_complex3 in Es. destruct Es as [L _]. rewrite map_length, seq_length in L.
    exists z. split; [exact L|]. intros mem'. rewrite R. f_equal. rewrite Ez. cbn [bind]. rewrite empty_arr3.
    rewrite set_complex3_ok by (rewrite map_length, seq_length; exact L). cbn [bind].
    rewrite arr3_nrows. destruct (Nat.eqb_spec (length pts) 3); [contradiction|].
    do 2 f_equal. rewrite zip_map_l. reflexivity.
  Qed.

  (** With exactly three query points all components are SciPy's answers. *)
  Lemma w_with_three (i i1 : interp scp) v p pts mem out :
    is_linear_or_nearest i -> update O scp i v (Some p) = (i1, Ok tt) -> length pts = 3 ->
    snd (interpolate O scp mem i1 (arr3 pts)) = Ok out ->
    forall mem', interpolate O scp mem' i1 (arr3 pts) = (i1, Ok out).
  Proof.
    intros K U Hn H. destruct (ready i i1 v p K U) as [zc [zr R]]. rewrite R in H. cbn [snd] in H.
    intros mem'. rewrite R. f_equal. rewrite <- H. clear R U.
    destruct (zc (arr3 pts)) as [z|] eqn:Ez; [|discriminate]. cbn [bind] in *. rewrite empty_arr3 in *.
    rewrite arr3_nrows, Hn in *. cbn [Nat.eqb] in *.
    destruct (set_complex _ z) as [m|] eqn:Es in H; [|discriminate].
    apply set_complex3 in Es. destruct Es as [L _]. rewrite map_length, seq_length in L.
    rewrite !empty_arr3, !Hn, !set_complex3_ok by (rewrite map_length, seq_length; exact L). cbn [bind].
    destruct (nrows p =? 3); [|reflexivity].
    destruct (zr (arr3 pts)) as [zz|] eqn:Ezz; [|reflexivity]. cbn [bind].
    assert (Lz : forall mem0, set_col (arr3 (zip_with (fun b uv => (fst uv, snd uv, snd b))
        (map (fun i0 => (mem0 0 i0 0, mem0 0 i0 1, mem0 0 i0 2)) (seq 0 3)) z)) 2 zz =
        if length zz =? 3 then Ok (arr3 (zip_with (fun uv w => (fst uv, snd uv, w)) z zz)) else Err ValueError).
    { intros mem0. destruct z as [|a [|b [|c [|]]]]; try discriminate L.
      unfold set_col. destruct zz as [|w1 [|w2 [|w3 [|]]]]; reflexivity. }
    rewrite !Lz. reflexivity.
  Qed.

  (** C37: in two dimensions three query points are rejected. *)
  Lemma three_points_2d (i i1 : interp scp) v p pts :
    is_linear_or_nearest i -> update O scp i v (Some p) = (i1, Ok tt) -> nrows p = 2 -> length pts = 3 ->
    forall mem out, snd (interpolate O scp mem i1 (arr2 pts)) <> Ok out.
  Proof.
    intros K U Hp Hn mem out. destruct (ready i i1 v p K U) as [zc [zr R]]. rewrite R. cbn [snd].
    destruct (zc (arr2 pts)) as [z|]; [|discriminate]. cbn [bind].
    destruct (set_complex _ z) as [m|]; [|discriminate]. cbn [bind].
    rewrite arr2_nrows, Hn, Hp. discriminate.
  Qed.

  Lemma other_points_2d (i i1 : interp scp) v p pts mem m :
    is_linear_or_nearest i -> update O scp i v (Some p) = (i1, Ok tt) -> length pts <> 3 ->
    snd (interpolate O scp mem i1 (arr2 pts)) = Ok m ->
    exists uv, length uv = length pts /\ m = arr2 uv /\
      forall mem', interpolate O scp mem' i1 (arr2 pts) = (i1, Ok (arr2 uv)).
  Proof.
    intros K U Hn H. destruct (ready i i1 v p K U) as [zc [zr R]]. rewrite R in H. cbn [snd] in H.
    destruct (zc (arr2 pts)) as [z|] eqn:Ez; [|discriminate]. cbn [bind] in H. rewrite empty_arr2 in H.
    destruct (set_complex _ z) as [m'|] eqn:Es; [|discriminate]. cbn [bind] in H.
    apply set_complex2 in Es. destruct Es as [L ->]. rewrite map_length, seq_length in L.
    rewrite arr2_nrows in H. destruct (Nat.eqb_spec (length pts) 3); [contradiction|]. injection H as <-.
    exists z. split; [exact L|]. split; [reflexivity|]. intros mem'. rewrite R. f_equal. rewrite Ez. cbn [bind].
    rewrite empty_arr2, set_complex2_ok by (rewrite map_length, seq_length; exact L). cbn [bind].
    rewrite arr2_nrows. destruct (Nat.eqb_spec (length pts) 3); [contradiction|]. reflexivity.
  Qed.

  (** C39 *)
  Definition pointless (i : interp scp) : Prop :=
    match i with
    | ICubic o | ILinear o => u_points o = None /\ u_interp o = None
    | INearest o => u_points o = None /\ u_interp o = None
    | IGrid o => g_points o = None /\ g_x o = None
    | IHigh o => h_x o = None
    | IAnalytical _ => False
    end.

  Lemma no_upper_cubic : no_upper "cubic". Proof. cbn. lia. Qed.
  Lemma no_upper_linear : no_upper "linear". Proof. cbn. lia. Qed.
  Lemma no_upper_nearest : no_upper "nearest". Proof. cbn. lia. Qed.
  Lemma no_upper_analytical : no_upper "analytical". Proof. cbn. lia. Qed.

  Lemma created_pointless name gs fn i : data_driven name -> create_interpolator O scp name gs fn = Ok i -> pointless i.
  Proof.
    intros [D|[D|[D|D]]] H; unfold create_interpolator in H;
      [apply (lower_spec _ _ no_upper_cubic) in D|apply (lower_spec _ _ no_upper_linear) in D
      |apply (lower_spec _ _ no_upper_nearest) in D|apply (lower_spec _ _ no_upper_grid) in D];
      rewrite D in H; destruct gs as [gs|]; cbn in H; try discriminate; injection H as <-; cbn; auto.
  Qed.

  Lemma pointless_update i v : pointless i ->
    pointless (fst (update O scp i v None)) /\
    snd (update O scp i v None) = match i with IHigh _ => Ok tt | _ => Err ValueError end.
  Proof.
    destruct i as [o|o|o|o|o|o]; cbn [update pointless]; try (intros []; fail).
    - intros [P Q]. unfold base_update, cubic_init. cbn. rewrite P. cbn. auto.
    - intros [P Q]. unfold base_update, linear_init. cbn. rewrite P. cbn. auto.
    - intros [P Q]. unfold base_update, nearest_init. cbn. rewrite P. cbn. auto.
    - intros [P Q]. unfold gridinterp_update. rewrite Q. unfold gridinterp_init. cbn. rewrite P. cbn. auto.
    - intros P. unfold highperf_update. rewrite P. cbn. auto.
  Qed.

  Lemma pointless_query mem i q : pointless i -> exists e, snd (interpolate O scp mem i q) = Err e.
  Proof.
    destruct i as [o|o|o|o|o|o]; cbn [interpolate pointless snd]; try (intros []; fail).
    - intros [_ Q]. unfold cubic_interpolate. rewrite Q. eauto.
    - intros [_ Q]. unfold linear_interpolate. rewrite Q. eauto.
    - intros [_ Q]. unfold nearest_interpolate. rewrite Q. eauto.
    - intros [_ Q]. unfold gridinterp_interpolate. rewrite Q. eauto.
    - intros Q. unfold highperf_interpolate.
      assert (E : h_x (ensure_buffers mem o (nrows q) (mcols q)) = None).
      { unfold ensure_buffers. destruct (h_u o) as [b|]; [destruct (length b =? nrows q)|]; exact Q. }
      destruct (mcols q) as [|[|[|[|]]]]; rewrite ?E; cbn; eauto.
  Qed.

  Lemma pointless_after i vs : pointless i -> pointless (after O scp i (only_velocities vs)) /\
    (forall o, i <> IHigh o) = (forall o, i <> IHigh o).
  Proof.
    intros P. split; [|reflexivity]. revert i P. induction vs as [|v vs IH]; intros i P; [exact P|].
    cbn [only_velocities map after]. apply IH. apply pointless_update. exact P.
  Qed.

  Lemma high_after i vs o : after O scp i (only_velocities vs) = IHigh o -> exists o', i = IHigh o'.
  Proof.
    revert i. induction vs as [|v vs IH]; intros i H; [eauto|]. cbn [only_velocities map after] in H.
    apply IH in H. destruct H as [o' H].
    destruct i as [x|x|x|x|x|x]; cbn [update] in H.
    - destruct (base_update scp (cubic_init scp) x v None); discriminate.
    - destruct (base_update scp (linear_init scp) x v None); discriminate.
    - destruct (base_update scp (nearest_init scp) x v None); discriminate.
    - destruct (gridinterp_update O scp x v None); discriminate.
    - eauto.
    - discriminate.
  Qed.

  Lemma no_points name gs fn i vs v : data_driven name ->
    create_interpolator O scp name gs fn = Ok i ->
    (~ case_variant name "grid" -> snd (update O scp (after O scp i (only_velocities vs)) v None) = Err ValueError) /\
    forall mem q, exists e, snd (interpolate O scp mem (after O scp i (only_velocities vs)) q) = Err e.
  Proof.
    intros D C. pose proof (created_pointless name gs fn i D C) as P.
    destruct (pointless_after i vs P) as [PA _]. split.
    - intros N. destruct (pointless_update _ v PA) as [_ E]. rewrite E.
      destruct (after O scp i (only_velocities vs)) as [x|x|x|x|x|x] eqn:A; try reflexivity.
      exfalso. apply high_after in A. destruct A as [o' ->]. apply N.
      unfold create_interpolator in C. apply (lower_spec _ _ no_upper_grid).
      destruct (negb _); [discriminate|]. destruct (String.eqb (lower name) "analytical"); [destruct fn; discriminate|].
      destruct gs as [gs|].
      + destruct (String.eqb_spec (lower name) "grid"); [assumption|].
        destruct (gridinterp_new gs (lower name)); discriminate.
      + destruct (String.eqb (lower name) "cubic"); [discriminate|].
        destruct (String.eqb (lower name) "linear"); [discriminate|].
        destruct (String.eqb (lower name) "nearest"); discriminate.
    - intros mem q. apply pointless_query. exact PA.
  Qed.

  (** 'grid' accepts velocities without points. *)
  Lemma grid_accepts name gs fn i vs v : case_variant name "grid" ->
    create_interpolator O scp name (Some gs) fn = Ok i ->
    snd (update O scp (after O scp i (only_velocities vs)) v None) = Ok tt.
  Proof.
    intros D C. rewrite create_grid in C by exact D. injection C as <-.
    assert (G : forall o, h_x o = None -> exists o', after O scp (IHigh o) (only_velocities vs) = IHigh o' /\ h_x o' = None).
    { induction vs as [|w vs IH]; intros o Ho; [exists o; split; [reflexivity|exact Ho]|]. cbn [only_velocities map after].
      assert (E : exists o2, fst (update O scp (IHigh o) w None) = IHigh o2 /\ h_x o2 = None).
      { cbn [update]. unfold highperf_update. rewrite Ho. cbn. eexists. split; reflexivity. }
      destruct E as [o2 [-> H2]]. apply IH. exact H2. }
    destruct (G (highperf_new gs) eq_refl) as [o' [E Ho]]. rewrite E. cbn [update]. unfold highperf_update. rewrite Ho.
    reflexivity.
  Qed.

  (** C40 *)
  Lemma create_spec name gs fn :
    (case_variant name "analytical" ->
       create_interpolator O scp name gs fn =
         match fn with Some f => Ok (IAnalytical (Analytical f (o_zero O))) | None => Err ExecutableNotFoundError end) /\
    (case_variant name "grid" ->
       create_interpolator O scp name gs fn =
         match gs with Some s => Ok (IHigh (highperf_new s)) | None => Err TypeError end) /\
    (case_variant name "cubic" ->
       create_interpolator O scp name gs fn =
         match gs with
         | Some s => Ok (IGrid (GridI "cubic" s None None None None None None)) | None => Ok (ICubic unstructured_new) end) /\
    (case_variant name "linear" ->
       create_interpolator O scp name gs fn =
         match gs with
         | Some s => Ok (IGrid (GridI "linear" s None None None None None None)) | None => Ok (ILinear unstructured_new) end) /\
    (case_variant name "nearest" ->
       create_interpolator O scp name gs fn =
         match gs with
         | Some s => Ok (IGrid (GridI "nearest" s None None None None None None)) | None => Ok (INearest unstructured_new) end) /\
    (~ case_variant name "analytical" -> ~ data_driven name ->
       create_interpolator O scp name gs fn = Err ValueError).
  Proof.
    unfold data_driven.
    rewrite <- (lower_spec name _ no_upper_analytical), <- (lower_spec name _ no_upper_grid),
      <- (lower_spec name _ no_upper_cubic), <- (lower_spec name _ no_upper_linear), <- (lower_spec name _ no_upper_nearest).
    unfold create_interpolator.
    repeat split; try (intros ->; destruct gs; reflexivity).
    intros NA ND. cbn [existsb].
    destruct (String.eqb_spec (lower name) "cubic"); [tauto|]. destruct (String.eqb_spec (lower name) "linear"); [tauto|].
    destruct (String.eqb_spec (lower name) "nearest"); [tauto|]. destruct (String.eqb_spec (lower name) "analytical"); [tauto|].
    destruct (String.eqb_spec (lower name) "grid"); [tauto|]. reflexivity.
  Qed.

  (* ---------------------------------------------------------------- *)
  (** Structured SciPy interpolators: what a successful update(velocities, points) stores. *)
  Definition rgi_of (axes : list (list T)) (gs : list nat) (row : list T) : rgi T :=
    Rgi axes (Nd gs row) (Nd gs row).

  Lemma mk_rgi_ok m axes v c s r : mk_rgi scp m axes v c s = Ok r ->
    exists row, nth_error (mrows v) c = Some row /\ length row = size s /\ r = rgi_of axes s row.
  Proof.
    unfold mk_rgi, get. destruct (nth_error (mrows v) c) as [row|]; [|discriminate]. cbn [bind].
    unfold reshape_c, nd_of_list. cbn [shape data size].
    destruct (Nat.eqb_spec (length row * 1) (size s)); [|discriminate]. cbn [bind].
    destruct (rgi_check scp m axes (Nd s row)); [|discriminate]. cbn [bind]. intros H. injection H as <-.
    exists row. repeat split. lia.
  Qed.

  (** The axes depend on the points only. *)
  Definition axes2 (p : mat T) nx ny : res (list (list T)) :=
    let* x := points_axis O p 0 nx in let* y := points_axis O p 1 ny in Ok [x; y].
  Definition axes3 (p : mat T) nx ny nz : res (list (list T)) :=
    let* x := points_axis O p 0 nx in let* y := points_axis O p 1 ny in let* z := points_axis O p 2 nz in Ok [x; y; z].

  Lemma grid_init2 g v p g1 nx ny : g_shape g = [nx; ny] -> nrows p = 2 ->
    gridinterp_update O scp g v (Some p) = (g1, Ok tt) ->
    exists axes r0 r1, axes2 p nx ny = Ok axes /\
      nth_error (mrows v) 0 = Some r0 /\ nth_error (mrows v) 1 = Some r1 /\
      length r0 = nx * ny /\ length r1 = nx * ny /\
      g1 = GridI (g_method g) [nx; ny] (Some v) (Some p) (Some 2)
             (Some (rgi_of axes [nx; ny] r0)) (Some (rgi_of axes [nx; ny] r1)) (g_z g).
  Proof.
    intros Hs Hp H. unfold gridinterp_update in H.
    assert (H' : gridinterp_init O scp (GridI (g_method g) (g_shape g) (Some v) (Some p) (g_ndim g) (g_x g) (g_y g) (g_z g)) = (g1, Ok tt))
      by (destruct (g_x g); [destruct (g_ndim g)|]; exact H).
    clear H. unfold gridinterp_init in H'. cbn [g_velocities g_points g_shape g_method g_x g_y g_z] in H'. rewrite Hs, Hp in H'.
    destruct (negb _); [discriminate|]. cbn [Nat.eqb orb negb] in H'. fold (axes2 p nx ny) in H'.
    destruct (axes2 p nx ny) as [axes|]; [|discriminate].
    destruct (mk_rgi scp (g_method g) axes v 0 [nx; ny]) as [rx|] eqn:E0; [|discriminate].
    destruct (mk_rgi scp (g_method g) axes v 1 [nx; ny]) as [ry|] eqn:E1; [|discriminate].
    injection H' as <-. apply mk_rgi_ok in E0, E1. destruct E0 as [r0 [N0 [L0 ->]]]. destruct E1 as [r1 [N1 [L1 ->]]].
    cbn [size] in L0, L1. exists axes, r0, r1. repeat split; try assumption; lia.
  Qed.

  Lemma grid_init3 g v p g1 nx ny nz : g_shape g = [nx; ny; nz] -> nrows p = 3 ->
    gridinterp_update O scp g v (Some p) = (g1, Ok tt) ->
    exists axes r0 r1 r2, axes3 p nx ny nz = Ok axes /\
      nth_error (mrows v) 0 = Some r0 /\ nth_error (mrows v) 1 = Some r1 /\ nth_error (mrows v) 2 = Some r2 /\
      length r0 = nx * ny * nz /\ length r1 = nx * ny * nz /\ length r2 = nx * ny * nz /\
      g1 = GridI (g_method g) [nx; ny; nz] (Some v) (Some p) (Some 3)
             (Some (rgi_of axes [nx; ny; nz] r0)) (Some (rgi_of axes [nx; ny; nz] r1))
             (Some (rgi_of axes [nx; ny; nz] r2)).
  Proof.
    intros Hs Hp H. unfold gridinterp_update in H.
    assert (H' : gridinterp_init O scp (GridI (g_method g) (g_shape g) (Some v) (Some p) (g_ndim g) (g_x g) (g_y g) (g_z g)) = (g1, Ok tt))
      by (destruct (g_x g); [destruct (g_ndim g)|]; exact H).
    clear H. unfold gridinterp_init in H'. cbn [g_velocities g_points g_shape g_method g_x g_y g_z] in H'. rewrite Hs, Hp in H'.
    destruct (negb _); [discriminate|]. cbn [Nat.eqb orb negb] in H'. fold (axes3 p nx ny nz) in H'.
    destruct (axes3 p nx ny nz) as [axes|]; [|discriminate].
    destruct (mk_rgi scp (g_method g) axes v 0 _) as [rx|] eqn:E0; [|discriminate].
    destruct (mk_rgi scp (g_method g) axes v 1 _) as [ry|] eqn:E1; [|discriminate].
    destruct (mk_rgi scp (g_method g) axes v 2 _) as [rz|] eqn:E2; [|discriminate].
    injection H' as <-. apply mk_rgi_ok in E0, E1, E2.
    destruct E0 as [r0 [N0 [L0 ->]]]. destruct E1 as [r1 [N1 [L1 ->]]]. destruct E2 as [r2 [N2 [L2 ->]]].
    cbn [size] in L0, L1, L2. exists axes, r0, r1, r2. repeat split; try assumption; lia.
  Qed.

  Lemma rows3 (v : mat T) r0 r1 r2 : nrows v = 3 -> nth_error (mrows v) 0 = Some r0 ->
    nth_error (mrows v) 1 = Some r1 -> nth_error (mrows v) 2 = Some r2 -> mrows v = [r0; r1; r2].
  Proof.
    unfold nrows. destruct (mrows v) as [|a [|b [|c [|]]]]; try discriminate. cbn. congruence.
  Qed.

  (** C34 in three dimensions. *)
  Lemma only_grid3 g v1 v2 p g1 g2 nx ny nz :
    g_shape g = [nx; ny; nz] -> nrows p = 3 -> wf_mat v2 -> nrows v2 = 3 ->
    gridinterp_update O scp g v1 (Some p) = (g1, Ok tt) ->
    gridinterp_update O scp g v2 (Some p) = (g2, Ok tt) ->
    exists g1', gridinterp_update O scp g1 v2 None = (g1', Ok tt) /\
      (evaluates_current scp (g_method g) ->
       forall junk q, gridinterp_interpolate scp junk g1' q = gridinterp_interpolate scp junk g2 q).
  Proof.
    intros Hs Hp Wv Nv U1 U2.
    destruct (grid_init3 _ _ _ _ _ _ _ Hs Hp U1) as (axes & a0 & a1 & a2 & Ax & _ & _ & _ & _ & _ & _ & ->).
    destruct (grid_init3 _ _ _ _ _ _ _ Hs Hp U2) as (axes' & r0 & r1 & r2 & Ax' & N0 & N1 & N2 & L0 & L1 & L2 & ->).
    rewrite Ax in Ax'. injection Ax' as <-.
    pose proof (rows3 v2 r0 r1 r2 Nv N0 N1 N2) as Rv.
    unfold gridinterp_update. cbn [g_x g_ndim g_method g_shape g_y g_z g_velocities g_points Nat.eqb].
    assert (Cv : mcols v2 = nx * ny * nz).
    { unfold wf_mat in Wv. rewrite Rv in Wv. inversion Wv; subst. congruence. }
    assert (Re : reshape_c (nd_of_mat v2) [3; nx; ny; nz] = Ok (Nd [3; nx; ny; nz] (concat (mrows v2)))).
    { unfold reshape_c. replace (size (shape (nd_of_mat v2)) =? size [3; nx; ny; nz]) with true; [reflexivity|].
      symmetry. apply Nat.eqb_eq. cbn [nd_of_mat shape size]. rewrite Nv, Cv. lia. }
    rewrite Re.
    assert (Sub : forall c r, nth_error [r0; r1; r2] c = Some r ->
      subarray (Nd [3; nx; ny; nz] (concat (mrows v2))) c = Ok (Nd [nx; ny; nz] r)).
    { intros c r Hc. unfold subarray. cbn [shape data].
      assert (c < 3) by (apply (nth_error_Some [r0; r1; r2]); congruence).
      rewrite (proj2 (Nat.ltb_lt _ _) H). rewrite Rv. repeat f_equal.
      replace (size [nx; ny; nz]) with (nx * ny * nz) by (cbn; lia).
      apply (coord_row 3); [repeat constructor; assumption|exact Hc|reflexivity]. }
    unfold set_values. rewrite (Sub 0 r0 eq_refl), (Sub 1 r1 eq_refl), (Sub 2 r2 eq_refl). cbn [bind].
    eexists. split; [reflexivity|]. intros Cur junk q. unfold gridinterp_interpolate. cbn [g_x g_ndim g_y g_z g_method Nat.eqb].
    unfold rgi_call. cbn [r_axes r_built r_values rgi_of].
    rewrite (Cur axes (Nd [nx; ny; nz] a0) (Nd [nx; ny; nz] r0)), (Cur axes (Nd [nx; ny; nz] a1) (Nd [nx; ny; nz] r1)),
      (Cur axes (Nd [nx; ny; nz] a2) (Nd [nx; ny; nz] r2)). reflexivity.
  Qed.

  (** With a method that fits at construction, velocity-only updates have no effect. *)
  Lemma only_spline3 g v1 v2 p g1 g1' nx ny nz :
    g_shape g = [nx; ny; nz] -> nrows p = 3 ->
    gridinterp_update O scp g v1 (Some p) = (g1, Ok tt) ->
    gridinterp_update O scp g1 v2 None = (g1', Ok tt) ->
    evaluates_built scp (g_method g) ->
    forall junk q, gridinterp_interpolate scp junk g1' q = gridinterp_interpolate scp junk g1 q.
  Proof.
    intros Hs Hp U1 U2 B.
    destruct (grid_init3 _ _ _ _ _ _ _ Hs Hp U1) as (axes & a0 & a1 & a2 & Ax & _ & _ & _ & _ & _ & _ & ->).
    unfold gridinterp_update in U2. cbn [g_x g_ndim g_method g_shape g_y g_z g_velocities g_points Nat.eqb] in U2.
    destruct (reshape_c _ _) as [f|]; [|discriminate].
    unfold set_values in U2. destruct (subarray f 0) as [f0|]; [|discriminate].
    destruct (subarray f 1) as [f1|]; [|discriminate]. destruct (subarray f 2) as [f2|]; [|discriminate].
    cbn [bind] in U2. injection U2 as <-.
    intros junk q. unfold gridinterp_interpolate. cbn [g_x g_ndim g_y g_z g_method Nat.eqb].
    unfold rgi_call. cbn [r_axes r_built r_values rgi_of].
    rewrite (B axes _ f0 (Nd [nx; ny; nz] a0)), (B axes _ f1 (Nd [nx; ny; nz] a1)), (B axes _ f2 (Nd [nx; ny; nz] a2)). reflexivity.
  Qed.

  Lemma only_spline2 g v1 v2 p g1 g1' nx ny :
    g_shape g = [nx; ny] -> nrows p = 2 ->
    gridinterp_update O scp g v1 (Some p) = (g1, Ok tt) ->
    gridinterp_update O scp g1 v2 None = (g1', Ok tt) ->
    evaluates_built scp (g_method g) ->
    forall junk q, gridinterp_interpolate scp junk g1' q = gridinterp_interpolate scp junk g1 q.
  Proof.
    intros Hs Hp U1 U2 B.
    destruct (grid_init2 _ _ _ _ _ _ Hs Hp U1) as (axes & a0 & a1 & Ax & _ & _ & _ & _ & ->).
    unfold gridinterp_update in U2. cbn [g_x g_ndim g_method g_shape g_y g_z g_velocities g_points Nat.eqb] in U2.
    destruct (reshape_f _ _) as [f|]; [|discriminate].
    unfold set_values in U2. destruct (subarray f 0) as [f0|]; [|discriminate].
    destruct (subarray f 1) as [f1|]; [|discriminate].
    cbn [bind] in U2. injection U2 as <-.
    intros junk q. unfold gridinterp_interpolate. cbn [g_x g_ndim g_y g_z g_method Nat.eqb].
    unfold rgi_call. cbn [r_axes r_built r_values rgi_of].
    rewrite (B axes _ f0 (Nd [nx; ny] a0)), (B axes _ f1 (Nd [nx; ny] a1)). reflexivity.
  Qed.
End Unstructured.
