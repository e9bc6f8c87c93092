(** Proofs about file_readers.py. *)
From Coq Require Import Reals Lra Lia.
From Verif Require Import Base Num NdArray NdFacts Particles Readers SpecSeeds SpecFiles ParticleFacts HighPerfFacts.

Section Readers.
  Context {T : Type} (O : ops T).

  Lemma flattened_ravel (a : nd T) : wf_nd a -> flattened a (ravel_c a).
  Proof.
    intro W. split; [exact W|]. intros ix v H. unfold nd_get in H. unfold ravel_c.
    destruct (in_bounds (shape a) ix); [|discriminate]. unfold get in H.
    destruct (nth_error (data a) (c_ravel (shape a) ix)); congruence.
  Qed.

  Lemma stack_reads (x y : nd T) rest : Forall wf_nd (x :: y :: rest) ->
    let comps := x :: y :: rest in
    let same := Forall (fun a => size (shape a) = size (shape x)) comps in
    (same -> exists m, stack (map ravel_c comps) = Ok m /\ mcols m = size (shape x) /\ Forall2 flattened comps (mrows m)) /\
    (~ same -> stack (map ravel_c comps) = Err ValueError).
  Proof.
    intros W comps same.
    assert (L : forall a, In a comps -> length (ravel_c a) = size (shape a))
      by (intros a Ha; rewrite Forall_forall in W; apply W, Ha).
    assert (F : Forall2 flattened comps (map ravel_c comps)).
    { clear same L. unfold comps in *. clear comps. induction W as [|a l Wa W IH]; cbn; constructor; [apply flattened_ravel, Wa|exact IH]. }
    assert (E : forallb (fun r => length r =? length (ravel_c x)) (map ravel_c (y :: rest)) = true <-> same).
    { rewrite forallb_forall. unfold same. rewrite Forall_forall. split.
      - intros H a [<-|Ha]; [reflexivity|].
        specialize (H (ravel_c a) (in_map _ _ _ Ha)). apply Nat.eqb_eq in H.
        rewrite (L a), (L x) in H; [exact H|left; reflexivity|right; exact Ha].
      - intros H r Hr. apply in_map_iff in Hr. destruct Hr as (a & <- & Ha). apply Nat.eqb_eq.
        rewrite (L a), (L x); [apply H; right; exact Ha|left; reflexivity|right; exact Ha]. }
    assert (Es : stack (map ravel_c comps) =
        if forallb (fun r => length r =? length (ravel_c x)) (map ravel_c (y :: rest))
        then Ok (Mat (length (ravel_c x)) (map ravel_c comps)) else Err ValueError) by reflexivity.
    rewrite Es. split; intro H.
    - apply E in H. rewrite H. eexists. split; [reflexivity|]. split; [apply L; left; reflexivity|exact F].
    - destruct (forallb _ _); [exfalso; apply H, E; reflexivity|reflexivity].
  Qed.

  Lemma read_velocity_spec (data : matfile T) : (forall k a, data k = Some a -> wf_nd a) ->
    reads data "velocity_x" "velocity_y" "velocity_z" (read_velocity data).
  Proof.
    intro W. unfold reads, read_velocity.
    destruct (data "velocity_x"%string) as [x|] eqn:Ex; [|reflexivity].
    destruct (data "velocity_y"%string) as [y|] eqn:Ey; [|reflexivity].
    destruct (data "velocity_z"%string) as [z|] eqn:Ez; apply (stack_reads x y); repeat constructor; eapply W; eassumption.
  Qed.

  Lemma read_coordinate_spec (data : matfile T) : (forall k a, data k = Some a -> wf_nd a) ->
    reads data "coordinate_x" "coordinate_y" "coordinate_z" (read_coordinate data).
  Proof.
    intro W. unfold reads, read_coordinate.
    destruct (data "coordinate_x"%string) as [x|] eqn:Ex; [|reflexivity].
    destruct (data "coordinate_y"%string) as [y|] eqn:Ey; [|reflexivity].
    destruct (data "coordinate_z"%string) as [z|] eqn:Ez; apply (stack_reads x y); repeat constructor; eapply W; eassumption.
  Qed.

  (** Seeds. *)
  Lemma chunks_concat (rows : list (list T)) c : Forall (fun r => length r = c) rows ->
    chunks (length rows) c (concat rows) = rows.
  Proof.
    induction 1 as [|r rows Hr H IH]; [reflexivity|]. cbn.
    rewrite firstn_app, skipn_app, Hr, Nat.sub_diag, firstn_all2, skipn_all2 by lia.
    cbn. rewrite app_nil_r, IH. reflexivity.
  Qed.

  Lemma concat_concat_map (ms : list (mat T)) :
    concat (map (fun m => concat (mrows m)) ms) = concat (concat (map mrows ms)).
  Proof. induction ms as [|m ms IH]; cbn; [reflexivity|]. rewrite concat_app, IH. reflexivity. Qed.

  Lemma concat0_mats c (ms : list (mat T)) : ms <> [] -> Forall (fun m => wf_mat m /\ mcols m = c) ms ->
    exists a, concat0 (map nd_of_mat ms) = Ok a /\ mat_of_nd a = Some (Mat c (concat (map mrows ms))).
  Proof.
    intros N F. destruct ms as [|m ms]; [contradiction|]. eexists. unfold concat0. cbn [map nd_of_mat shape].
    inversion F as [|? ? [Wm Cm] F']; subst. split.
    - match goal with |- (if ?b then _ else _) = _ => assert (b = true) as -> end; [|reflexivity].
      apply forallb_forall. intros b Hb. change (In b (map nd_of_mat (m :: ms))) in Hb. apply in_map_iff in Hb.
      destruct Hb as (m' & <- & Hm). cbn [nd_of_mat shape]. rewrite Forall_forall in F. destruct (F _ Hm) as [_ ->].
      destruct (list_eq_dec Nat.eq_dec [mcols m] [mcols m]); [reflexivity|congruence].
    - unfold mat_of_nd. cbn [shape data].
      change (nd_of_mat m :: map nd_of_mat ms) with (map nd_of_mat (m :: ms)).
      assert (E : fold_right (fun b n => hd 0 (shape b) + n) 0 (map nd_of_mat (m :: ms)) = length (concat (map mrows (m :: ms)))).
      { generalize (m :: ms) as l. induction l as [|a l IH]; [reflexivity|]. cbn. rewrite app_length. unfold nrows. cbn in IH. lia. }
      rewrite E.
      assert (D : concat (data (nd_of_mat m) :: map data (map nd_of_mat ms)) = concat (concat (map mrows (m :: ms)))).
      { rewrite map_map. apply (concat_concat_map (m :: ms)). }
      change (data (Nd [nrows m; mcols m] (concat (mrows m)))) with (data (nd_of_mat m)).
      rewrite D, chunks_concat; [reflexivity|].
      apply Forall_forall. intros r Hr. apply in_concat in Hr. destruct Hr as (l & Hl & Hr).
      apply in_map_iff in Hl. destruct Hl as (m' & <- & Hm). rewrite Forall_forall in F. destruct (F _ Hm) as [W <-].
      unfold wf_mat in W. rewrite Forall_forall in W. apply W, Hr.
  Qed.

  Lemma seeds_four (data : matfile T) l r t b c : holds data "left" l -> holds data "right" r ->
    holds data "top" t -> holds data "bottom" b -> data "front"%string = None \/ data "back"%string = None ->
    Forall (fun m => wf_mat m /\ mcols m = c) [l; r; t; b] ->
    read_seed_particles_coordinates O data = mk_particles O (Mat c (mrows l ++ mrows r ++ mrows t ++ mrows b)).
  Proof.
    unfold holds. intros Hl Hr Ht Hb Hfb F. unfold read_seed_particles_coordinates. rewrite Hl, Hr, Ht, Hb.
    destruct (concat0_mats c [l; r; t; b]) as (a & E & M); [discriminate|exact F|]. cbn [map concat] in E, M.
    rewrite app_nil_r in M.
    assert (D : match data "front"%string, data "back"%string with
      | Some front, Some back => concat0 [nd_of_mat l; nd_of_mat r; nd_of_mat t; nd_of_mat b; front; back]
      | _, _ => concat0 [nd_of_mat l; nd_of_mat r; nd_of_mat t; nd_of_mat b] end = Ok a).
    { destruct Hfb as [-> | ->]; [exact E|]. destruct (data "front"%string); exact E. }
    rewrite D. cbn [bind]. rewrite M. reflexivity.
  Qed.

  Lemma seeds_six (data : matfile T) l r t b f k c : holds data "left" l -> holds data "right" r ->
    holds data "top" t -> holds data "bottom" b -> holds data "front" f -> holds data "back" k ->
    Forall (fun m => wf_mat m /\ mcols m = c) [l; r; t; b; f; k] ->
    read_seed_particles_coordinates O data =
      mk_particles O (Mat c (mrows l ++ mrows r ++ mrows t ++ mrows b ++ mrows f ++ mrows k)).
  Proof.
    unfold holds. intros Hl Hr Ht Hb Hf Hk F. unfold read_seed_particles_coordinates. rewrite Hl, Hr, Ht, Hb, Hf, Hk.
    destruct (concat0_mats c [l; r; t; b; f; k]) as (a & E & M); [discriminate|exact F|]. cbn [map concat] in E, M.
    rewrite app_nil_r in M. rewrite E. cbn [bind]. rewrite M. reflexivity.
  Qed.

  Lemma seeds_2d (data : matfile T) gs : holds data "left" (arr2 (map g_left gs)) -> holds data "right" (arr2 (map g_right gs)) ->
    holds data "top" (arr2 (map g_top gs)) -> holds data "bottom" (arr2 (map g_bottom gs)) ->
    data "front"%string = None \/ data "back"%string = None ->
    exists p, read_seed_particles_coordinates O data = Ok p /\ mk_particles O (layout2 gs) = Ok p.
  Proof.
    intros Hl Hr Ht Hb Hfb. exists (mk2 O gs). rewrite (seeds_four data _ _ _ _ 2 Hl Hr Ht Hb Hfb) by (repeat constructor; apply arr2_wf).
    cbn [arr2 mrows]. rewrite <- !map_app. fold (arr2 (map g_left gs ++ map g_right gs ++ map g_top gs ++ map g_bottom gs)).
    split; apply mk_particles_2.
  Qed.

  Lemma seeds_3d (data : matfile T) gs : holds data "left" (arr3 (map h_left gs)) -> holds data "right" (arr3 (map h_right gs)) ->
    holds data "top" (arr3 (map h_top gs)) -> holds data "bottom" (arr3 (map h_bottom gs)) ->
    holds data "front" (arr3 (map h_front gs)) -> holds data "back" (arr3 (map h_back gs)) ->
    exists p, read_seed_particles_coordinates O data = Ok p /\ mk_particles O (layout3 gs) = Ok p.
  Proof.
    intros Hl Hr Ht Hb Hf Hk. exists (mk3 O gs). rewrite (seeds_six data _ _ _ _ _ _ 3 Hl Hr Ht Hb Hf Hk) by (repeat constructor; apply arr3_wf).
    cbn [arr3 mrows]. rewrite <- !map_app.
    fold (arr3 (map h_left gs ++ map h_right gs ++ map h_top gs ++ map h_bottom gs ++ map h_front gs ++ map h_back gs)).
    split; apply mk_particles_3.
  Qed.

  Lemma wf_app4 (l r t b : mat T) c : Forall (fun m => wf_mat m /\ mcols m = c) [l; r; t; b] ->
    wf_mat (Mat c (mrows l ++ mrows r ++ mrows t ++ mrows b)).
  Proof.
    intro F. unfold wf_mat. cbn [mrows mcols].
    inversion_clear F as [|? ? [W1 C1] F1]. inversion_clear F1 as [|? ? [W2 C2] F2].
    inversion_clear F2 as [|? ? [W3 C3] F3]. inversion_clear F3 as [|? ? [W4 C4] _].
    unfold wf_mat in *. rewrite C1 in W1. rewrite C2 in W2. rewrite C3 in W3. rewrite C4 in W4.
    rewrite !Forall_app. auto.
  Qed.

  (** Without front and back: accepted iff the total number of rows is a multiple of twice the number
      of columns, whatever the individual numbers. *)
  Lemma four_accepted (data : matfile T) l r t b c : c = 2 \/ c = 3 ->
    holds data "left" l -> holds data "right" r -> holds data "top" t -> holds data "bottom" b ->
    data "front"%string = None \/ data "back"%string = None ->
    Forall (fun m => wf_mat m /\ mcols m = c) [l; r; t; b] ->
    let total := nrows l + nrows r + nrows t + nrows b in
    ((exists p, read_seed_particles_coordinates O data = Ok p) <-> total mod (2 * c) = 0) /\
    (total mod (2 * c) <> 0 -> read_seed_particles_coordinates O data = Err AssertionError \/
                               read_seed_particles_coordinates O data = Err ValueError).
  Proof.
    intros Hc Hl Hr Ht Hb Hfb F total.
    rewrite (seeds_four data _ _ _ _ c Hl Hr Ht Hb Hfb F).
    assert (E : nrows (Mat c (mrows l ++ mrows r ++ mrows t ++ mrows b)) = total)
      by (unfold nrows, total; cbn [mrows]; rewrite !app_length; unfold nrows; lia).
    pose proof (wf_app4 _ _ _ _ _ F) as W. rewrite <- E. destruct Hc as [-> | ->].
    - apply accept_2d; [exact W|reflexivity].
    - apply accept_3d; [exact W|reflexivity].
  Qed.
End Readers.

(** Refutations. *)
Definition file_of {T} (l : list (string * nd T)) : matfile T :=
  fun k => option_map snd (find (fun p => String.eqb (fst p) k) l).

Local Open Scope R_scope.
Lemma column_major_refuted : exists (data : matfile R) x m row,
  data "velocity_x"%string = Some x /\ wf_nd x /\ shape x = [2; 2]%nat /\
  read_velocity data = Ok m /\ nth_error (mrows m) 0 = Some row /\
  nd_get x [1; 0]%nat = Ok 3 /\ nth_error row (1 + 2 * 0) <> Some 3.
Proof.
  set (x := Nd [2; 2]%nat [1; 2; 3; 4]).
  exists (file_of [("velocity_x"%string, x); ("velocity_y"%string, x)]), x. eexists. eexists.
  split; [reflexivity|]. split; [reflexivity|]. split; [reflexivity|]. split; [reflexivity|]. split; [reflexivity|].
  split; [reflexivity|]. cbn. intro H. injection H as H. lra.
Qed.

Definition zeros2 n : mat R := Mat 2 (repeat [0; 0] n).
Definition zeros3 n : mat R := Mat 3 (repeat [0; 0; 0] n).
Lemma zeros2_wf n : wf_mat (zeros2 n) /\ mcols (zeros2 n) = 2%nat.
Proof. split; [|reflexivity]. apply Forall_forall. intros r Hr. apply repeat_spec in Hr. subst r. reflexivity. Qed.
Lemma zeros3_wf n : wf_mat (zeros3 n) /\ mcols (zeros3 n) = 3%nat.
Proof. split; [|reflexivity]. apply Forall_forall. intros r Hr. apply repeat_spec in Hr. subst r. reflexivity. Qed.

Lemma missing_back_refuted : exists (data : matfile R) l r t b f p,
  holds data "left" l /\ holds data "right" r /\ holds data "top" t /\ holds data "bottom" b /\ holds data "front" f /\
  data "back"%string = None /\ Forall (fun m => wf_mat m /\ mcols m = 3%nat /\ nrows m = 3%nat) [l; r; t; b; f] /\
  read_seed_particles_coordinates Rops data = Ok p.
Proof.
  set (data := file_of (map (fun k => (k, nd_of_mat (zeros3 3))) ["left"; "right"; "top"; "bottom"; "front"]%string)).
  destruct (four_accepted Rops data (zeros3 3) (zeros3 3) (zeros3 3) (zeros3 3) 3) as [[_ A] _];
    try reflexivity; [right; reflexivity|right; reflexivity|repeat constructor; apply zeros3_wf|].
  destruct A as [p Hp]; [reflexivity|].
  exists data, (zeros3 3), (zeros3 3), (zeros3 3), (zeros3 3), (zeros3 3), p.
  repeat (split; [reflexivity|]). split; [|exact Hp]. repeat constructor.
Qed.

Lemma lengths_refuted : exists (data : matfile R) l r t b p,
  holds data "left" l /\ holds data "right" r /\ holds data "top" t /\ holds data "bottom" b /\
  data "front"%string = None /\ Forall (fun m => wf_mat m /\ mcols m = 2%nat) [l; r; t; b] /\
  nrows l <> nrows r /\ read_seed_particles_coordinates Rops data = Ok p.
Proof.
  set (data := file_of [("left", nd_of_mat (zeros2 2)); ("right", nd_of_mat (zeros2 3));
                        ("top", nd_of_mat (zeros2 2)); ("bottom", nd_of_mat (zeros2 1))]%string).
  destruct (four_accepted Rops data (zeros2 2) (zeros2 3) (zeros2 2) (zeros2 1) 2) as [[_ A] _];
    try reflexivity; [left; reflexivity|left; reflexivity|repeat constructor; apply zeros2_wf|].
  destruct A as [p Hp]; [reflexivity|].
  exists data, (zeros2 2), (zeros2 3), (zeros2 2), (zeros2 1), p.
  repeat (split; [reflexivity|]). split; [repeat constructor|]. split; [cbn; lia|exact Hp].
Qed.
