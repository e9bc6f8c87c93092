(** More on which seed files are accepted (C71). *)
From Coq Require Import Lia.
From Verif Require Import Base Num NdArray Particles Readers SpecSeeds SpecFiles ParticleFacts ReaderFacts.

Section Readers.
  Context {T : Type} (O : ops T).

  Lemma wf_app6 (l r t b f k : mat T) c : Forall (fun m => wf_mat m /\ mcols m = c) [l; r; t; b; f; k] ->
    wf_mat (Mat c (mrows l ++ mrows r ++ mrows t ++ mrows b ++ mrows f ++ mrows k)).
  Proof.
    intro F. unfold wf_mat. cbn [mrows mcols].
    repeat match goal with H : Forall _ (_ :: _) |- _ => apply Forall_cons_iff in H; destruct H as [[? ?] H] end.
    unfold wf_mat in *. repeat match goal with H : mcols ?m = c |- _ => rewrite H in *; clear H end.
    rewrite !Forall_app. auto 10.
  Qed.
  Lemma six_accepted (data : matfile T) l r t b f k c : c = 2 \/ c = 3 ->
    holds data "left" l -> holds data "right" r -> holds data "top" t -> holds data "bottom" b ->
    holds data "front" f -> holds data "back" k ->
    Forall (fun m => wf_mat m /\ mcols m = c) [l; r; t; b; f; k] ->
    let total := nrows l + nrows r + nrows t + nrows b + nrows f + nrows k in
    ((exists p, read_seed_particles_coordinates O data = Ok p) <-> total mod (2 * c) = 0) /\
    (total mod (2 * c) <> 0 -> read_seed_particles_coordinates O data = Err AssertionError \/
                               read_seed_particles_coordinates O data = Err ValueError).
  Proof.
    intros Hc Hl Hr Ht Hb Hf Hk F total.
    rewrite (seeds_six O data _ _ _ _ _ _ c Hl Hr Ht Hb Hf Hk F).
    assert (E : nrows (Mat c (mrows l ++ mrows r ++ mrows t ++ mrows b ++ mrows f ++ mrows k)) = total)
      by (unfold nrows, total; cbn [mrows]; rewrite !app_length; unfold nrows; lia).
    pose proof (wf_app6 _ _ _ _ _ _ _ F) as W. rewrite <- E. destruct Hc as [-> | ->].
    - apply accept_2d; [exact W|reflexivity].
    - apply accept_3d; [exact W|reflexivity].
  Qed.

  Lemma missing_key (data : matfile T) k : In k ["left"; "right"; "top"; "bottom"]%string -> data k = None ->
    read_seed_particles_coordinates O data = Err ValueError.
  Proof.
    intros H N. unfold read_seed_particles_coordinates. cbn in H.
    repeat match goal with H : _ \/ _ |- _ => destruct H as [<-|H] end; [..|contradiction]; rewrite N;
      repeat match goal with |- context [match data ?k with _ => _ end] => destruct (data k) end; reflexivity.
  Qed.

  Lemma concat0_cols (ms : list (mat T)) a b : In a ms -> In b ms -> mcols a <> mcols b -> concat0 (map nd_of_mat ms) = Err ValueError.
  Proof.
    intros Ha Hb N. unfold concat0. destruct ms as [|m ms]; [contradiction|]. cbn [map shape nd_of_mat].
    destruct (forallb _ _) eqn:F; [|reflexivity]. exfalso. rewrite forallb_forall in F.
    assert (G : forall x, In x (m :: ms) -> mcols x = mcols m).
    { intros x Hx. specialize (F (nd_of_mat x) (in_map nd_of_mat (m :: ms) x Hx)). cbn [shape nd_of_mat] in F.
      destruct (list_eq_dec Nat.eq_dec [mcols x] [mcols m]) as [E|]; [injection E; auto|discriminate]. }
    apply N. rewrite (G a Ha), (G b Hb). reflexivity.
  Qed.
  Lemma columns_differ (data : matfile T) l r t b :
    holds data "left" l -> holds data "right" r -> holds data "top" t -> holds data "bottom" b ->
    (exists x y, In x [l; r; t; b] /\ In y [l; r; t; b] /\ mcols x <> mcols y) ->
    data "front"%string = None \/ data "back"%string = None ->
    read_seed_particles_coordinates O data = Err ValueError.
  Proof.
    unfold holds. intros Hl Hr Ht Hb (x & y & Hx & Hy & N) Hfb. unfold read_seed_particles_coordinates. rewrite Hl, Hr, Ht, Hb.
    pose proof (concat0_cols [l; r; t; b] x y Hx Hy N) as C. cbn [map] in C.
    destruct (data "front"%string) as [f|] eqn:Ef; [destruct (data "back"%string) as [k|] eqn:Ek|].
    - destruct Hfb; discriminate.
    - rewrite C. reflexivity.
    - rewrite C. reflexivity.
  Qed.
  Lemma columns_differ6 (data : matfile T) l r t b f k :
    holds data "left" l -> holds data "right" r -> holds data "top" t -> holds data "bottom" b -> holds data "front" f -> holds data "back" k ->
    (exists x y, In x [l; r; t; b; f; k] /\ In y [l; r; t; b; f; k] /\ mcols x <> mcols y) ->
    read_seed_particles_coordinates O data = Err ValueError.
  Proof.
    unfold holds. intros Hl Hr Ht Hb Hf Hk (x & y & Hx & Hy & N). unfold read_seed_particles_coordinates. rewrite Hl, Hr, Ht, Hb, Hf, Hk.
    pose proof (concat0_cols [l; r; t; b; f; k] x y Hx Hy N) as C. cbn [map] in C. rewrite C. reflexivity.
  Qed.
End Readers.
