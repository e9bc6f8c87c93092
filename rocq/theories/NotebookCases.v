(** Cases for C123. *)
From Coq Require Import String Lia Reals Lra.
From Verif Require Import Base Num NdArray Particles Jacobian Integrate Interpolate Batches FileRun AnalyticalRun Writers Monitor Executor Jobs SpecSeeds SpecSolver SpecIntegrate SpecRounding SpecGridProgram
  Readers ParticleFacts Notebook SpecNotebook NotebookFacts NotebookMain BatchFacts.
Local Open Scope list_scope.
Local Open Scope R_scope.

Lemma file_memory {T} (O : ops T) xs ys s : exists data pos p,
  particle_file_2d O xs ys s = Ok data /\ positions_2d O xs ys s = Ok pos /\
  read_seed_particles_coordinates O data = Ok p /\ mk_particles O pos = Ok p.
Proof.
  destruct (file_particles O xs ys s) as (data & p & H1 & H2 & H3). exists data, (layout2 (groups2 O s xs ys)), p.
  split; [exact H1|]. split; [apply positions_rows|]. split; [exact H2|exact H3].
Qed.

Lemma seeds_case : exists pos p, positions_2d Rops [10; 20] [1; 2; 3] 5 = Ok pos /\ nrows pos = 24%nat /\ mk_particles Rops pos = Ok p /\
  nth_error (mrows (initial_centroid p)) 3 = Some [20; 2].
Proof.
  destruct (seeds_grid2 [10; 20] [1; 2; 3] 5) as (pos & p & E & Ep & _ & H). exists pos, p. split; [exact E|].
  rewrite positions_rows in E. injection E as <-. split; [reflexivity|]. split; [exact Ep|]. exact (proj1 (H 1%nat 1%nat 20 2 eq_refl eq_refl)).
Qed.

Definition bend (q : R * R) : R * R := (fst q + / 2 * (fst q * snd q), snd q + / 2 * - snd q).
Lemma image_case (scp : scipy R) : exists phi pos p w,
  (forall q, path Rops MEuler (steps (fun _ => on_rows2 (fun q => (fst q * snd q, - snd q))) (1 / 2) 2) (row2 q) = row2 (phi q)) /\
  positions_2d Rops [10; 20; 30] [1; 2] (1 / 8) = Ok pos /\ mk_particles Rops pos = Ok p /\
  analytical_start Rops scp (fun _ q => Ok (Mat (mcols q) (map (on_rows2 (fun q => (fst q * snd q, - snd q))) (mrows q)))) p (method_name MEuler) (WState (T := R) None no_files) = Ok w /\
  window_length Rops (1 / 2) (1 / 2) = Ok 2%Z /\ central2 phi (1 / 8) 10 2 = M22 3 (25 / 2) 0 (1 / 4).
Proof.
  exists (fun q => bend (bend q)). do 3 eexists. split; [|split; [apply positions_rows|split; [apply mk_particles_2|split; [reflexivity|]]]].
  - intros [x y]. unfold bend. cbn. f_equal; [field|]. f_equal. field.
  - split.
    + replace (1 / 2) with (IZR 1 * Rabs (1 / 2)) at 1 by (rewrite Rabs_pos_eq; lra). apply window_multiple. lra.
    + unfold central2, bend. cbn. f_equal; field.
Qed.
