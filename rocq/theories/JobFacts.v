(** Lemmas about Jobs.v. *)
From Coq Require Import Lia Permutation.
From Verif Require Import Base Num NdArray NdFacts Particles Jacobian JacobianFacts Ftle Integrate IntegrateFacts DataSource
  Solver SpecSolver SolverFacts SolverField Writers SpecWriters WriterMain Monitor Executor SpecExecutor ExecutorFacts ExecutorMain ExecutorProps Jobs Manager SpecProgram.

Lemma indexed_length {A} (l : list A) : length (indexed l) = length l.
Proof. unfold indexed. rewrite combine_length, seq_length. lia. Qed.
Lemma indexed_nth_from {A} (l : list A) i k : nth_error (combine (seq k (length l)) l) i = option_map (fun a => (k + i, a)) (nth_error l i).
Proof.
  revert i k. induction l as [|a l IH]; intros [|i] k; cbn; try reflexivity; [do 2 f_equal; lia|].
  rewrite IH. destruct (nth_error l i); cbn; [do 2 f_equal; lia|reflexivity].
Qed.
Lemma indexed_nth {A} (l : list A) i : nth_error (indexed l) i = option_map (pair i) (nth_error l i).
Proof. unfold indexed. rewrite indexed_nth_from. reflexivity. Qed.
Lemma indexed_in {A} (l : list A) ia : In ia (indexed l) <-> nth_error l (fst ia) = Some (snd ia).
Proof.
  split.
  - intro H. destruct (In_nth_error _ _ H) as (i & Hi). rewrite indexed_nth in Hi. destruct (nth_error l i) eqn:E; [|discriminate].
    injection Hi as <-. exact E.
  - destruct ia as [i a]. cbn. intro H. apply (nth_error_In _ i). rewrite indexed_nth, H. reflexivity.
Qed.

(** ** What a solver does does not depend on the files *)

Section Files.
  Context {T : Type} (O : ops T) {S P : Type}.
  Variable interpolate : S -> mat T -> S * res (mat T).
  Variable eigvals : m33 T -> res (T * T * T).
  Variable mems : nat -> memory (T := T).
  Variable wr : writer.
  Notation runs := (run O interpolate eigvals mems (write O wr)).

  (** Same objects, other files. *)
  Definition put_files (fs : string -> option (content T)) (w : world T S P (@wstate T)) : world T S P (@wstate T) :=
    World (w_integrator w) (w_interp w) (w_source w) (w_queue w) (WState (w_dim (w_writer w)) fs) (w_clock w).

  Lemma run_steps_files sv id fs n : forall i (w : world T S P (@wstate T)) p w' p' r,
    run_steps O interpolate mems sv id n i w p = (w', p', r) ->
    run_steps O interpolate mems sv id n i (put_files fs w) p = (put_files fs w', p', r) /\ w_writer w' = w_writer w.
  Proof.
    induction n as [|n IH]; intros i w p w' p' r H; cbn [run_steps] in *.
    - injection H as <- <- <-. auto.
    - cbn [put_files w_interp w_clock w_integrator w_source w_queue w_writer] in *.
      destruct (src_update (s_source sv) (w_interp w) i) as [s1 [[]|e]].
      + destruct (integrate _ _ _ _ _ _ _) as [[[ig s2] p1] [[]|e]].
        * apply IH in H as [H Hw]. split; [exact H|]. rewrite Hw. reflexivity.
        * injection H as <- <- <-. auto.
      + injection H as <- <- <-. auto.
  Qed.

  Lemma write_files st name f c st' r : write O wr st name f c = (st', r) ->
    forall fs, exists fs', write O wr (WState (w_dim st) fs) name f c = (WState (w_dim st') fs', r) /\
      match r with
      | Err _ => fs' = fs
      | Ok _ => forall p, fs' p = if String.eqb p (output_path wr name) then w_files st' p else fs p
      end.
  Proof.
    unfold write. cbn [w_dim w_files]. cbv zeta. intros H fs.
    destruct (match wr_format wr with Mat_format => _ | Vtk_format => _ end) as [cs|e].
    - injection H as <- <-. cbn [w_dim w_files]. eexists. split; [reflexivity|]. intro p. unfold put.
      destruct (String.eqb p (output_path wr name)); reflexivity.
    - injection H as <- <-. cbn [w_dim]. eexists. split; [reflexivity|]. reflexivity.
  Qed.

  Lemma run_files sv (w w' : world T S P (@wstate T)) r : runs sv w = (w', r) ->
    forall fs, exists fs', runs sv (put_files fs w) = (put_files fs' w', r) /\
      match r with
      | Ok None => exists id, src_id (s_source sv) = Ok id /\ s_writer sv = true /\
          (exists c, w_files (w_writer w') (output_path wr (append "ftle_" id)) = Some c) /\
          forall p, fs' p = if String.eqb p (output_path wr (append "ftle_" id)) then w_files (w_writer w') p else fs p
      | _ => fs' = fs
      end.
  Proof.
    intros H fs. unfold run in *. cbn [put_files w_source].
    destruct (src_particles (s_source sv) (w_source w)) as [p|e]; [|injection H as <- <-; exists fs; auto].
    destruct (src_id (s_source sv)) as [id|e]; [|injection H as <- <-; exists fs; auto].
    destruct (run_steps O interpolate mems sv id (src_steps (s_source sv)) 0 w p) as [[w1 p1] r1] eqn:E1.
    apply (run_steps_files sv id fs) in E1 as [E1 Ew]. rewrite E1.
    destruct r1 as [[]|e]; [|injection H as <- <-; exists fs; auto].
    cbn [put_files w_integrator w_interp w_source w_queue w_writer w_clock keep] in *.
    destruct (compute_ftle O eigvals (src_steps (s_source sv)) (src_timestep (s_source sv)) p1) as [f|e];
      [|injection H as <- <-; exists fs; auto].
    destruct (s_writer sv) eqn:Es; [|injection H as <- <-; exists fs; auto].
    unfold keep in *. cbn [w_integrator w_interp w_source w_queue w_writer w_clock] in *.
    destruct (write O wr (w_writer w1) (append "ftle_" id) f (initial_centroid p1)) as [st rw] eqn:Ewr.
    injection H as <- <-. destruct (write_files _ _ _ _ _ _ Ewr fs) as (fs' & Ew' & Hf). exists fs'.
    rewrite Ew'. split; [reflexivity|]. destruct rw as [[]|e]; [|exact Hf]. cbn [bind w_writer]. exists id. repeat split; auto.
    destruct (write_one O wr _ _ _ _ _ _ Ewr) as [(e & D & _)|(_ & c & Hc & _)]; [discriminate|]. exists c. exact Hc.
  Qed.

  Definition solver_job (i : nat) (sv : solver T S P) (w : world T S P (@wstate T)) : task (option (list (xval T))) (files T) :=
    job i (runs sv) w.

  (** Messages and result of a task do not depend on the files, nor does what it writes. *)
  Lemma job_files i sv (w : world T S P (@wstate T)) fs :
    w_queue (fst (runs sv (with_files w fs))) = t_talk (solver_job i sv w) /\
    snd (runs sv (with_files w fs)) = t_outcome (solver_job i sv w) /\
    forall p, w_files (w_writer (fst (runs sv (with_files w fs)))) p =
      match w_files (w_writer (fst (runs sv (with_files w no_files)))) p with Some c => Some c | None => fs p end.
  Proof.
    unfold solver_job, job. cbn [t_talk t_outcome].
    destruct (runs sv (with_files w no_files)) as [w1 r1] eqn:E. destruct (run_files _ _ _ _ E fs) as (fs' & E' & H).
    destruct (run_files _ _ _ _ E no_files) as (fs0 & E0 & H0).
    change (put_files no_files (with_files w no_files)) with (with_files w no_files) in E0. rewrite E in E0. injection E0 as Ew.
    change (put_files fs (with_files w no_files)) with (with_files w fs) in E'. rewrite E'. split; [reflexivity|]. split; [reflexivity|].
    cbn [fst put_files w_writer w_files]. intro p. rewrite Ew. cbn [put_files w_writer w_files].
    destruct r1 as [[f|]|e].
    - subst. reflexivity.
    - destruct H as (id & Hid & _ & (c & Hc) & H). destruct H0 as (id0 & Hid0 & _ & _ & H0). rewrite Hid in Hid0. injection Hid0 as <-.
      rewrite H, H0. destruct (String.eqb p (output_path wr (append "ftle_" id))) eqn:Ep; [|reflexivity].
      apply String.eqb_eq in Ep. subst p. rewrite Hc. reflexivity.
    - subst. reflexivity.
  Qed.

  (** What a task writes: nothing if it fails or has no writer, else its one output file. *)
  Definition alone (sv : solver T S P) (w : world T S P (@wstate T)) : string -> option (content T) :=
    w_files (w_writer (fst (runs sv (with_files w no_files)))).

  Lemma job_effect i sv (w : world T S P (@wstate T)) :
    match t_outcome (solver_job i sv w) with
    | Ok None => exists id, src_id (s_source sv) = Ok id /\ s_writer sv = true /\
        (exists c, alone sv w (output_path wr (append "ftle_" id)) = Some c) /\
        forall p, p <> output_path wr (append "ftle_" id) -> alone sv w p = None
    | _ => forall p, alone sv w p = None
    end.
  Proof.
    unfold solver_job, job, alone. cbn [t_outcome].
    destruct (runs sv (with_files w no_files)) as [w1 r1] eqn:E. cbn [fst snd].
    destruct (run_files _ _ _ _ E no_files) as (fs0 & E0 & H0).
    change (put_files no_files (with_files w no_files)) with (with_files w no_files) in E0. rewrite E in E0. injection E0 as Ew.
    destruct r1 as [[f|]|e].
    1,3: intro p; rewrite Ew; cbn [put_files w_writer w_files]; subst; reflexivity.
    destruct H0 as (id & Eid & Es & Hc & H). exists id. repeat split; auto.
    intros p Hp. rewrite Ew. cbn [put_files w_writer w_files]. rewrite H. apply String.eqb_neq in Hp. rewrite Hp. reflexivity.
  Qed.
End Files.

(** ** The files after a run *)

(** The task [t] with number [i], if it succeeds, writes [cont] to the file [path] and leaves all other files; if it fails it changes none. *)
Definition one_file {T} (i : nat) (t : task (option (list (xval T))) (files T)) (path : string) (cont : option (content T)) : Prop :=
  match t_outcome t with
  | Ok None => exists c, cont = Some c /\
      (forall fs p, t_open t fs p = if String.eqb p path then Some (open_entry i (fs p)) else fs p) /\
      (forall fs p, t_effect t fs p = if String.eqb p path then close_entry i c (fs p) else fs p)
  | _ => forall fs p, t_open t fs p = fs p /\ t_effect t fs p = fs p
  end.

Lemma job_one_file {T} (O : ops T) {S P} interpolate eigvals mems wr i (sv : solver T S P) (w : world T S P (@wstate T)) path :
  (forall id, src_id (s_source sv) = Ok id -> path = output_path wr (append "ftle_" id)) ->
  one_file i (solver_job O interpolate eigvals mems wr i sv w) path (alone O interpolate eigvals mems wr sv w path).
Proof.
  intros Hid. unfold one_file. pose proof (job_effect O interpolate eigvals mems wr i sv w) as H.
  destruct (t_outcome (solver_job O interpolate eigvals mems wr i sv w)) as [[f|]|e].
  1,3: unfold solver_job, job, open_files, close_files; cbn [t_open t_effect]; intros fs p; specialize (H p); unfold alone in H; rewrite H; auto.
  destruct H as (id & E & _ & (c & Hc) & H). rewrite (Hid id E). exists c. split; [exact Hc|].
  unfold solver_job, job, open_files, close_files; cbn [t_open t_effect].
  split; intros fs p; destruct (String.eqb p (output_path wr (append "ftle_" id))) eqn:Ep.
  1,3: apply String.eqb_eq in Ep; subst p; unfold alone in Hc; rewrite Hc; reflexivity.
  1,2: apply String.eqb_neq in Ep; specialize (H p Ep); unfold alone in H; rewrite H; reflexivity.
Qed.

Section Disk.
  Context {T A : Type}.
  Variable tk : A -> task (option (list (xval T))) (files T).
  Variable num : A -> nat.
  Variable path : A -> string.
  Variable cont : A -> option (content T).
  Hypothesis Htk : forall a, one_file (num a) (tk a) (path a) (cont a).
  Variable l : list A.
  Hypothesis Hnum : forall i a, nth_error l i = Some a -> num a = i.
  Notation tasks := (map tk l).

  (** Task [i] succeeds and its output file is [p]. *)
  Definition outputs_to (i : nat) (p : string) : Prop :=
    exists a, nth_error l i = Some a /\ t_outcome (tk a) = Ok None /\ p = path a.
  Definition writesb (p : string) (i : nat) : bool :=
    match nth_error l i with
    | Some a => match t_outcome (tk a) with Ok None => String.eqb p (path a) | _ => false end
    | None => false
    end.
  Lemma writesb_iff p i : writesb p i = true <-> outputs_to i p.
  Proof.
    unfold writesb, outputs_to. split.
    - destruct (nth_error l i) as [a|] eqn:E; [|discriminate]. destruct (t_outcome (tk a)) as [[f|]|e] eqn:Et; try discriminate.
      intro H. apply String.eqb_eq in H. exists a. auto.
    - intros (a & -> & -> & ->). apply String.eqb_refl.
  Qed.

  Definition cont_of (i : nat) : option (content T) := match nth_error l i with Some a => cont a | None => None end.

  Lemma cont_some i p : outputs_to i p -> exists c, cont_of i = Some c.
  Proof.
    intros (a & Ha & Ho & _). unfold cont_of. rewrite Ha. pose proof (Htk a) as H. unfold one_file in H. rewrite Ho in H.
    destruct H as (c & Hc & _). eauto.
  Qed.

  (** An event, seen at the file [p]. *)
  Lemma happen_other fs p e i : e = Opens i \/ e = Closes i -> ~ outputs_to i p -> happen tasks fs e p = fs p.
  Proof.
    intros He Hn. assert (Hb : writesb p i = false) by (destruct (writesb p i) eqn:E; [apply writesb_iff in E; contradiction|reflexivity]).
    unfold writesb in Hb. destruct He as [-> | ->]; cbn [happen]; rewrite nth_error_map; destruct (nth_error l i) as [a|] eqn:Ea; cbn [option_map]; try reflexivity;
      pose proof (Htk a) as H; unfold one_file in H; destruct (t_outcome (tk a)) as [[f|]|x]; try apply H;
      destruct H as (c & _ & H1 & H2); rewrite ?H1, ?H2, Hb; reflexivity.
  Qed.
  Lemma happen_open fs p i : outputs_to i p -> happen tasks fs (Opens i) p = Some (open_entry i (fs p)).
  Proof.
    intros (a & Ha & Ho & ->). cbn [happen]. rewrite nth_error_map, Ha. cbn [option_map]. pose proof (Htk a) as H. unfold one_file in H. rewrite Ho in H.
    destruct H as (c & _ & H & _). rewrite H, String.eqb_refl, (Hnum i a Ha). reflexivity.
  Qed.
  Lemma happen_close fs p i c : outputs_to i p -> cont_of i = Some c -> happen tasks fs (Closes i) p = close_entry i c (fs p).
  Proof.
    intros (a & Ha & Ho & ->) Hc. unfold cont_of in Hc. rewrite Ha in Hc. cbn [happen]. rewrite nth_error_map, Ha. cbn [option_map].
    pose proof (Htk a) as H. unfold one_file in H. rewrite Ho in H.
    destruct H as (c' & Hc' & _ & H). rewrite H, String.eqb_refl, (Hnum i a Ha). congruence.
  Qed.

  (** What a file can be after the events [evs]. *)
  Definition entry_after (fs : files T) (evs : list event) (p : string) (found : option (entry T)) : Prop :=
    (found = fs p /\ forall i, outputs_to i p -> ~ In (Opens i) evs) \/
    (exists i c, found = Some (Whole c) /\ outputs_to i p /\ cont_of i = Some c /\ In (Closes i) evs /\
       forall j, outputs_to j p -> In (Opens j) evs -> In (Closes j) evs) \/
    (exists k, found = Some (Unfinished k) /\ k <> [] /\ NoDup k /\
       (forall i, In i k -> outputs_to i p /\ In (Opens i) evs) /\
       (forall i, k = [i] -> ~ In (Closes i) evs) /\
       forall j, outputs_to j p -> In (Opens j) evs -> In j k \/ In (Closes j) evs).

  Lemma orderly_prefix evs e : orderly (evs ++ [e]) -> orderly evs /\ ~ In e evs /\ forall i, e = Closes i -> In (Opens i) evs.
  Proof.
    intros [Hn Ho]. apply NoDup_mid in Hn. rewrite app_nil_r in Hn. inversion Hn as [|x y Hni Hn']. subst. split; [|split; [assumption|]].
    - split; [assumption|]. intros l1 i l2 E. apply (Ho l1 i (l2 ++ [e])). rewrite E, <- app_assoc. reflexivity.
    - intros i ->. exact (Ho evs i [] eq_refl).
  Qed.

  Lemma entries fs evs p : settled_files fs -> orderly evs -> entry_after fs evs p (effects tasks evs fs p).
  Proof.
    intros Hs. induction evs as [|e evs IH] using rev_ind; intro Ho.
    { left. split; [reflexivity|]. intros i _ []. }
    apply orderly_prefix in Ho as (Ho & Hne & Hop). specialize (IH Ho). rewrite effects_snoc.
    assert (Hi : exists i, e = Opens i \/ e = Closes i) by (destruct e as [i|i]; exists i; auto). destruct Hi as (i & Hi).
    assert (IN : forall x, In x (evs ++ [e]) <-> In x evs \/ x = e).
    { intro x. rewrite in_app_iff. cbn. split; [intros [H|[H|[]]]; auto|intros [H|H]; auto]. }
    destruct (writesb p i) eqn:Eb.
    2:{ assert (Hno : ~ outputs_to i p) by (intro H; apply writesb_iff in H; congruence).
        rewrite (happen_other _ p e i Hi Hno).
        assert (NE : forall j, outputs_to j p -> Opens j <> e /\ Closes j <> e).
        { intros j Hj. split; intros D; subst e; destruct Hi as [Hi|Hi]; try discriminate; injection Hi as ->; contradiction. }
        destruct IH as [[E H]|[(j & c & E & Hj & Hc & Hcl & Hall)|(k & E & Hk & Hnd & H1 & H2 & H3)]].
        - left. split; [exact E|]. intros j Hj. rewrite IN. intros [X|X]; [exact (H j Hj X)|exact (proj1 (NE j Hj) X)].
        - right. left. exists j, c. split; [exact E|]. split; [exact Hj|]. split; [exact Hc|]. split; [apply IN; auto|].
          intros j' Hj'. rewrite !IN. intros [X|X]; [left; auto|destruct (proj1 (NE j' Hj') X)].
        - right. right. exists k. split; [exact E|]. split; [exact Hk|]. split; [exact Hnd|]. split; [|split].
          + intros j Hj. destruct (H1 j Hj). split; [assumption|]. apply IN. auto.
          + intros j -> X. apply IN in X as [X|X]; [exact (H2 j eq_refl X)|]. destruct (H1 j (or_introl eq_refl)) as [Hj _]. exact (proj2 (NE j Hj) X).
          + intros j Hj X. rewrite IN. apply IN in X as [X|X]; [destruct (H3 j Hj X); auto|destruct (proj1 (NE j Hj) X)]. }
    apply writesb_iff in Eb. destruct Hi as [-> | ->].
    - rewrite (happen_open _ p i Eb). right. right.
      destruct IH as [[E H]|[(j & c & E & Hj & Hc & Hcl & Hall)|(k & E & Hk & Hnd & H1 & H2 & H3)]]; rewrite E.
      + exists [i]. split; [unfold open_entry; destruct (fs p) as [[c|k|]|] eqn:Ef; try reflexivity; destruct (Hs p k Ef)|]. split; [discriminate|].
        split; [constructor; [intros []|constructor]|]. split; [intros j [<-|[]]; split; [exact Eb|apply IN; auto]|]. split.
        * intros j Ej X. injection Ej as <-. apply IN in X as [X|X]; [|discriminate]. apply in_split in X as (l1 & l2 & X).
          apply (H i Eb). rewrite X. apply in_app_iff. left. exact (proj2 Ho l1 i l2 X).
        * intros j Hj X. apply IN in X as [X|X]; [destruct (H j Hj X)|injection X as ->; left; left; reflexivity].
      + exists [i]. split; [reflexivity|]. split; [discriminate|]. split; [constructor; [intros []|constructor]|].
        split; [intros j' [<-|[]]; split; [exact Eb|apply IN; auto]|]. split.
        * intros j' Ej X. injection Ej as <-. apply IN in X as [X|X]; [|discriminate]. apply in_split in X as (l1 & l2 & X).
          apply Hne. rewrite X. apply in_app_iff. left. exact (proj2 Ho l1 i l2 X).
        * intros j' Hj' X. rewrite IN. apply IN in X as [X|X]; [right; left; exact (Hall j' Hj' X)|injection X as ->; left; left; reflexivity].
      + exists (i :: k). split; [reflexivity|]. split; [discriminate|].
        split; [constructor; [intro X; destruct (H1 i X); contradiction|exact Hnd]|]. split; [|split].
        * intros j [<-|Hj]; [split; [exact Eb|apply IN; auto]|]. destruct (H1 j Hj). split; [assumption|apply IN; auto].
        * intros j Ej. injection Ej as -> ->. congruence.
        * intros j Hj X. rewrite IN. apply IN in X as [X|X]; [destruct (H3 j Hj X); [left; right; assumption|auto]|injection X as ->; left; left; reflexivity].
    - destruct (cont_some i p Eb) as (c & Hc). rewrite (happen_close _ p i c Eb Hc). specialize (Hop i eq_refl).
      destruct IH as [[E H]|[(j & c' & E & Hj & Hc' & Hcl & Hall)|(k & E & Hk & Hnd & H1 & H2 & H3)]].
      + destruct (H i Eb Hop).
      + destruct (Hne (Hall i Eb Hop)).
      + assert (Hik : In i k) by (destruct (H3 i Eb Hop); [assumption|contradiction]). rewrite E.
        destruct k as [|j [|j' k]]; [congruence| |].
        * destruct Hik as [<-|[]]. unfold close_entry. rewrite Nat.eqb_refl. right. left. exists j, c. split; [reflexivity|]. split; [exact Eb|].
          split; [exact Hc|]. split; [apply IN; auto|]. intros j' Hj' X. rewrite IN. apply IN in X as [X|X]; [|discriminate].
          destruct (H3 j' Hj' X) as [[<-|[]]|Y]; auto.
        * right. right. exists (j :: j' :: k). split; [reflexivity|]. split; [discriminate|]. split; [exact Hnd|]. split; [|split].
          -- intros x Hx. destruct (H1 x Hx). split; [assumption|apply IN; auto].
          -- intros x Ex. discriminate.
          -- intros x Hx X. rewrite IN. apply IN in X as [X|X]; [destruct (H3 x Hx X); auto|discriminate].
  Qed.

  Variable n : Z.

  (** Files in every reachable state. *)
  Lemma state_entry q stop fs s p : settled_files fs -> steps tasks n (start q stop fs) s ->
    (st_world s p = fs p /\ forall i a, nth_error l i = Some a -> completed s i -> t_outcome (tk a) = Ok None -> p <> path a) \/
    (exists i a c, nth_error l i = Some a /\ completed s i /\ t_outcome (tk a) = Ok None /\ p = path a /\
       cont a = Some c /\ st_world s p = Some (Whole c)) \/
    (exists k, st_world s p = Some (Unfinished k) /\ k <> [] /\ NoDup k /\
       (forall i, In i k -> exists a, nth_error l i = Some a /\ begun s i /\ t_outcome (tk a) = Ok None /\ p = path a) /\
       (forall i, k = [i] -> ~ completed s i)).
  Proof.
    intros Hset Hs. destruct (world_reachable tasks n q stop fs s Hs) as (evs & Hw & Ho & Hc & Hb).
    destruct (entries fs evs p Hset Ho) as [[E H]|[(i & c & E & (a & Ha & Hoa & Hp) & Hco & Hcl & _)|(k & E & Hk & Hnd & H1 & H2 & _)]]; rewrite <- Hw in E.
    - left. split; [exact E|]. intros i a Ha Hci Hoa Hp. apply Hc in Hci. apply (H i); [exists a; auto|].
      apply in_split in Hci as (l1 & l2 & X). rewrite X. apply in_app_iff. left. exact (proj2 Ho l1 i l2 X).
    - right. left. exists i, a, c. unfold cont_of in Hco. rewrite Ha in Hco. split; [exact Ha|]. split; [apply Hc, Hcl|]. auto.
    - right. right. exists k. split; [exact E|]. split; [exact Hk|]. split; [exact Hnd|]. split.
      + intros i Hi. destruct (H1 i Hi) as [(a & Ha & Hoa & Hp) Hop]. exists a. split; [exact Ha|]. split; [exact (Hb i Hop)|]. auto.
      + intros i Ei X. apply (H2 i Ei), Hc, X.
  Qed.

  (** If all names are different. *)
  Definition distinct : Prop := forall i j a b, nth_error l i = Some a -> nth_error l j = Some b -> path a = path b -> i = j.

  Lemma state_holds q stop fs s i a : distinct -> settled_files fs -> steps tasks n (start q stop fs) s ->
    nth_error l i = Some a -> completed s i -> t_outcome (tk a) = Ok None ->
    exists c, cont a = Some c /\ st_world s (path a) = Some (Whole c).
  Proof.
    intros Hd Hset Hs Ha Hc Ho.
    destruct (state_entry q stop fs s (path a) Hset Hs) as [[_ H]|[(j & b & c & Hb & _ & _ & E & Hcb & Hw)|(k & E & Hk & Hnd & H1 & H2)]].
    - destruct (H i a Ha Hc Ho eq_refl).
    - assert (Eq : i = j) by exact (Hd i j a b Ha Hb E). subst j. rewrite Ha in Hb. injection Hb as <-. eauto.
    - assert (All : forall j, In j k -> j = i).
      { intros j Hj. destruct (H1 j Hj) as (b & Hb & _ & _ & Ep). symmetry. exact (Hd i j a b Ha Hb Ep). }
      destruct k as [|j [|j' k]]; [congruence| |].
      + destruct (H2 j eq_refl). rewrite (All j (or_introl eq_refl)). exact Hc.
      + exfalso. inversion Hnd as [|x y Hx _]. apply Hx. rewrite (All j (or_introl eq_refl)), (All j' (or_intror (or_introl eq_refl))). left. reflexivity.
  Qed.

  Lemma all_completed q stop fs s rs : steps tasks n (start q stop fs) s -> st_main s = Exited (Ok rs) ->
    forall i a, nth_error l i = Some a -> completed s i /\ exists r, t_outcome (tk a) = Ok r.
  Proof.
    intros Hs Hm i a Ha. destruct (ExecutorMain.returned tasks n q stop fs s rs Hs Hm) as [_ Hp]. split.
    - unfold completed. apply Permutation_sym in Hp. apply (Permutation_in _ Hp). apply in_seq. rewrite map_length.
      split; [lia|]. apply nth_error_Some. congruence.
    - destruct (t_outcome (tk a)) as [r|e] eqn:E; [eauto|]. exfalso.
      apply (fails tasks n q stop fs s (tk a) e) with (rs := rs); [|exact E|exact Hs|exact Hm].
      apply in_map, (nth_error_In _ _ Ha).
  Qed.

  (** All tasks have a writer. *)
  Hypothesis Hnone : forall a r, In a l -> t_outcome (tk a) = Ok r -> r = None.

  Lemma run_writes q stop fs s rs : distinct -> settled_files fs -> steps tasks n (start q stop fs) s -> st_main s = Exited (Ok rs) ->
    (forall a, In a l -> exists c, cont a = Some c /\ st_world s (path a) = Some (Whole c)) /\
    (forall p, (forall a, In a l -> p <> path a) -> st_world s p = fs p).
  Proof.
    intros Hd Hset Hs Hm. split.
    - intros a Ha. destruct (In_nth_error _ _ Ha) as (i & Hi). destruct (all_completed q stop fs s rs Hs Hm i a Hi) as (Hc & r & Hr).
      apply (state_holds q stop fs s i a Hd Hset Hs Hi Hc). rewrite (Hnone a r Ha Hr) in Hr. exact Hr.
    - intros p Hp. destruct (state_entry q stop fs s p Hset Hs) as [[E _]|[(i & a & c & Ha & _ & _ & E & _)|(k & _ & Hk & _ & H & _)]].
      + exact E.
      + destruct (Hp a (nth_error_In _ _ Ha) E).
      + destruct k as [|i k]; [congruence|]. destruct (H i (or_introl eq_refl)) as (a & Ha & _ & _ & E). destruct (Hp a (nth_error_In _ _ Ha) E).
  Qed.

  (** Whatever the names: the file of each task is that of one of the tasks with this file, or two tasks had it open at the same time. *)
  Lemma run_some q stop fs s rs : settled_files fs -> steps tasks n (start q stop fs) s -> st_main s = Exited (Ok rs) ->
    forall a, In a l ->
      (exists i b c, nth_error l i = Some b /\ path b = path a /\ cont b = Some c /\ st_world s (path a) = Some (Whole c)) \/
      (exists i j b b' k, i <> j /\ nth_error l i = Some b /\ nth_error l j = Some b' /\ path b = path a /\ path b' = path a /\
         st_world s (path a) = Some (Unfinished (i :: j :: k))).
  Proof.
    intros Hset Hs Hm a Ha. destruct (In_nth_error _ _ Ha) as (i & Hi). destruct (all_completed q stop fs s rs Hs Hm i a Hi) as (Hc & r & Hr).
    rewrite (Hnone a r Ha Hr) in Hr.
    destruct (state_entry q stop fs s (path a) Hset Hs) as [[_ H]|[(j & b & c & Hb & _ & _ & E & Hcb & Hw)|(k & E & Hk & Hnd & H1 & H2)]].
    - destruct (H i a Hi Hc Hr eq_refl).
    - left. exists j, b, c. auto.
    - right. destruct k as [|x [|y k]]; [congruence| |].
      + destruct (H1 x (or_introl eq_refl)) as (b & Hb & _). destruct (H2 x eq_refl). exact (proj1 (all_completed q stop fs s rs Hs Hm x b Hb)).
      + destruct (H1 x (or_introl eq_refl)) as (b & Hb & _ & _ & Eb). destruct (H1 y (or_intror (or_introl eq_refl))) as (b' & Hb' & _ & _ & Eb').
        exists x, y, b, b', k. split; [|auto 10]. intros ->. inversion Hnd as [|u v Hx _]. apply Hx. left. reflexivity.
  Qed.
End Disk.

(** Two runs, with any numbers of workers. *)
Lemma same_files {T A} (tk tk' : A -> task (option (list (xval T))) (files T)) num path cont cont' (l : list A) n n' q q' stop stop' fs s s' rs rs' :
  (forall a, one_file (num a) (tk a) (path a) (cont a)) -> (forall a, one_file (num a) (tk' a) (path a) (cont' a)) ->
  (forall i a, nth_error l i = Some a -> num a = i) ->
  (forall a r, In a l -> t_outcome (tk a) = Ok r -> r = None) -> (forall a r, In a l -> t_outcome (tk' a) = Ok r -> r = None) ->
  distinct path l -> (forall a, In a l -> cont a = cont' a) -> settled_files fs ->
  steps (map tk l) n (start q stop fs) s -> st_main s = Exited (Ok rs) ->
  steps (map tk' l) n' (start q' stop' fs) s' -> st_main s' = Exited (Ok rs') ->
  forall p, st_world s p = st_world s' p.
Proof.
  intros H1 H2 Hn N1 N2 Hd He Hset Hs Hm Hs' Hm' p. destruct (run_writes tk num path cont H1 l Hn n N1 q stop fs s rs Hd Hset Hs Hm) as [A1 A2].
  destruct (run_writes tk' num path cont' H2 l Hn n' N2 q' stop' fs s' rs' Hd Hset Hs' Hm') as [B1 B2].
  destruct (in_dec String.string_dec p (map path l)) as [Hin|Hin].
  - apply in_map_iff in Hin as (a & <- & Ha). destruct (A1 a Ha) as (c & E & ->). destruct (B1 a Ha) as (c' & E' & ->).
    rewrite <- (He a Ha) in E'. congruence.
  - rewrite A2, B2; [reflexivity| |]; intros a Ha ->; apply Hin; apply in_map, Ha.
Qed.

Lemma writer_none {T} (O : ops T) {S P} interpolate eigvals mems wr i (sv : solver T S P) (w : world T S P (@wstate T)) r :
  s_writer sv = true -> t_outcome (solver_job O interpolate eigvals mems wr i sv w) = Ok r -> r = None.
Proof.
  intros Hw H. unfold solver_job, job in H. cbn [t_outcome] in H.
  destruct (run O interpolate eigvals mems (write O wr) sv (with_files w no_files)) as [w' r'] eqn:E. cbn in H. subst r'.
  destruct (outputs _ _ _ _ _ _ _ _ _ E) as [_ H]. destruct (H Hw) as [(e & D & _)|(id & p & b & f & rw & _ & _ & _ & _ & _ & D)]; [discriminate|].
  destruct rw as [[]|e]; [|discriminate]. injection D as ->. reflexivity.
Qed.

Lemma indexed_num {A} (l : list A) i a : nth_error (indexed l) i = Some a -> fst a = i.
Proof. rewrite indexed_nth. destruct (nth_error l i); [|discriminate]. intro H. injection H as <-. reflexivity. Qed.
