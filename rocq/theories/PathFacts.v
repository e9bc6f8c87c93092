(** Output files: which paths a task writes. *)
From Coq Require Import Lia.
From Verif Require Import Base Num NdArray Text TextFacts Writers Particles Integrate Interpolate Readers DataSource Solver FileRun SolverFacts SpecPaths NdFacts Batches BatchFacts.
Local Open Scope string_scope.

Lemma append_inj_l (a b c : string) : a ++ b = a ++ c -> b = c.
Proof. induction a as [|x a IH]; [exact (fun H => H)|]. cbn. intro H. injection H as H. exact (IH H). Qed.
Lemma append_length (a b : string) : String.length (a ++ b) = (String.length a + String.length b)%nat.
Proof. induction a; cbn; congruence. Qed.
Lemma append_inj_r (a b c : string) : a ++ c = b ++ c -> a = b.
Proof.
  revert b. induction a as [|x a IH]; intros [|y b]; cbn; intro H.
  - reflexivity.
  - apply (f_equal String.length) in H. cbn in H. rewrite append_length in H. lia.
  - apply (f_equal String.length) in H. cbn in H. rewrite append_length in H. lia.
  - injection H as -> H. f_equal. exact (IH _ H).
Qed.

Definition task_path (w : writer) (id : string) : string := output_path w (append "ftle_" id).

Lemma join_inj d (x : ascii) a b : Ascii.eqb x "/" = false ->
  path_join d (String x a) = path_join d (String x b) -> a = b.
Proof.
  intros Hx. cbn. rewrite Hx. destruct (String.eqb d "" || ends_with_slash d); intro H; apply append_inj_l in H.
  - injection H as H. exact H.
  - cbn in H. injection H as H. exact H.
Qed.

Lemma task_path_inj w a b : task_path w a = task_path w b -> a = b.
Proof.
  unfold task_path, output_path. destruct (wr_format w); intro H.
  - apply join_inj in H; [|reflexivity].
    change (("tle_" ++ a) ++ extension w = ("tle_" ++ b) ++ extension w) in H.
    apply append_inj_r in H. apply append_inj_l in H. exact H.
  - apply append_inj_r in H. apply join_inj in H; [|reflexivity].
    exact (append_inj_l "tle_" _ _ H).
Qed.

Lemma write_only {T} (O : ops T) w st name f c p : p <> output_path w name ->
  w_files (fst (write O w st name f c)) p = w_files st p.
Proof.
  intro H. unfold write.
  match goal with |- context [match ?x with Ok _ => _ | Err _ => _ end] => destruct x end; cbn; [|reflexivity].
  unfold put. destruct (String.eqb_spec p (output_path w name)); [congruence|reflexivity].
Qed.

Lemma task_only {T} (O : ops T) (scp : scipy T) imems eigvals mems fs f q use wr (w : world T (istate scp) unit wstate) p :
  p <> output_path wr (append "ftle_" (file_id f)) ->
  w_files (w_writer (fst (file_worker O scp imems eigvals mems (write O wr) fs f q use w))) p = w_files (w_writer w) p.
Proof.
  intro Hp. unfold file_worker. destruct (run O _ eigvals mems (write O wr) _ w) as [w' r] eqn:E. cbn [fst].
  apply outputs in E. cbn [s_writer] in E. destruct use.
  - destruct (proj2 E eq_refl) as [(e & _ & ->) | (id & pp & b & fd & rw & Ei & _ & _ & _ & Ew & _)]; [reflexivity|].
    cbn in Ei. injection Ei as <-. apply (f_equal fst) in Ew. cbn [fst] in Ew. rewrite <- Ew. apply write_only. exact Hp.
  - destruct (proj1 E eq_refl) as [-> _]. reflexivity.
Qed.

Lemma slice_head {A} (l : list A) i e x r : py_slice l (Z.of_nat i) e = x :: r -> nth_error l i = Some x.
Proof.
  unfold py_slice. set (sb := slice_bound _ e).
  assert (E : Z.to_nat (slice_bound (Z.of_nat (length l)) (Z.of_nat i)) = Nat.min (length l) i).
  { unfold slice_bound. destruct (Z.ltb_spec (Z.of_nat i) 0); lia. }
  rewrite E. destruct (Nat.le_gt_cases (length l) i) as [Hi|Hi].
  - rewrite Nat.min_l, skipn_all by exact Hi. rewrite firstn_nil. discriminate.
  - rewrite Nat.min_r by lia. intro H.
    assert (G : nth_error (firstn (Z.to_nat (sb - slice_bound (Z.of_nat (length l)) (Z.of_nat i))) (skipn i l)) 0 = Some x)
      by (rewrite H; reflexivity).
    destruct (Z.to_nat (sb - slice_bound (Z.of_nat (length l)) (Z.of_nat i))) as [|k]; [discriminate|].
    rewrite nth_error_firstn, nth_error_skipn, Nat.add_0_r in G by lia. exact G.
Qed.

Lemma task_first {T} (O : ops T) s c q period h tasks i f :
  file_tasks O s c q period h = Ok tasks -> nth_error tasks i = Some f ->
  exists v, nth_error (handle_direction O h s) i = Some v /\ nth_error (snapshot_files f) 0 = Some v /\ file_id f = stem v.
Proof.
  unfold file_tasks, create_batches. set (s' := handle_direction O h s).
  destruct (window_length O period h) as [p|]; [|discriminate]. cbn [bind].
  destruct (cycled (handle_direction O h c) _) as [cc|]; [|discriminate]. cbn [bind].
  destruct (cycled (handle_direction O h q) _) as [qc|]; [|discriminate]. cbn [bind].
  destruct (mapr (get qc) _) as [qb|]; [|discriminate]. cbn [bind].
  intros E Hi. unfold py_range in E.
  set (n := Z.to_nat (Z.of_nat (length s') - p + 1)) in *.
  assert (Hn : i < n).
  { apply mapr_len in E. rewrite seq_length in E. rewrite <- E. apply nth_error_Some. congruence. }
  assert (Hs : nth_error (seq 0 n) i = Some i) by (rewrite (nth_error_nth' _ 0), seq_nth by (rewrite ?seq_length; lia); reflexivity).
  destruct (mapr_nth _ _ _ _ _ E Hs) as (f' & Hf' & Ef). rewrite Hi in Hf'. injection Hf' as <-.
  unfold get at 1 in Ef. rewrite nth_error_map, Hs in Ef. cbn [option_map bind] in Ef.
  destruct (get (map _ _) i) as [cb|]; [|discriminate]. cbn [bind] in Ef.
  destruct (get qb i) as [qf|]; [|discriminate]. cbn [bind] in Ef.
  destruct (py_slice s' (Z.of_nat i) (Z.of_nat i + p)) as [|v r] eqn:Ev; [discriminate|].
  cbn in Ef. injection Ef as <-. exists v. split; [exact (slice_head _ _ _ _ _ Ev)|]. split; reflexivity.
Qed.

Lemma names_distinct {T} (O : ops T) d e names c q period h tasks i j f g :
  has_char "/" e = false -> has_char "." e = false -> e <> "" ->
  (forall a, In a names -> has_char "/" a = false /\ a <> "") -> NoDup names ->
  file_tasks O (map (fun a => plain_file d a e) names) c q period h = Ok tasks ->
  nth_error tasks i = Some f -> nth_error tasks j = Some g -> i <> j ->
  file_id f <> file_id g.
Proof.
  intros H1 H2 H3 Hn Hd E Hi Hj Hij.
  destruct (task_first _ _ _ _ _ _ _ _ _ E Hi) as (v & Hv & _ & ->).
  destruct (task_first _ _ _ _ _ _ _ _ _ E Hj) as (u & Hu & _ & ->).
  assert (G : handle_direction O h (map (fun a => plain_file d a e) names) = map (fun a => plain_file d a e) (handle_direction O h names)).
  { unfold handle_direction. destruct (o_ltb O h (o_zero O)); [rewrite map_rev|]; reflexivity. }
  assert (Hd' : NoDup (handle_direction O h names)).
  { unfold handle_direction. destruct (o_ltb O h (o_zero O)); [apply NoDup_rev|]; exact Hd. }
  assert (Hin : forall a, In a (handle_direction O h names) -> In a names).
  { unfold handle_direction. destruct (o_ltb O h (o_zero O)); intro a; [rewrite <- in_rev|]; auto. }
  rewrite G in Hv, Hu. rewrite nth_error_map in Hv, Hu.
  destruct (nth_error (handle_direction O h names) i) as [a|] eqn:Ea; [|discriminate].
  destruct (nth_error (handle_direction O h names) j) as [b|] eqn:Eb; [|discriminate].
  cbn [option_map] in Hv, Hu. injection Hv as <-. injection Hu as <-.
  destruct (Hn a (Hin _ (nth_error_In _ _ Ea))) as [Ha1 Ha2]. destruct (Hn b (Hin _ (nth_error_In _ _ Eb))) as [Hb1 Hb2].
  unfold plain_file. rewrite !stem_file by assumption. intros ->. apply Hij.
  apply (proj1 (NoDup_nth_error _) Hd'); [apply nth_error_Some; congruence|congruence].
Qed.

Lemma outputs_kept {T} (O : ops T) (scp : scipy T) imems eigvals mems fs wr d e names c q period h tasks i j f g qu use
    (w : world T (istate scp) unit wstate) :
  has_char "/" e = false -> has_char "." e = false -> e <> "" ->
  (forall a, In a names -> has_char "/" a = false /\ a <> "") -> NoDup names ->
  file_tasks O (map (fun a => plain_file d a e) names) c q period h = Ok tasks ->
  nth_error tasks i = Some f -> nth_error tasks j = Some g -> i <> j ->
  let p := output_path wr (append "ftle_" (file_id f)) in
  p <> output_path wr (append "ftle_" (file_id g)) /\
  w_files (w_writer (fst (file_worker O scp imems eigvals mems (write O wr) fs g qu use w))) p = w_files (w_writer w) p.
Proof.
  intros H1 H2 H3 Hn Hd E Hi Hj Hij p.
  assert (G : p <> output_path wr (append "ftle_" (file_id g))).
  { intro H. exact (names_distinct _ _ _ _ _ _ _ _ _ _ _ _ _ H1 H2 H3 Hn Hd E Hi Hj Hij (task_path_inj wr _ _ H)). }
  split; [exact G|]. apply task_only. exact G.
Qed.

Lemma analytical_only {T} (O : ops T) (scp : scipy T) imems eigvals mems task q use wr (w : world T (istate scp) (particles T) wstate) p :
  (forall id, src_id task = Ok id -> p <> output_path wr (append "ftle_" id)) ->
  w_files (w_writer (fst (run O (i_interpolate O scp imems) eigvals mems (write O wr) (Solver task q use) w))) p = w_files (w_writer w) p.
Proof.
  intro Hp. destruct (run O _ eigvals mems (write O wr) _ w) as [w' r] eqn:E. cbn [fst].
  apply outputs in E. cbn [s_writer] in E. destruct use.
  - destruct (proj2 E eq_refl) as [(e & _ & ->) | (id & pp & b & fd & rw & Ei & _ & _ & _ & Ew & _)]; [reflexivity|].
    apply (f_equal fst) in Ew. cbn [fst] in Ew. rewrite <- Ew. apply write_only. apply Hp. exact Ei.
  - destruct (proj1 E eq_refl) as [-> _]. reflexivity.
Qed.

(** Two velocity files with the same name in two directories. *)
Lemma same_name {T} (O : ops T) period h :
  o_ltb O h (o_zero O) = false -> window_length O period h = Ok 1%Z ->
  exists f g, file_tasks O ["run1/v.mat"; "run2/v.mat"]%list ["c.mat"]%list ["p.mat"]%list period h = Ok [f; g] /\
    snapshot_files f = ["run1/v.mat"]%list /\ snapshot_files g = ["run2/v.mat"]%list /\
    forall wr, output_path wr (append "ftle_" (file_id f)) = output_path wr (append "ftle_" (file_id g)).
Proof.
  intros Hl H. do 2 eexists. unfold file_tasks, create_batches. rewrite H. unfold handle_direction. rewrite Hl.
  split; [reflexivity|]. split; [reflexivity|]. split; reflexivity.
Qed.

Lemma same_stem {T} (O : ops T) s c q period h tasks i j f g v u :
  file_tasks O s c q period h = Ok tasks -> nth_error tasks i = Some f -> nth_error tasks j = Some g ->
  nth_error (snapshot_files f) 0 = Some v -> nth_error (snapshot_files g) 0 = Some u -> stem v = stem u ->
  forall wr, output_path wr (append "ftle_" (file_id f)) = output_path wr (append "ftle_" (file_id g)).
Proof.
  intros E Hi Hj Hv Hu Hs wr.
  destruct (task_first _ _ _ _ _ _ _ _ _ E Hi) as (v' & _ & Hv' & ->).
  destruct (task_first _ _ _ _ _ _ _ _ _ E Hj) as (u' & _ & Hu' & ->). congruence.
Qed.
