(** Facts about the tasks of the workflows. *)
From Coq Require Import Reals Lra Lia.
From Verif Require Import Base Num NdFacts DataSource Batches.

Lemma slice_in {A} (l : list A) i (p : Z) : (0 <= p)%Z -> (Z.of_nat i + p <= Z.of_nat (length l))%Z ->
  py_slice l (Z.of_nat i) (Z.of_nat i + p) = firstn (Z.to_nat p) (skipn i l).
Proof.
  intros Hp H. unfold py_slice, slice_bound.
  repeat match goal with |- context [(?a <? ?b)%Z] => destruct (Z.ltb_spec a b); [lia|] end.
  rewrite !Z.min_r, !Z.max_r by lia. f_equal; [|f_equal]; lia.
Qed.
Lemma skipn_seq a n k : skipn k (seq a n) = seq (a + k) (n - k).
Proof.
  revert a n. induction k as [|k IH]; intros a n; [rewrite Nat.add_0_r, Nat.sub_0_r; reflexivity|].
  destruct n; [reflexivity|]. cbn. rewrite IH. f_equal; lia.
Qed.
Lemma firstn_seq a n k : k <= n -> firstn k (seq a n) = seq a k.
Proof. revert a n. induction k as [|k IH]; intros a [|n] H; try reflexivity; [lia|]. cbn. f_equal. apply IH. lia. Qed.
Lemma map_seq_shift {A} (f : nat -> A) i p : map f (seq i p) = map (fun j => f (i + j)) (seq 0 p).
Proof. revert i. induction p as [|p IH]; intro i; [reflexivity|]. cbn. rewrite Nat.add_0_r. f_equal.
  rewrite IH, <- seq_shift, map_map. apply map_ext. intro. f_equal. lia. Qed.

Lemma cycled_ok {A} (l : list A) (d : A) n : l <> [] ->
  cycled l (Z.of_nat n) = Ok (map (fun i => nth (i mod length l) l d) (seq 0 n)).
Proof.
  intro H. unfold cycled. destruct (Z.ltb_spec (Z.of_nat n) 0); [lia|]. rewrite Nat2Z.id.
  destruct l as [|a l]; [congruence|]. f_equal. apply map_ext. intro i. apply nth_indep.
  apply Nat.mod_upper_bound. discriminate.
Qed.
Lemma get_map_seq {A} (f : nat -> A) n i : i < n -> get (map f (seq 0 n)) i = Ok (f i).
Proof. intro H. unfold get. rewrite nth_error_map, (nth_error_nth' _ 0) by (rewrite seq_length; exact H).
  rewrite seq_nth by exact H. reflexivity. Qed.
Lemma nth_error_mod {A} (l : list A) d i : l <> [] -> nth_error l (i mod length l) = Some (nth (i mod length l) l d).
Proof. intro H. apply nth_error_nth'. apply Nat.mod_upper_bound. destruct l; [congruence|discriminate]. Qed.

Lemma skipn_cons {A} (s : list A) d i : i < length s -> skipn i s = nth i s d :: skipn (1 + i) s.
Proof. revert i. induction s as [|a s IH]; intros [|i] H; cbn in *; try lia; [reflexivity|]. apply IH. lia. Qed.

Section Windows.
  Context {T : Type} (O : ops T).

  Definition task (s c q : list string) (h : T) (p i : nat) : file_source T :=
    let cs := map (fun j => nth ((i + j) mod length c) c ""%string) (seq 0 p) in
    FileSource (firstn p (skipn i s)) cs (nth (i mod length q) q ""%string) h (Z.of_nat p)
      (length (nodup string_dec cs) =? 1) (Text.stem (nth i s ""%string)).

  Lemma mk_task s c q h p i : 0 < p -> i + p <= length s ->
    mk_file_source (firstn p (skipn i s)) (map (fun j => nth ((i + j) mod length c) c ""%string) (seq 0 p))
      (nth (i mod length q) q ""%string) h (Z.of_nat p) = Ok (task s c q h p i).
  Proof.
    intros Hp Hi. unfold mk_file_source, task.
    rewrite (skipn_cons _ ""%string) by lia. destruct p as [|p]; [lia|]. reflexivity.
  Qed.

  (** All the tasks. *)
  Lemma create_ok s c q period h (p : nat) : window_length O period h = Ok (Z.of_nat p) -> 0 < p -> p <= length s ->
    c <> [] -> q <> [] ->
    create_batches O s c q period h = Ok (map (task s c q h p) (seq 0 (length s - p + 1))).
  Proof.
    intros Hw Hp Hn Hc Hq. unfold create_batches. rewrite Hw. cbn [bind].
    replace (Z.of_nat (length s) + Z.of_nat p - 1)%Z with (Z.of_nat (length s + p - 1)) by lia.
    rewrite (cycled_ok c ""%string _ Hc), (cycled_ok q ""%string _ Hq). cbn [bind].
    unfold py_range. replace (Z.to_nat _) with (length s - p + 1) by lia. set (k := length s - p + 1).
    erewrite (mapr_ext _ (fun i => Ok (nth (i mod length q) q ""%string))).
    2:{ intros i Hi. apply in_seq in Hi. apply (get_map_seq (fun i => nth (i mod length q) q ""%string)). unfold k in Hi. lia. }
    rewrite mapr_const. cbn [bind].
    erewrite (mapr_ext _ (fun i => Ok (task s c q h p i))); [apply mapr_const|].
    intros i Hi. apply in_seq in Hi. unfold k in Hi.
    rewrite !get_map_seq by (unfold k; lia). cbn [bind].
    rewrite !slice_in by (rewrite ?map_length, ?seq_length; lia). rewrite Nat2Z.id.
    rewrite skipn_map, firstn_map, skipn_seq, firstn_seq by lia. rewrite Nat.add_0_l, map_seq_shift.
    apply mk_task; lia.
  Qed.

  Lemma task_snapshot s c q h p i j : j < p -> i + p <= length s -> nth_error (snapshot_files (task s c q h p i)) j = nth_error s (i + j).
  Proof.
    intros Hj Hi. cbn [task snapshot_files].
    rewrite (nth_error_nth' s ""%string) by lia.
    rewrite (nth_error_nth' _ ""%string) by (rewrite firstn_length, skipn_length; lia). f_equal.
    rewrite <- (firstn_skipn i s) at 2. rewrite app_nth2 by (rewrite firstn_length; lia).
    rewrite firstn_length, Nat.min_l by lia. replace (i + j - i) with j by lia.
    rewrite <- (firstn_skipn p (skipn i s)) at 2. rewrite app_nth1 by (rewrite firstn_length, skipn_length; lia). reflexivity.
  Qed.
  Lemma task_coord s c q h p i j : j < p -> c <> [] ->
    nth_error (coordinate_files (task s c q h p i)) j = nth_error c ((i + j) mod length c).
  Proof.
    intros Hj Hc. cbn [task coordinate_files]. rewrite (nth_error_mod _ ""%string) by exact Hc.
    rewrite nth_error_map, (nth_error_nth' _ 0) by (rewrite seq_length; exact Hj). rewrite seq_nth by exact Hj. reflexivity.
  Qed.
  Lemma task_lengths s c q h p i : i + p <= length s ->
    length (snapshot_files (task s c q h p i)) = p /\ length (coordinate_files (task s c q h p i)) = p.
  Proof. intro H. cbn. rewrite firstn_length, skipn_length, map_length, seq_length. lia. Qed.
  Lemma nth_tasks s c q h p n i : i < n -> nth_error (map (task s c q h p) (seq 0 n)) i = Some (task s c q h p i).
  Proof. intro H. rewrite nth_error_map, (nth_error_nth' _ 0) by (rewrite seq_length; exact H). rewrite seq_nth by exact H. reflexivity. Qed.

  (** C41 *)
  Lemma windows s c q period h (p : nat) : o_ltb O h (o_zero O) = false ->
    window_length O period h = Ok (Z.of_nat p) -> 0 < p <= length s -> c <> [] -> q <> [] ->
    exists tasks, file_tasks O s c q period h = Ok tasks /\ length tasks = length s - p + 1 /\
      forall i, i < length s - p + 1 -> exists f, nth_error tasks i = Some f /\
        length (snapshot_files f) = p /\ length (coordinate_files f) = p /\
        (forall j, j < p -> nth_error (snapshot_files f) j = nth_error s (i + j) /\
                            nth_error (coordinate_files f) j = nth_error c ((i + j) mod length c)) /\
        Some (particle_file f) = nth_error q (i mod length q) /\ snapshot_timestep f = h.
  Proof.
    intros Hh Hw [Hp Hn] Hc Hq. unfold file_tasks, handle_direction. rewrite Hh.
    eexists. split; [apply (create_ok _ _ _ _ _ _ Hw Hp Hn Hc Hq)|]. split; [rewrite map_length, seq_length; reflexivity|].
    intros i Hi. eexists. split; [apply (nth_tasks _ _ _ _ _ _ _ Hi)|].
    destruct (task_lengths s c q h p i) as [L1 L2]; [lia|]. split; [exact L1|]. split; [exact L2|]. split; [|split; [|reflexivity]].
    - intros j Hj. split; [apply task_snapshot; lia|apply task_coord; assumption].
    - cbn. symmetry. apply nth_error_mod, Hq.
  Qed.

  Lemma nth_error_rev {A} (l : list A) i : i < length l -> nth_error (rev l) i = nth_error l (length l - 1 - i).
  Proof.
    intro H. destruct l as [|d l0] eqn:E; [cbn in H; lia|]. rewrite <- E in *. clear E.
    rewrite (nth_error_nth' (rev l) d) by (rewrite rev_length; exact H). rewrite (nth_error_nth' l d) by lia.
    rewrite rev_nth by exact H. do 2 f_equal. lia.
  Qed.
  Lemma rev_nil {A} (l : list A) : l <> [] -> rev l <> [].
  Proof. intros H E. apply H. rewrite <- (rev_involutive l), E. reflexivity. Qed.

  (** C42: what a backward run does *)
  Lemma backward s c q period h (p : nat) : o_ltb O h (o_zero O) = true ->
    window_length O period h = Ok (Z.of_nat p) -> 0 < p <= length s -> c <> [] -> q <> [] ->
    exists tasks, file_tasks O s c q period h = Ok tasks /\ length tasks = length s - p + 1 /\
      forall i, i < length s - p + 1 -> exists f, nth_error tasks i = Some f /\
        length (snapshot_files f) = p /\ length (coordinate_files f) = p /\
        (forall j, j < p -> nth_error (snapshot_files f) j = nth_error s (length s - 1 - i - j) /\
                            nth_error (coordinate_files f) j = nth_error c (length c - 1 - (i + j) mod length c)) /\
        Some (particle_file f) = nth_error q (length q - 1 - i mod length q) /\ snapshot_timestep f = h.
  Proof.
    intros Hh Hw [Hp Hn] Hc Hq. unfold file_tasks, handle_direction. rewrite Hh.
    eexists. split; [apply (create_ok _ _ _ _ _ p Hw Hp); [rewrite rev_length; exact Hn|apply rev_nil, Hc|apply rev_nil, Hq]|].
    rewrite rev_length. split; [rewrite map_length, seq_length; reflexivity|].
    intros i Hi. eexists. split; [apply (nth_tasks _ _ _ _ _ _ _ Hi)|].
    assert (Lc : length c <> 0) by (destruct c; [congruence|discriminate]).
    assert (Lq : length q <> 0) by (destruct q; [congruence|discriminate]).
    destruct (task_lengths (rev s) (rev c) (rev q) h p i) as [L1 L2]; [rewrite rev_length; lia|].
    split; [exact L1|]. split; [exact L2|]. split; [|split; [|reflexivity]].
    - intros j Hj. split.
      + rewrite task_snapshot by (rewrite ?rev_length; lia). rewrite nth_error_rev by lia. f_equal. lia.
      + rewrite task_coord by (try apply rev_nil; assumption). rewrite rev_length, nth_error_rev; [reflexivity|].
        apply Nat.mod_upper_bound, Lc.
    - cbn. rewrite rev_length. pose proof (Nat.mod_upper_bound i _ Lq).
      rewrite <- nth_error_rev by assumption. symmetry. apply nth_error_nth'. rewrite rev_length. assumption.
  Qed.

  Lemma mirror m n a : m <> 0 -> n mod m = 0 -> a < n -> m - 1 - a mod m = (n - 1 - a) mod m.
  Proof.
    intros Hm Hd Ha. pose proof (Nat.div_mod n m Hm) as E1. pose proof (Nat.div_mod a m Hm) as E2.
    pose proof (Nat.mod_upper_bound a m Hm) as Hr. rewrite Hd, Nat.add_0_r in E1.
    assert (Hq : a / m < n / m).
    { apply Nat.mul_lt_mono_pos_l with (p := m); lia. }
    apply (Nat.mod_unique _ _ (n / m - 1 - a / m)); [lia|].
    rewrite !Nat.mul_sub_distr_l, <- E1, Nat.mul_1_r.
    assert (m * (a / m) + m <= m * (n / m)).
    { replace (m * (a / m) + m) with (m * (1 + a / m)) by lia. apply Nat.mul_le_mono_l. lia. }
    lia.
  Qed.

  Lemma backward_divides s c q period h (p : nat) : o_ltb O h (o_zero O) = true ->
    window_length O period h = Ok (Z.of_nat p) -> 0 < p <= length s -> c <> [] -> q <> [] ->
    length s mod length c = 0 -> length s mod length q = 0 ->
    exists tasks, file_tasks O s c q period h = Ok tasks /\ length tasks = length s - p + 1 /\
      forall i, i < length s - p + 1 -> exists f, nth_error tasks i = Some f /\
        length (snapshot_files f) = p /\ length (coordinate_files f) = p /\
        (forall j, j < p -> let v := length s - 1 - i - j in
           nth_error (snapshot_files f) j = nth_error s v /\ nth_error (coordinate_files f) j = nth_error c (v mod length c)) /\
        Some (particle_file f) = nth_error q ((length s - 1 - i) mod length q) /\ snapshot_timestep f = h.
  Proof.
    intros Hh Hw Hp Hc Hq Dc Dq. destruct (backward s c q period h p Hh Hw Hp Hc Hq) as (tasks & E & L & H).
    exists tasks. split; [exact E|]. split; [exact L|]. intros i Hi. destruct (H i Hi) as (f & F1 & F2 & F3 & F4 & F5 & F6).
    assert (Lc : length c <> 0) by (destruct c; [congruence|discriminate]).
    assert (Lq : length q <> 0) by (destruct q; [congruence|discriminate]).
    exists f. split; [exact F1|]. split; [exact F2|]. split; [exact F3|]. split; [|split; [|exact F6]].
    - intros j Hj. cbn zeta. destruct (F4 j Hj) as [G1 G2]. split; [exact G1|].
      rewrite G2, (mirror (length c) (length s)) by lia. do 2 f_equal. lia.
    - rewrite F5, (mirror (length q) (length s)) by lia. reflexivity.
  Qed.

  Lemma backward_mismatch s c q period h (p : nat) : o_ltb O h (o_zero O) = true ->
    window_length O period h = Ok (Z.of_nat p) -> 0 < p <= length s -> c <> [] -> q <> [] -> NoDup c ->
    length s mod length c <> 0 ->
    exists f rest, file_tasks O s c q period h = Ok (f :: rest) /\
      nth_error (snapshot_files f) 0 = nth_error s (length s - 1) /\
      nth_error (coordinate_files f) 0 <> nth_error c ((length s - 1) mod length c).
  Proof.
    intros Hh Hw Hp Hc Hq Hnd Hm. destruct (backward s c q period h p Hh Hw Hp Hc Hq) as (tasks & E & L & H).
    destruct tasks as [|f rest]; [cbn in L; lia|]. exists f, rest. split; [exact E|].
    destruct (H 0) as (f' & F1 & F2 & F3 & F4 & _); [lia|]. cbn in F1. injection F1 as <-.
    assert (Lc : length c <> 0) by (destruct c; [congruence|discriminate]).
    destruct (F4 0) as [G1 G2]; [lia|]. rewrite G1, G2. split; [f_equal; lia|]. rewrite Nat.mod_0_l, Nat.sub_0_r by exact Lc.
    intro X. apply Hm. pose proof (Nat.mod_upper_bound (length s - 1) _ Lc) as Hu.
    assert (Y : length c - 1 = (length s - 1) mod length c).
    { apply (proj1 (NoDup_nth_error c) Hnd); [lia|exact X]. }
    pose proof (Nat.div_mod (length s - 1) _ Lc) as D. symmetry.
    apply (Nat.mod_unique _ _ (1 + (length s - 1) / length c)); [lia|].
    rewrite Nat.mul_add_distr_l. lia.
  Qed.

  (** C43: bad periods *)
  Lemma zero_timestep s c q period h : o_eqb O (o_abs O h) (o_zero O) = true ->
    file_tasks O s c q period h = Err ZeroDivisionError.
  Proof. intro H. unfold file_tasks, create_batches, window_length, py_div. rewrite H. reflexivity. Qed.
  Lemma bad_window s c q period h p : window_length O period h = Ok p -> (p <= 0)%Z ->
    exists e, file_tasks O s c q period h = Err e.
  Proof.
    intros Hw Hp. unfold file_tasks, create_batches. rewrite Hw. cbn [bind].
    destruct (cycled (handle_direction O h c) _) as [cc|e]; [|cbn; eauto]. cbn [bind].
    set (s' := handle_direction O h s). set (q' := handle_direction O h q).
    destruct (cycled q' (Z.of_nat (length s'))) as [pc|e] eqn:Ec; [|cbn; eauto]. cbn [bind].
    assert (L : length pc <= length s').
    { unfold cycled in Ec. destruct (_ <? 0)%Z; [discriminate|]. injection Ec as <-. destruct q'; cbn; [lia|].
      rewrite map_length, seq_length. lia. }
    destruct (mapr (get pc) (py_range (Z.of_nat (length s') - p + 1))) as [pb|e] eqn:Em; [|cbn; eauto].
    exfalso. apply mapr_Forall2 in Em. unfold py_range in Em.
    assert (Hin : In (length s') (seq 0 (Z.to_nat (Z.of_nat (length s') - p + 1)))) by (apply in_seq; lia).
    revert Em Hin. generalize (seq 0 (Z.to_nat (Z.of_nat (length s') - p + 1))). intros l Em.
    induction Em as [|x y l l' Hx _ IH]; intro Hin; [destruct Hin|]. destruct Hin as [-> | Hin]; [|auto].
    unfold get in Hx. rewrite (proj2 (nth_error_None pc (length s')) L) in Hx. discriminate.
  Qed.
  Lemma too_few s c q period h p : window_length O period h = Ok p -> (Z.of_nat (length s) < p)%Z ->
    file_tasks O s c q period h = Ok [].
  Proof.
    intros Hw Hp. unfold file_tasks, create_batches. rewrite Hw. cbn [bind].
    assert (L : length (handle_direction O h s) = length s).
    { unfold handle_direction. destruct (o_ltb _ _ _); [apply rev_length|reflexivity]. }
    rewrite L. unfold py_range. replace (Z.to_nat (Z.of_nat (length s) - p + 1)) with 0 by lia. cbn [seq map mapr].
    unfold cycled. destruct (Z.ltb_spec (Z.of_nat (length s) + p - 1) 0); [lia|]. cbn [bind].
    destruct (Z.ltb_spec (Z.of_nat (length s)) 0); [lia|]. reflexivity.
  Qed.

  (** C47 *)
  Lemma times m n h : length (time_batches O (Z.of_nat m) (Z.of_nat n) h) = m /\
    forall i, i < m -> exists ts, nth_error (time_batches O (Z.of_nat m) (Z.of_nat n) h) i = Some ts /\ length ts = n /\
      forall j, j < n -> nth_error ts j =
        Some (o_add O (o_mul O (o_ofZ O (Z.of_nat i)) h) (o_mul O (o_ofZ O (Z.of_nat j)) h)).
  Proof.
    unfold time_batches, py_range. rewrite !Nat2Z.id. rewrite !map_length, seq_length. split; [reflexivity|].
    intros i Hi. eexists. split.
    { rewrite nth_error_map, nth_error_map, (nth_error_nth' _ 0) by (rewrite seq_length; exact Hi). rewrite seq_nth by exact Hi. reflexivity. }
    rewrite !map_length, seq_length. split; [reflexivity|]. intros j Hj.
    rewrite nth_error_map, nth_error_map, (nth_error_nth' _ 0) by (rewrite seq_length; exact Hj). rewrite seq_nth by exact Hj. reflexivity.
  Qed.
End Windows.

(* ---- real arithmetic ---- *)
Local Open Scope R_scope.
Lemma R_trunc_nonneg x : 0 <= x -> IZR (R_trunc x) <= x < IZR (R_trunc x) + 1 /\ (0 <= R_trunc x)%Z.
Proof.
  intro H. unfold R_trunc. destruct (Rlt_dec x 0) as [L|_]; [lra|].
  destruct (base_Int_part x) as [H1 H2]. split; [lra|]. apply le_IZR.
  destruct (Z_lt_le_dec (Int_part x) 0) as [L|L]; [|apply IZR_le, L].
  assert (L' : (Int_part x <= -1)%Z) by lia. apply IZR_le in L'. lra.
Qed.
Lemma trunc_IZR k : R_trunc (IZR k) = k.
Proof.
  unfold R_trunc. assert (E : forall z, Int_part (IZR z) = z).
  { intro z. destruct (base_Int_part (IZR z)) as [H1 H2]. apply le_IZR in H1.
    assert (H3 : IZR (z - 1) < IZR (Int_part (IZR z))) by (rewrite minus_IZR; lra). apply lt_IZR in H3. lia. }
  destruct (Rlt_dec (IZR k) 0); rewrite <- ?opp_IZR, E; lia.
Qed.
Lemma abs_nonzero h : h <> 0 -> 0 < Rabs h.
Proof. apply Rabs_pos_lt. Qed.
Lemma py_div_R a b : b <> 0 -> py_div Rops a b = Ok (a / b).
Proof. intro H. unfold py_div. cbn. unfold R_eqb, o_zero. cbn. destruct (Req_EM_T b 0); [contradiction|reflexivity]. Qed.

Lemma window_real period h : 0 <= period -> h <> 0 -> exists p : nat, (0 < p)%nat /\
  window_length Rops period h = Ok (Z.of_nat p) /\ (INR p - 1) * Rabs h <= period < INR p * Rabs h.
Proof.
  intros Hp Hh. pose proof (abs_nonzero h Hh) as Ha.
  unfold window_length. cbn [o_abs Rops]. rewrite py_div_R by lra. cbn [bind o_trunc Rops].
  assert (Hq : 0 <= period / Rabs h) by (apply Rmult_le_pos; [lra|left; apply Rinv_0_lt_compat; lra]).
  destruct (R_trunc_nonneg _ Hq) as [[H1 H2] H3]. set (z := R_trunc (period / Rabs h)) in *.
  exists (Z.to_nat (z + 1)). split; [lia|]. rewrite Z2Nat.id by lia. split; [reflexivity|].
  rewrite INR_IZR_INZ, Z2Nat.id, plus_IZR by lia. replace period with (period / Rabs h * Rabs h) by (field; lra).
  split; [apply Rmult_le_compat_r; lra|apply Rmult_lt_compat_r; lra].
Qed.
Lemma window_multiple k h : h <> 0 -> window_length Rops (IZR k * Rabs h) h = Ok (k + 1)%Z.
Proof.
  intro Hh. pose proof (abs_nonzero h Hh) as Ha. unfold window_length. cbn [o_abs Rops]. rewrite py_div_R by lra.
  cbn [bind o_trunc Rops]. replace (IZR k * Rabs h / Rabs h) with (IZR k) by (field; lra). rewrite trunc_IZR. reflexivity.
Qed.
Lemma times_real m n h : length (time_batches Rops (Z.of_nat m) (Z.of_nat n) h) = m /\
  forall i, (i < m)%nat -> exists ts, nth_error (time_batches Rops (Z.of_nat m) (Z.of_nat n) h) i = Some ts /\ length ts = n /\
    forall j, (j < n)%nat -> nth_error ts j = Some (INR (i + j) * h).
Proof.
  destruct (times Rops m n h) as [L H]. split; [exact L|]. intros i Hi. destruct (H i Hi) as (ts & E & Lt & Hj).
  exists ts. split; [exact E|]. split; [exact Lt|]. intros j Hj'. rewrite (Hj j Hj'). cbn. f_equal.
  rewrite plus_INR, !INR_IZR_INZ. ring.
Qed.
