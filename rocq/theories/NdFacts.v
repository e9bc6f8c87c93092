(** Lemmas about n-dimensional arrays and their index maps. *)
From Coq Require Import Lia.
From Verif Require Import Base NdArray.
Local Arguments Nat.ltb : simpl never.

Lemma mapr_Forall2 {A B} (f : A -> res B) l bs :
  mapr f l = Ok bs <-> Forall2 (fun a b => f a = Ok b) l bs.
Proof.
  revert bs; induction l as [|a l IH]; intros bs; cbn.
  - split; [intros [= <-]; constructor | inversion 1; reflexivity].
  - split.
    + destruct (f a) as [b|e] eqn:Ha; cbn; [|discriminate].
      destruct (mapr f l) as [bs'|e] eqn:Hl; cbn; [|discriminate].
      intros [= <-]. constructor; [exact Ha|]. apply IH. reflexivity.
    + inversion 1 as [|? b ? bs' Ha Hl]; subst. rewrite Ha. cbn.
      apply IH in Hl. rewrite Hl. reflexivity.
Qed.

Lemma mapr_total {A B} (f : A -> res B) l :
  (forall a, In a l -> exists b, f a = Ok b) -> exists bs, mapr f l = Ok bs.
Proof.
  induction l as [|a l IH]; intros H; [exists []; reflexivity|].
  destruct (H a (or_introl eq_refl)) as [b Hb].
  destruct IH as [bs Hbs]; [intros x Hx; apply H; right; exact Hx|].
  exists (b :: bs). cbn. rewrite Hb, Hbs. reflexivity.
Qed.

Lemma mapr_nth {A B} (f : A -> res B) l bs i a :
  mapr f l = Ok bs -> nth_error l i = Some a -> exists b, nth_error bs i = Some b /\ f a = Ok b.
Proof.
  intros H. apply mapr_Forall2 in H. revert i. induction H as [|x b l bs Hx _ IH]; intros [|i] Hi;
    cbn in *; try discriminate.
  - injection Hi as ->. exists b. auto.
  - apply IH, Hi.
Qed.

Lemma mapr_len {A B} (f : A -> res B) l bs : mapr f l = Ok bs -> length bs = length l.
Proof. intros H. apply mapr_Forall2 in H. induction H; cbn; congruence. Qed.

Lemma mapr_map {A B C} (g : A -> B) (f : B -> res C) l : mapr f (map g l) = mapr (fun a => f (g a)) l.
Proof. induction l; cbn; [reflexivity|]. rewrite IHl. reflexivity. Qed.

Lemma mapr_ext {A B} (f g : A -> res B) l : (forall a, In a l -> f a = g a) -> mapr f l = mapr g l.
Proof.
  induction l as [|a l IH]; intros H; cbn; [reflexivity|].
  rewrite (H a (or_introl eq_refl)), IH; [reflexivity|]. intros x Hx. apply H. right. exact Hx.
Qed.

Lemma mapr_const {A B} (f : A -> B) l : mapr (fun a => Ok (f a)) l = Ok (map f l).
Proof. induction l; cbn; [reflexivity|]. rewrite IHl. reflexivity. Qed.

Lemma mapr_err {A B} (f : A -> res B) l e :
  l <> [] -> (forall a, In a l -> f a = Err e) -> mapr f l = Err e.
Proof. destruct l; [congruence|]. intros _ H. cbn. rewrite (H a (or_introl eq_refl)). reflexivity. Qed.

(* ---------------------------------------------------------------- *)
Lemma indices_length s : length (indices s) = size s.
Proof.
  induction s as [|n s IH]; [reflexivity|]. cbn [indices size].
  assert (G : forall k m, length (flat_map (fun i => map (cons i) (indices s)) (seq k m)) = m * size s).
  { intros k m; revert k; induction m as [|m IHm]; intros k; [reflexivity|].
    cbn [seq flat_map]. rewrite app_length, map_length, IHm, IH. cbn. lia. }
  apply G.
Qed.

Lemma c_ravel_lt s ix : in_bounds s ix = true -> c_ravel s ix < size s.
Proof.
  revert ix; induction s as [|n s IH]; intros [|i ix]; cbn; try discriminate; try lia.
  rewrite andb_true_iff, Nat.ltb_lt. intros [Hi Hx]. apply IH in Hx. nia.
Qed.

Lemma nth_indices s ix : in_bounds s ix = true -> nth_error (indices s) (c_ravel s ix) = Some ix.
Proof.
  revert ix; induction s as [|n s IH]; intros [|i ix]; cbn [in_bounds]; try discriminate; [reflexivity|].
  rewrite andb_true_iff, Nat.ltb_lt. intros [Hi Hx]. cbn [indices c_ravel].
  assert (G : forall k m, i < m ->
    nth_error (flat_map (fun i => map (cons i) (indices s)) (seq k m)) (i * size s + c_ravel s ix)
    = Some ((k + i) :: ix)).
  { clear n Hi. induction i as [|i IHi]; intros k [|m] Hm; try lia; cbn [seq flat_map].
    - cbn [Nat.mul Nat.add]. rewrite nth_error_app1.
      + rewrite nth_error_map, (IH _ Hx). cbn. rewrite Nat.add_0_r. reflexivity.
      + rewrite map_length, indices_length. apply c_ravel_lt, Hx.
    - rewrite nth_error_app2 by (rewrite map_length, indices_length; cbn; lia).
      rewrite map_length, indices_length.
      replace (S i * size s + c_ravel s ix - size s) with (i * size s + c_ravel s ix) by (cbn; lia).
      rewrite IHi by lia. replace (S k + i) with (k + S i) by lia. reflexivity. }
  rewrite (G 0 n Hi). reflexivity.
Qed.

Lemma in_indices s ix : In ix (indices s) <-> in_bounds s ix = true.
Proof.
  revert ix; induction s as [|n s IH]; intros ix; cbn [indices].
  - split; [intros [<-|[]]; reflexivity|]. destruct ix; cbn; [auto|discriminate].
  - rewrite in_flat_map. split.
    + intros [i [Hi Hx]]. apply in_seq in Hi. apply in_map_iff in Hx. destruct Hx as [r [<- Hr]].
      cbn. rewrite andb_true_iff, Nat.ltb_lt. split; [lia|]. apply IH, Hr.
    + destruct ix as [|i ix]; cbn; [discriminate|].
      rewrite andb_true_iff, Nat.ltb_lt. intros [Hi Hx]. exists i. split; [apply in_seq; lia|].
      apply in_map. apply IH, Hx.
Qed.

Lemma nd_build_ok {A} s (f : list nat -> res A) :
  (forall ix, in_bounds s ix = true -> exists v, f ix = Ok v) ->
  exists a, nd_build s f = Ok a /\ shape a = s /\ wf_nd a /\
            forall ix, in_bounds s ix = true -> nd_get a ix = f ix.
Proof.
  intros H. destruct (mapr_total f (indices s)) as [d Hd].
  { intros ix Hix. apply H, in_indices, Hix. }
  exists (Nd s d). unfold nd_build. rewrite Hd. split; [reflexivity|]. split; [reflexivity|]. split.
  - unfold wf_nd. cbn. rewrite (mapr_len _ _ _ Hd). apply indices_length.
  - intros ix Hix. unfold nd_get. cbn [shape data]. rewrite Hix. unfold get.
    destruct (mapr_nth _ _ _ _ _ Hd (nth_indices _ _ Hix)) as [v [-> ->]]. reflexivity.
Qed.

Lemma nd_get_ok {A} (a : nd A) ix :
  wf_nd a -> in_bounds (shape a) ix = true -> exists v, nd_get a ix = Ok v.
Proof.
  intros Hw Hb. unfold nd_get. rewrite Hb. unfold get.
  destruct (nth_error (data a) (c_ravel (shape a) ix)) eqn:E; [eauto|].
  apply nth_error_None in E. pose proof (c_ravel_lt _ _ Hb). rewrite Hw in E. lia.
Qed.

(** Two arrays with the same shape and elements are equal. *)
Lemma c_unravel_ex s k : k < size s -> exists ix, in_bounds s ix = true /\ c_ravel s ix = k.
Proof.
  revert k; induction s as [|n s IH]; intros k; cbn [size].
  - intros H. exists []. split; [reflexivity|]. cbn. lia.
  - intros H. destruct (Nat.eq_dec (size s) 0) as [E|E]; [rewrite E in H; lia|].
    destruct (IH (k mod size s)) as [ix [Hb Hk]]; [apply Nat.mod_upper_bound, E|].
    exists (k / size s :: ix). split.
    + cbn. rewrite Hb, andb_true_r. apply Nat.ltb_lt. apply Nat.div_lt_upper_bound; lia.
    + cbn. rewrite Hk. rewrite Nat.mul_comm. symmetry. apply Nat.div_mod, E.
Qed.

Lemma nth_error_ext {A} (l m : list A) :
  length l = length m -> (forall i, i < length l -> nth_error l i = nth_error m i) -> l = m.
Proof.
  revert m; induction l as [|a l IH]; intros [|b m] Hl H; cbn in *; try discriminate; [reflexivity|].
  pose proof (H 0 ltac:(lia)) as H0. injection H0 as ->. f_equal. apply IH; [lia|].
  intros i Hi. apply (H (S i)). lia.
Qed.

Lemma nd_ext {A} (a b : nd A) : wf_nd a -> wf_nd b -> shape a = shape b ->
  (forall ix, in_bounds (shape a) ix = true -> nd_get a ix = nd_get b ix) -> a = b.
Proof.
  intros Ha Hb Hs H. destruct a as [s d], b as [s' d']. cbn in *. subst s'. f_equal.
  unfold wf_nd in *. cbn in *. apply nth_error_ext; [congruence|]. intros i Hi.
  rewrite Ha in Hi. destruct (c_unravel_ex s i Hi) as [ix [Hix Hk]].
  specialize (H ix Hix). unfold nd_get in H. cbn in H. rewrite Hix, Hk in H. unfold get in H.
  destruct (nth_error d i) eqn:E1, (nth_error d' i) eqn:E2; congruence.
Qed.

Lemma f_unravel_bounds s k : k < size s -> in_bounds s (f_unravel s k) = true.
Proof.
  revert k; induction s as [|n s IH]; intros k; cbn; [reflexivity|]. intros H.
  destruct n as [|n]; [lia|]. rewrite andb_true_iff, Nat.ltb_lt. split.
  - apply Nat.mod_upper_bound. discriminate.
  - apply IH. apply Nat.div_lt_upper_bound; [discriminate|]. cbn. lia.
Qed.

Lemma f_ravel_lt s ix : in_bounds s ix = true -> f_ravel s ix < size s.
Proof.
  revert ix; induction s as [|n s IH]; intros [|i ix]; cbn; try discriminate; try lia.
  rewrite andb_true_iff, Nat.ltb_lt. intros [Hi Hx]. apply IH in Hx. nia.
Qed.

Lemma f_unravel_ravel s ix : in_bounds s ix = true -> f_unravel s (f_ravel s ix) = ix.
Proof.
  revert ix; induction s as [|n s IH]; intros [|i ix]; cbn [in_bounds]; try discriminate; [reflexivity|].
  rewrite andb_true_iff, Nat.ltb_lt. intros [Hi Hx]. cbn [f_unravel f_ravel].
  rewrite (Nat.mul_comm n), Nat.mod_add, Nat.div_add by lia.
  rewrite Nat.mod_small, Nat.div_small by lia. cbn. rewrite (IH _ Hx). reflexivity.
Qed.

Lemma f_ravel_unravel s k : k < size s -> f_ravel s (f_unravel s k) = k.
Proof.
  revert k; induction s as [|n s IH]; intros k; cbn [size f_ravel f_unravel]; [lia|]. intros H.
  destruct n as [|n]; [lia|].
  rewrite IH by (apply Nat.div_lt_upper_bound; [discriminate|exact H]).
  pose proof (Nat.div_mod k (S n)). lia.
Qed.

(* ---------------------------------------------------------------- *)
Lemma reshape_c_ok {A} (a : nd A) s :
  wf_nd a -> size (shape a) = size s ->
  reshape_c a s = Ok (Nd s (data a)) /\ wf_nd (Nd s (data a)).
Proof.
  intros Hw Hs. unfold reshape_c. rewrite Hs, Nat.eqb_refl. split; [reflexivity|].
  unfold wf_nd in *. cbn. congruence.
Qed.

Lemma reshape_f_ok {A} (a : nd A) s :
  wf_nd a -> size (shape a) = size s ->
  exists b, reshape_f a s = Ok b /\ shape b = s /\ wf_nd b /\
    forall ix, in_bounds s ix = true -> nd_get b ix = nd_get a (f_unravel (shape a) (f_ravel s ix)).
Proof.
  intros Hw Hs. unfold reshape_f. rewrite Hs, Nat.eqb_refl. apply nd_build_ok.
  intros ix Hix. apply nd_get_ok; [exact Hw|]. apply f_unravel_bounds.
  rewrite Hs. apply f_ravel_lt, Hix.
Qed.

Lemma transpose_0213_ok {A} (a : nd A) c p q r :
  wf_nd a -> shape a = [c; p; q; r] ->
  exists b, transpose_0213 a = Ok b /\ shape b = [c; q; p; r] /\ wf_nd b /\
    forall d i j k, in_bounds [c; q; p; r] [d; i; j; k] = true ->
      nd_get b [d; i; j; k] = nd_get a [d; j; i; k].
Proof.
  intros Hw Hs. unfold transpose_0213. rewrite Hs.
  destruct (nd_build_ok [c; q; p; r]
    (fun ix => match ix with [d; i; j; k] => nd_get a [d; j; i; k] | _ => Err IndexError end))
    as [b [E [Hb [Hwb Hg]]]].
  - intros [|d [|i [|j [|k [|]]]]]; cbn -[nd_get Nat.ltb]; rewrite ?andb_false_r; try discriminate.
    intros H. apply nd_get_ok; [exact Hw|]. rewrite Hs. cbn -[Nat.ltb].
    rewrite !andb_true_iff in *. tauto.
  - exists b. split; [exact E|]. split; [exact Hb|]. split; [exact Hwb|].
    intros d i j k H. rewrite (Hg _ H). reflexivity.
Qed.

Lemma transpose_102_ok {A} (a : nd A) p q r :
  wf_nd a -> shape a = [p; q; r] ->
  exists b, transpose_102 a = Ok b /\ shape b = [q; p; r] /\ wf_nd b /\
    forall i j k, in_bounds [q; p; r] [i; j; k] = true -> nd_get b [i; j; k] = nd_get a [j; i; k].
Proof.
  intros Hw Hs. unfold transpose_102. rewrite Hs.
  destruct (nd_build_ok [q; p; r]
    (fun ix => match ix with [i; j; k] => nd_get a [j; i; k] | _ => Err IndexError end))
    as [b [E [Hb [Hwb Hg]]]].
  - intros [|i [|j [|k [|]]]]; cbn -[nd_get Nat.ltb]; rewrite ?andb_false_r; try discriminate.
    intros H. apply nd_get_ok; [exact Hw|]. rewrite Hs. cbn -[Nat.ltb].
    rewrite !andb_true_iff in *. tauto.
  - exists b. split; [exact E|]. split; [exact Hb|]. split; [exact Hwb|].
    intros i j k H. rewrite (Hg _ H). reflexivity.
Qed.

Lemma nth_error_firstn {A} (l : list A) n i : i < n -> nth_error (firstn n l) i = nth_error l i.
Proof.
  revert l i; induction n as [|n IH]; intros [|a l] [|i] H; cbn; try lia; try reflexivity. apply IH. lia.
Qed.

Lemma nth_error_skipn {A} (l : list A) n i : nth_error (skipn n l) i = nth_error l (n + i).
Proof. revert l; induction n as [|n IH]; intros [|a l]; cbn; try reflexivity; [destruct i; reflexivity|apply IH]. Qed.

Lemma subarray_ok {A} (a : nd A) n s i :
  wf_nd a -> shape a = n :: s -> i < n ->
  exists b, subarray a i = Ok b /\ shape b = s /\ wf_nd b /\
    forall ix, in_bounds s ix = true -> nd_get b ix = nd_get a (i :: ix).
Proof.
  intros Hw Hs Hi. unfold subarray. rewrite Hs. rewrite (proj2 (Nat.ltb_lt i n) Hi).
  eexists. split; [reflexivity|]. split; [reflexivity|].
  unfold wf_nd in Hw. rewrite Hs in Hw. cbn in Hw. split.
  - unfold wf_nd. cbn. rewrite firstn_length, skipn_length, Hw. nia.
  - intros ix Hix. unfold nd_get. cbn [shape data]. rewrite Hs. cbn [in_bounds c_ravel].
    rewrite Hix, (proj2 (Nat.ltb_lt i n) Hi). cbn [andb]. unfold get.
    rewrite nth_error_firstn, nth_error_skipn by apply c_ravel_lt, Hix. reflexivity.
Qed.

(* ---------------------------------------------------------------- *)
Lemma concat_length_rows {A} (rows : list (list A)) c :
  Forall (fun r => length r = c) rows -> length (concat rows) = length rows * c.
Proof. induction 1; cbn; [reflexivity|]. rewrite app_length, IHForall. lia. Qed.

Lemma nth_concat {A} (rows : list (list A)) c i j r :
  Forall (fun r => length r = c) rows -> nth_error rows i = Some r -> j < c ->
  nth_error (concat rows) (i * c + j) = nth_error r j.
Proof.
  intros H. revert i. induction H as [|x rows Hx H IH]; intros [|i] Hi Hj; cbn in *; try discriminate.
  - injection Hi as ->. apply nth_error_app1. lia.
  - rewrite nth_error_app2 by lia. replace (c + i * c + j - length x) with (i * c + j) by lia.
    apply IH; assumption.
Qed.

Lemma nd_of_mat_wf {A} (m : mat A) : wf_mat m -> wf_nd (nd_of_mat m).
Proof.
  intros H. unfold wf_nd, nd_of_mat. cbn. rewrite (concat_length_rows _ _ H).
  unfold nrows. lia.
Qed.

Lemma nd_of_mat_get {A} (m : mat A) i j r v :
  wf_mat m -> nth_error (mrows m) i = Some r -> nth_error r j = Some v ->
  nd_get (nd_of_mat m) [i; j] = Ok v.
Proof.
  intros Hw Hi Hj. unfold nd_get, nd_of_mat. cbn [shape data in_bounds c_ravel].
  assert (Hr : length r = mcols m).
  { unfold wf_mat in Hw. rewrite Forall_forall in Hw. eapply Hw, nth_error_In, Hi. }
  assert (Hi' : i < nrows m) by (apply nth_error_Some; congruence).
  assert (Hj' : j < mcols m) by (rewrite <- Hr; apply nth_error_Some; congruence).
  apply Nat.ltb_lt in Hi'. apply Nat.ltb_lt in Hj' as Hj''. rewrite Hi', Hj''. cbn [andb].
  unfold get. cbn [size].
  replace (i * (mcols m * 1) + (j * 1 + 0)) with (i * mcols m + j) by lia.
  rewrite (nth_concat _ _ _ _ _ Hw Hi Hj'), Hj. reflexivity.
Qed.

(* ---------------------------------------------------------------- *)
Lemma set_nth_length {A} j (v : A) r : length (set_nth j v r) = length r.
Proof. revert j; induction r; intros [|j]; cbn; auto. Qed.

Lemma set_nth_same {A} j (v : A) r : j < length r -> nth_error (set_nth j v r) j = Some v.
Proof. revert j; induction r; intros [|j] H; cbn in *; try lia; [reflexivity|]. apply IHr. lia. Qed.

Lemma set_nth_other {A} i j (v : A) r : i <> j -> nth_error (set_nth j v r) i = nth_error r i.
Proof. revert i j; induction r; intros [|i] [|j] H; cbn; try reflexivity; try congruence. apply IHr. congruence. Qed.
