(** Lemmas for C128. *)
From Coq Require Import Lia Permutation NArith.
From Verif Require Import Base Text TextFacts FileUtils SpecText FileUtilsFacts SearchFacts NotebookFiles.
Open Scope string_scope.

(** ** Comparison of strings *)
Lemma ascii_compare_refl c : Ascii.compare c c = Eq.
Proof. unfold Ascii.compare. apply N.compare_refl. Qed.
Lemma compare_same p : forall a b, String.compare (append p a) (append p b) = String.compare a b.
Proof. induction p as [|c p IH]; intros a b; cbn; [reflexivity|]. rewrite ascii_compare_refl. apply IH. Qed.
Lemma compare_refl s : String.compare s s = Eq.
Proof. induction s as [|c s IH]; cbn; [reflexivity|]. rewrite ascii_compare_refl. exact IH. Qed.
(** Strings of the same length decide before what follows them. *)
Lemma compare_first : forall a b u v, String.length a = String.length b ->
  String.compare (append a u) (append b v) = match String.compare a b with Eq => String.compare u v | c => c end.
Proof.
  induction a as [|x a IH]; intros [|y b] u v H; try discriminate; [reflexivity|]. cbn. injection H as H.
  destruct (Ascii.compare x y); [apply IH, H|reflexivity|reflexivity].
Qed.
Lemma append_length a b : String.length (append a b) = String.length a + String.length b.
Proof. induction a as [|c a IH]; cbn; [reflexivity|]. rewrite IH. reflexivity. Qed.

(** ** Decimals of fixed width *)
Lemma last_length k : forall n, String.length (last_digits k n) = k.
Proof. induction k as [|k IH]; intro n; cbn; [reflexivity|]. rewrite append_length, IH. cbn. lia. Qed.
Lemma digit_compare a b : Ascii.compare (digit a) (digit b) = Nat.compare (a mod 10) (b mod 10).
Proof.
  pose proof (Nat.mod_upper_bound a 10 ltac:(lia)). pose proof (Nat.mod_upper_bound b 10 ltac:(lia)).
  unfold Ascii.compare, digit.
  replace (N_of_ascii (ascii_of_nat (48 + a mod 10))) with (N.of_nat (48 + a mod 10)).
  2:{ rewrite <- (nat_ascii_embedding (48 + a mod 10)) at 1 by lia. unfold nat_of_ascii. apply N2Nat.id. }
  replace (N_of_ascii (ascii_of_nat (48 + b mod 10))) with (N.of_nat (48 + b mod 10)).
  2:{ rewrite <- (nat_ascii_embedding (48 + b mod 10)) at 1 by lia. unfold nat_of_ascii. apply N2Nat.id. }
  rewrite <- Nat2N.inj_compare. reflexivity.
Qed.
Lemma last_compare k : forall a b, a < Nat.pow 10 k -> b < Nat.pow 10 k -> String.compare (last_digits k a) (last_digits k b) = Nat.compare a b.
Proof.
  induction k as [|k IH]; intros a b Ha Hb.
  - cbn in Ha, Hb. replace a with 0 by lia. replace b with 0 by lia. reflexivity.
  - cbn [last_digits]. rewrite compare_first by (rewrite !last_length; reflexivity).
    rewrite Nat.pow_succ_r' in Ha, Hb. rewrite IH by (apply Nat.div_lt_upper_bound; lia).
    pose proof (Nat.div_mod a 10 ltac:(lia)). pose proof (Nat.div_mod b 10 ltac:(lia)).
    pose proof (Nat.mod_upper_bound a 10 ltac:(lia)). pose proof (Nat.mod_upper_bound b 10 ltac:(lia)).
    destruct (Nat.compare_spec (a / 10) (b / 10)) as [E|E|E].
    + cbn [String.compare]. rewrite digit_compare. destruct (Nat.compare_spec (a mod 10) (b mod 10)) as [F|F|F].
      * symmetry. apply Nat.compare_eq_iff. lia.
      * symmetry. apply Nat.compare_lt_iff. lia.
      * symmetry. apply Nat.compare_gt_iff. lia.
    + symmetry. apply Nat.compare_lt_iff. lia.
    + symmetry. apply Nat.compare_gt_iff. lia.
Qed.
(** Padding. *)
Lemma zeros_snoc n s : append (zeros n) (String "0" s) = append (zeros (S n)) s.
Proof. induction n as [|n IH]; cbn; [reflexivity|]. rewrite IH. reflexivity. Qed.
Lemma last_zero k : last_digits k 0 = zeros k.
Proof.
  induction k as [|k IH]; [reflexivity|]. cbn [last_digits]. change (0 / 10) with 0. rewrite IH. change (String (digit 0) "") with (String "0" "").
  rewrite zeros_snoc. clear IH. induction (S k) as [|m IH]; cbn; [reflexivity|]. rewrite IH. reflexivity.
Qed.
Lemma padded_fuel fuel : forall k n, n < fuel -> 1 <= k -> n < Nat.pow 10 k ->
  String.length (decimal_fuel fuel n) <= k /\ append (zeros (k - String.length (decimal_fuel fuel n))) (decimal_fuel fuel n) = last_digits k n.
Proof.
  induction fuel as [|f IH]; intros k n Hf Hk Hn; [lia|]. cbn [decimal_fuel]. destruct k as [|k]; [lia|].
  destruct (Nat.ltb_spec n 10) as [L|L].
  - cbn [String.length]. split; [lia|]. cbn [last_digits]. rewrite (Nat.div_small n 10 L), last_zero. replace (S k - 1) with k by lia. reflexivity.
  - assert (Hk' : 1 <= k). { destruct k; [cbn in Hn; lia|lia]. }
    assert (Hd : n / 10 < Nat.pow 10 k). { rewrite Nat.pow_succ_r' in Hn. apply Nat.div_lt_upper_bound; lia. }
    destruct (IH k (n / 10)) as [Hl He]; [pose proof (Nat.div_lt n 10 ltac:(lia) ltac:(lia)); lia|exact Hk'|exact Hd|].
    rewrite append_length. cbn [String.length]. split; [lia|]. cbn [last_digits]. rewrite <- He.
    replace (S k - (String.length (decimal_fuel f (n / 10)) + 1)) with (k - String.length (decimal_fuel f (n / 10))) by lia.
    rewrite append_assoc. reflexivity.
Qed.
Lemma zfill_decimal k n : 1 <= k -> n < Nat.pow 10 k -> zfill k (decimal n) = last_digits k n.
Proof. intros Hk Hn. exact (proj2 (padded_fuel (S n) k n ltac:(lia) Hk Hn)). Qed.
(** 10^k has one digit more. *)
Lemma decimal_enough fuel : forall fuel' n, n < fuel -> n < fuel' -> decimal_fuel fuel n = decimal_fuel fuel' n.
Proof.
  induction fuel as [|f IH]; intros [|f'] n H H'; try lia. cbn [decimal_fuel]. destruct (Nat.ltb_spec n 10); [reflexivity|].
  pose proof (Nat.div_lt n 10 ltac:(lia) ltac:(lia)). rewrite (IH f' (n / 10)) by lia. reflexivity.
Qed.
Lemma decimal_step n : 10 <= n -> decimal n = append (decimal (n / 10)) (String (digit n) "").
Proof.
  intro H. unfold decimal at 1. cbn [decimal_fuel]. destruct (Nat.ltb_spec n 10); [lia|].
  pose proof (Nat.div_lt n 10 ltac:(lia) ltac:(lia)). unfold decimal. rewrite (decimal_enough n (S (n / 10)) (n / 10)) by lia. reflexivity.
Qed.
Lemma decimal_power k : exists s, decimal (Nat.pow 10 k) = String "1" s /\ String.length s = k.
Proof.
  induction k as [|k (s & E & L)]; [exists ""; split; reflexivity|].
  assert (P : 1 <= Nat.pow 10 k) by (pose proof (Nat.pow_nonzero 10 k ltac:(lia)); lia).
  rewrite Nat.pow_succ_r', decimal_step by lia. rewrite Nat.mul_comm, Nat.div_mul, E by lia.
  exists (append s (String (digit (Nat.pow 10 k * 10)) "")). split; [reflexivity|]. rewrite append_length, L. cbn. lia.
Qed.
Lemma last_nines k : exists s, last_digits (S k) (Nat.pow 10 (S k) - 1) = String "9" s.
Proof.
  induction k as [|k (s & E)]; [exists ""; reflexivity|]. cbn [last_digits] in *.
  assert (P : 1 <= Nat.pow 10 (S k)) by (pose proof (Nat.pow_nonzero 10 (S k) ltac:(lia)); lia).
  replace ((Nat.pow 10 (S (S k)) - 1) / 10) with (Nat.pow 10 (S k) - 1).
  - rewrite E. eexists. reflexivity.
  - rewrite (Nat.pow_succ_r' 10 (S k)). apply Nat.div_unique with 9; lia.
Qed.

(** ** Names *)
Lemma names_before k a b p : 1 <= k -> a < b -> b < Nat.pow 10 k -> String.compare (append p (numbered k a)) (append p (numbered k b)) = Lt.
Proof.
  intros Hk Hab Hb. rewrite compare_same. unfold numbered. rewrite !zfill_decimal by lia. rewrite compare_first by (rewrite !last_length; reflexivity).
  rewrite last_compare by lia. apply Nat.compare_lt_iff in Hab. rewrite Hab. reflexivity.
Qed.
Lemma names_swap k p : 1 <= k -> String.compare (append p (numbered k (Nat.pow 10 k - 1))) (append p (numbered k (Nat.pow 10 k))) = Gt.
Proof.
  intro Hk. rewrite compare_same. unfold numbered.
  assert (P : 1 <= Nat.pow 10 k) by (pose proof (Nat.pow_nonzero 10 k ltac:(lia)); lia).
  rewrite (zfill_decimal k (Nat.pow 10 k - 1)) by lia. destruct k as [|k]; [lia|]. destruct (last_nines k) as (s & ->).
  destruct (decimal_power (S k)) as (s' & -> & L). unfold zfill. cbn [String.length]. rewrite L. replace (S k - S (S k)) with 0 by lia. reflexivity.
Qed.

(** ** Sorted lists *)
Lemma chain_unique l : forall l', chain l -> chain l' -> Permutation l l' -> (forall x y, In x l -> In y l -> String.leb x y = true -> String.leb y x = true -> x = y) -> l = l'.
Proof.
  induction l as [|x l IH]; intros l' H H' P A.
  - apply Permutation_nil in P. auto.
  - destruct l' as [|y l']; [symmetry in P; apply Permutation_nil in P; discriminate|].
    inversion H as [|? ? Hx Hl]; subst. inversion H' as [|? ? Hy Hl']; subst.
    assert (E : x = y).
    { pose proof (Permutation_in x P (or_introl eq_refl)) as [E|I]; [auto|].
      pose proof (Permutation_in y (Permutation_sym P) (or_introl eq_refl)) as [E|J]; [auto|].
      apply A; [left; reflexivity|right; exact J|exact (Hx y J)|exact (Hy x I)]. }
    subst y. f_equal. apply IH; [exact Hl|exact Hl'|exact (Permutation_cons_inv P)|]. intros; apply A; try (right; assumption); assumption.
Qed.
Lemma compare_antisym a b : String.compare a b = CompOpp (String.compare b a).
Proof. apply String.compare_antisym. Qed.
Lemma leb_antisym a b : String.leb a b = true -> String.leb b a = true -> a = b.
Proof.
  rewrite !leb_compare. rewrite (compare_antisym b a). destruct (String.compare a b) eqn:E; cbn; try congruence.
  intros _ _. apply String.compare_eq_iff. exact E.
Qed.
Lemma chain_names k p m : forall s, 1 <= k -> s + m <= Nat.pow 10 k -> chain (map (fun i => append p (numbered k i)) (seq s m)).
Proof.
  induction m as [|m IH]; intros s Hk Hm; cbn [seq map]; constructor; [|apply IH; lia].
  intros y Hy. apply in_map_iff in Hy as (j & <- & Hj). apply in_seq in Hj. apply leb_compare. rewrite names_before by lia. discriminate.
Qed.

Lemma sorted_names k p n l : 1 <= k -> Permutation l (map (fun i => append p (numbered k i)) (seq 1 n)) ->
  sorted l = map (fun i => append p (numbered k i)) (seq 1 n) <-> n < Nat.pow 10 k.
Proof.
  intros Hk P. split.
  - intro E. destruct (Nat.lt_ge_cases n (Nat.pow 10 k)) as [|H]; [assumption|exfalso].
    assert (P1 : 10 <= Nat.pow 10 k) by (destruct k; [lia|rewrite Nat.pow_succ_r'; pose proof (Nat.pow_nonzero 10 k ltac:(lia)); lia]).
    pose proof (sorted_ascending l) as A. rewrite E in A.
    specialize (A (Nat.pow 10 k - 2) (Nat.pow 10 k - 1) _ _ ltac:(lia)
      (map_nth_error (fun i => append p (numbered k i)) (Nat.pow 10 k - 2) (seq 1 n) (d := Nat.pow 10 k - 1) ltac:(rewrite (nth_error_nth' _ 0) by (rewrite seq_length; lia); rewrite seq_nth by lia; f_equal; lia))
      (map_nth_error (fun i => append p (numbered k i)) (Nat.pow 10 k - 1) (seq 1 n) (d := Nat.pow 10 k) ltac:(rewrite (nth_error_nth' _ 0) by (rewrite seq_length; lia); rewrite seq_nth by lia; f_equal; lia))).
    cbv beta in A. apply leb_compare in A. apply A. apply names_swap, Hk.
  - intro H. apply chain_unique; [apply chain_sorted|apply chain_names; lia|rewrite sorted_perm; exact P|].
    intros x y _ _. apply leb_antisym.
Qed.

(** ** The two lists *)
Lemma filter_perm {A} (f : A -> bool) l l' : Permutation l l' -> Permutation (filter f l) (filter f l').
Proof.
  induction 1; cbn; [constructor|destruct (f x); [constructor|]; assumption|destruct (f x), (f y); try reflexivity; constructor|etransitivity; eassumption].
Qed.
Lemma filter_all {A} (f : A -> bool) l : (forall x, In x l -> f x = true) -> filter f l = l.
Proof. induction l as [|x l IH]; intro H; cbn; [reflexivity|]. rewrite H by (left; reflexivity). f_equal. apply IH. intros; apply H; right; assumption. Qed.
Lemma filter_none {A} (f : A -> bool) l : (forall x, In x l -> f x = false) -> filter f l = [].
Proof. induction l as [|x l IH]; intro H; cbn; [reflexivity|]. rewrite H by (left; reflexivity). apply IH. intros; apply H; right; assumption. Qed.
Lemma ends_refl e : ends_with e e = true.
Proof. destruct e; cbn; [reflexivity|]. rewrite Ascii.eqb_refl, String.eqb_refl. reflexivity. Qed.
Lemma ends_app e s : ends_with e (append s e) = true.
Proof. induction s as [|c s IH]; [apply ends_refl|]. cbn [append ends_with]. rewrite IH. apply orb_true_r. Qed.
Lemma ends_iff e s : ends_with e s = true <-> exists u, s = append u e.
Proof.
  split; [|intros (u & ->); apply ends_app]. induction s as [|c s IH]; cbn [ends_with]; intro H; apply orb_prop in H as [H|H].
  - apply String.eqb_eq in H as ->. exists "". reflexivity.
  - discriminate.
  - apply String.eqb_eq in H as ->. exists "". reflexivity.
  - destruct (IH H) as (u & ->). exists (String c u). reflexivity.
Qed.
Lemma prefix_app a b : prefix a (append a b) = true.
Proof. apply prefix_iff. exists b. reflexivity. Qed.
Lemma numbered_ends k i p : ends_with ".mat" (append p (numbered k i)) = true.
Proof. unfold numbered. rewrite <- append_assoc. apply ends_app. Qed.

Lemma list_text_inj l : forall l', (forall p, In p l \/ In p l' -> ~ occurs "010" p) -> list_text l = list_text l' -> l = l'.
Proof.
  assert (H : forall a b x y, ~ occurs "010" a -> ~ occurs "010" b -> append a (String newline x) = append b (String newline y) -> a = b /\ x = y).
  { induction a as [|c a IH]; intros [|d b] x y Ha Hb E; cbn in E.
    - injection E as E. auto.
    - injection E as <- _. destruct Hb. exists "", b. reflexivity.
    - injection E as -> _. destruct Ha. exists "", a. reflexivity.
    - injection E as <- E. destruct (IH b x y) as [-> ->]; auto.
      + intros (u & v & ->). apply Ha. exists (String c u), v. reflexivity.
      + intros (u & v & ->). apply Hb. exists (String c u), v. reflexivity. }
  induction l as [|p l IH]; intros [|q l'] Hn E; cbn in E.
  - reflexivity.
  - destruct q; discriminate.
  - destruct p; discriminate.
  - apply H in E as [-> E]; [|apply Hn; left; left; reflexivity|apply Hn; right; left; reflexivity]. f_equal.
    apply IH; [|exact E]. intros r [I|I]; apply Hn; [left|right]; right; exact I.
Qed.

(** ** Characters of the names *)
Lemma occurs_app c a b : occurs c (append a b) <-> occurs c a \/ occurs c b.
Proof.
  split.
  - intros (u & v & E). revert u E. induction a as [|x a IH]; intros u E; cbn in E; [right; exists u, v; exact E|].
    destruct u as [|y u]; injection E as -> E; [left; exists "", a; reflexivity|].
    destruct (IH u E) as [(p & q & ->)|H]; [left; exists (String y p), q; reflexivity|right; exact H].
  - intros [(u & v & ->)|(u & v & ->)].
    + exists u, (append v b). rewrite append_assoc. reflexivity.
    + exists (append a u), v. rewrite append_assoc. reflexivity.
Qed.
Lemma occurs_cons c x s : occurs c (String x s) <-> c = x \/ occurs c s.
Proof.
  change (String x s) with (append (String x "") s). rewrite occurs_app. split; intros [H|H]; auto.
  - destruct H as ([|y u] & v & E); cbn in E; injection E as E1 E2; [left; auto|destruct u; discriminate].
  - left. subst x. exists "", "". reflexivity.
Qed.
Lemma occurs_nil c : ~ occurs c "".
Proof. intros ([|] & v & E); discriminate. Qed.
Definition decimal_digit (c : ascii) : Prop := exists n, c = digit n.
Lemma zeros_chars c n : occurs c (zeros n) -> decimal_digit c.
Proof. induction n as [|n IH]; intro H; [destruct (occurs_nil _ H)|]. apply occurs_cons in H as [->|H]; [exists 0; reflexivity|auto]. Qed.
Lemma decimal_chars fuel : forall c n, occurs c (decimal_fuel fuel n) -> decimal_digit c.
Proof.
  induction fuel as [|f IH]; intros c n H; cbn [decimal_fuel] in H; [destruct (occurs_nil _ H)|]. destruct (Nat.ltb n 10).
  - apply occurs_cons in H as [->|H]; [exists n; reflexivity|destruct (occurs_nil _ H)].
  - apply occurs_app in H as [H|H]; [eapply IH, H|]. apply occurs_cons in H as [->|H]; [exists n; reflexivity|destruct (occurs_nil _ H)].
Qed.
Lemma digit_cases c : decimal_digit c -> In c ["0"; "1"; "2"; "3"; "4"; "5"; "6"; "7"; "8"; "9"]%char.
Proof.
  intros (n & ->). unfold digit. pose proof (Nat.mod_upper_bound n 10 ltac:(lia)) as H. revert H. generalize (n mod 10). intros m H.
  do 10 (destruct m as [|m]; [vm_compute; tauto|]). lia.
Qed.
Lemma numbered_chars c k i : occurs c (numbered k i) ->
  In c ["0"; "1"; "2"; "3"; "4"; "5"; "6"; "7"; "8"; "9"; "."; "m"; "a"; "t"]%char.
Proof.
  intro H. unfold numbered, zfill in H. apply occurs_app in H as [H|H].
  - assert (D : decimal_digit c) by (apply occurs_app in H as [H|H]; [eapply zeros_chars, H|eapply decimal_chars, H]).
    apply digit_cases in D. cbn in D |- *. tauto.
  - repeat (apply occurs_cons in H as [->|H]; [cbn; tauto|]). destruct (occurs_nil _ H).
Qed.

(** ** Substrings *)
Lemma contains_char c w s : contains (String c w) s = true -> occurs c s.
Proof. rewrite contains_iff. intros (u & v & ->). exists u, (append w v). reflexivity. Qed.
Lemma prefix_slash w : forall d f, ~ occurs "/" w -> prefix w (append d (String "/" f)) = prefix w d.
Proof.
  induction w as [|c w IH]; intros d f H; [destruct d; reflexivity|].
  assert (Hc : c <> "/"%char /\ ~ occurs "/" w) by (split; intro; apply H, occurs_cons; auto). destruct d as [|x d]; cbn.
  - destruct (ascii_dec c "/") as [->|]; [tauto|reflexivity].
  - destruct (ascii_dec c x); [apply IH; tauto|reflexivity].
Qed.
Lemma contains_join w d f : ~ occurs "/" w -> w <> "" -> contains w (join d f) = contains w d || contains w f.
Proof.
  intros H N. unfold join. change (append "/" f) with (String "/" f). induction d as [|x d IH].
  - cbn [append contains]. pose proof (prefix_slash w "" f H) as P. cbn [append] in P. rewrite P. destruct w; [tauto|]. reflexivity.
  - cbn [append contains]. rewrite <- (prefix_slash w (String x d) f H). cbn [append]. rewrite IH. rewrite orb_assoc. reflexivity.
Qed.
Lemma velocity_not_velocities k i : contains "velocities" (velocity_name k i) = false.
Proof.
  unfold velocity_name. destruct (contains "velocities" (append "velocity" (numbered k i))) eqn:E; [|reflexivity]. exfalso.
  apply contains_iff in E as (u & v & E). destruct u as [|y u]; [discriminate|]. injection E as _ E.
  assert (H : occurs "v" (append "elocity" (numbered k i))).
  { exists u, (append "elocities" v). exact E. }
  apply occurs_app in H as [H|H].
  - repeat (apply occurs_cons in H as [H|H]; [discriminate|]). destruct (occurs_nil _ H).
  - apply numbered_chars in H. cbn in H. repeat (destruct H as [H|H]; [discriminate|]). destruct H.
Qed.

(** ** Main lemmas *)
Definition paths (w : nat) (directory : string) (n : nat) : list string := map (fun i => join directory (velocity_name w i)) (seq 1 n).

Lemma join_numbered w directory i : join directory (velocity_name w i) = append (append directory "/velocity") (numbered w i).
Proof. unfold join, velocity_name. rewrite append_assoc. reflexivity. Qed.

Lemma paths_map w directory n : paths w directory n = map (join directory) (map (fun i => append "velocity" (numbered w i)) (seq 1 n)).
Proof. unfold paths. rewrite map_map. reflexivity. Qed.
Lemma path_newline w directory i : ~ occurs "010" directory -> ~ occurs "010" (join directory (velocity_name w i)).
Proof.
  intros H O. rewrite join_numbered in O. apply occurs_app in O as [O|O].
  - apply occurs_app in O as [O|O]; [tauto|]. repeat (apply occurs_cons in O as [O|O]; [discriminate|]). destruct (occurs_nil _ O).
  - apply numbered_chars in O. cbn in O. repeat (destruct O as [O|O]; [discriminate|]). destruct O.
Qed.
Lemma join_inj d a b : join d a = join d b -> a = b.
Proof. unfold join. intro E. apply append_inj in E. injection E as E. exact E. Qed.
Lemma map_join_inj d l : forall l', map (join d) l = map (join d) l' -> l = l'.
Proof.
  induction l as [|a l IH]; intros [|b l'] E; cbn in E; try discriminate; [reflexivity|].
  injection E as E E'. apply join_inj in E as ->. f_equal. apply IH, E'.
Qed.

Lemma found_perm w n entries others :
  Permutation entries (map (velocity_name w) (seq 1 n) ++ others)%list ->
  (forall f, In f others -> ~ ((exists s, f = append "velocity" s) /\ exists s, f = append s ".mat")) ->
  Permutation (filter (fun f => prefix "velocity" f && ends_with ".mat" f) entries) (map (fun i => append "velocity" (numbered w i)) (seq 1 n)).
Proof.
  intros P O. apply (filter_perm (fun f => prefix "velocity" f && ends_with ".mat" f)) in P. rewrite P, filter_app, (filter_none _ others), app_nil_r.
  - rewrite filter_all; [reflexivity|]. intros f Hf. apply in_map_iff in Hf as (i & <- & _). unfold velocity_name.
    rewrite prefix_app, numbered_ends. reflexivity.
  - intros f Hf. specialize (O f Hf). destruct (prefix "velocity" f) eqn:E1; [|reflexivity]. destruct (ends_with ".mat" f) eqn:E2; [|reflexivity].
    destruct O. split; [apply prefix_iff, E1|apply ends_iff, E2].
Qed.
Lemma notebook_list w n directory entries others : 1 <= w -> ~ occurs "010" directory ->
  Permutation entries (map (velocity_name w) (seq 1 n) ++ others)%list ->
  (forall f, In f others -> ~ ((exists s, f = append "velocity" s) /\ exists s, f = append s ".mat")) ->
  (generate_list "velocity" directory entries = list_text (paths w directory n) <-> n < Nat.pow 10 w).
Proof.
  intros Hw Hd P O. pose proof (found_perm w n entries others P O) as F. rewrite <- (sorted_names w "velocity" n _ Hw F).
  unfold generate_list. rewrite paths_map. split; [|intros ->; reflexivity].
  intro E. apply map_join_inj with directory. apply list_text_inj; [|exact E].
  assert (G : forall p, In p (map (fun i => append "velocity" (numbered w i)) (seq 1 n)) -> ~ occurs "010" (join directory p)).
  { intros p Hp. apply in_map_iff in Hp as (i & <- & _). apply path_newline, Hd. }
  intros q [I|I]; apply in_map_iff in I as (p & <- & I); apply G; [|exact I].
  exact (Permutation_in p F (proj1 (sorted_in _ p) I)).
Qed.
Lemma notebook_read w n directory entries others : 1 <= n -> n < Nat.pow 10 w ->
  ~ occurs "," directory -> ~ occurs "010" directory -> ~ occurs "013" directory -> (forall q, directory <> String """" q) ->
  Permutation entries (map (velocity_name w) (seq 1 n) ++ others)%list ->
  (forall f, In f others -> ~ ((exists s, f = append "velocity" s) /\ exists s, f = append s ".mat")) ->
  get_files_list (Some (generate_list "velocity" directory entries)) = Ok (map Some (paths w directory n)).
Proof.
  intros Hn Hl H1 H2 H3 H4 P O. assert (Hw : 1 <= w) by (destruct w; [cbn in Hl; lia|lia]).
  rewrite (proj2 (notebook_list w n directory entries others Hw H2 P O) Hl).
  apply round_trip_iff. split; [unfold paths; destruct n; [lia|discriminate]|].
  intros p Hp. apply in_map_iff in Hp as (i & <- & _). rewrite join_numbered.
  assert (G : forall c, ~ occurs c directory -> In c [","; "010"; "013"]%char -> ~ occurs c (append (append directory "/velocity") (numbered w i))).
  { intros c Hc Hi C. apply occurs_app in C as [C|C].
    - apply occurs_app in C as [C|C]; [tauto|].
      cbn in Hi. destruct Hi as [<-|[<-|[<-|[]]]]; (repeat (apply occurs_cons in C as [C|C]; [discriminate|])); destruct (occurs_nil _ C).
    - apply numbered_chars in C. cbn in Hi. destruct Hi as [<-|[<-|[<-|[]]]]; cbn in C; (repeat (destruct C as [C|C]; [discriminate|])); destruct C. }
  repeat split.
  - apply G; cbn; tauto.
  - apply G; cbn; tauto.
  - apply G; cbn; tauto.
  - intros q E. destruct directory as [|x d]; [discriminate|]. injection E as -> _. apply (H4 d). reflexivity.
  - exists "v"%char. split; [|split; discriminate]. apply occurs_app. left. apply occurs_app. right. exists "/", "elocity". reflexivity.
  - intro I. assert (L : 13 <= String.length (append (append directory "/velocity") (numbered w i))).
    { rewrite !append_length. unfold numbered. rewrite append_length. cbn. lia. }
    cbn [In] in I. repeat (destruct I as [I|I]; [rewrite <- I in L; cbn in L; lia|]). exact I.
Qed.
Lemma script_list w n name all others : 1 <= w -> substring_of "velocities" name ->
  Permutation all (map (fun i => append name (numbered w i)) (seq 1 n) ++ others)%list ->
  (forall f, In f others -> ~ substring_of "velocities" f) ->
  (let '(velocity, _, _) := snd (create_list all) in velocity = map (fun i => append name (numbered w i)) (seq 1 n)) <-> n < Nat.pow 10 w.
Proof.
  intros Hw Hs P O. cbn [create_list snd]. apply sorted_names; [exact Hw|]. apply (filter_perm (contains "velocities")) in P. rewrite P, filter_app, (filter_none _ others), app_nil_r.
  - rewrite filter_all; [reflexivity|]. intros f Hf. apply in_map_iff in Hf as (i & <- & _). apply contains_iff.
    destruct Hs as (a & b & ->). exists a, (append b (numbered w i)). rewrite !append_assoc. reflexivity.
  - intros f Hf. destruct (contains "velocities" f) eqn:E; [|reflexivity]. apply contains_iff in E. destruct (O f Hf E).
Qed.
Lemma script_blind w n directory others : ~ substring_of "velocities" directory -> (forall f, In f others -> ~ substring_of "velocities" f) ->
  forall all, Permutation all (paths w directory n ++ others)%list ->
  In No_velocity (fst (create_list all)) /\ (let '(velocity, _, _) := snd (create_list all) in velocity = []).
Proof.
  intros Hd O all P.
  assert (E : filter (contains "velocities") all = []).
  { apply filter_none. intros f Hf. apply (Permutation_in f P) in Hf. apply in_app_or in Hf as [Hf|Hf].
    - apply in_map_iff in Hf as (i & <- & _). rewrite contains_join.
      + rewrite velocity_not_velocities, orb_false_r. destruct (contains "velocities" directory) eqn:E; [|reflexivity]. apply contains_iff in E. tauto.
      + intro C. repeat (apply occurs_cons in C as [C|C]; [discriminate|]). destruct (occurs_nil _ C).
      + discriminate.
    - destruct (contains "velocities" f) eqn:E; [|reflexivity]. apply contains_iff in E. destruct (O f Hf E). }
  unfold create_list. rewrite E. cbn [sorted is_nil fst snd]. split; [left; reflexivity|reflexivity].
Qed.

(** ** The script and the notebook *)
Lemma rglob_flat p d names : rglob p d (Dir (map (fun f => (f, File)) names)) = map (join d) (filter (glob p) names).
Proof.
  cbn [rglob]. induction names as [|f names IH]; [reflexivity|]. cbn [map flat_map fst snd filter rglob] in *. rewrite IH, app_nil_r.
  destruct (glob p f); reflexivity.
Qed.
Lemma leb_join d a b : String.leb (join d a) (join d b) = String.leb a b.
Proof. unfold String.leb, join. rewrite !compare_same. reflexivity. Qed.
Lemma sorted_join d l : sorted (map (join d) l) = map (join d) (sorted l).
Proof.
  induction l as [|a l IH]; [reflexivity|]. cbn [map sorted fold_right]. fold (sorted (map (join d) l)). fold (sorted l). rewrite IH.
  generalize (sorted l). intro m. clear. induction m as [|b m IH]; [reflexivity|]. cbn [map insert_sorted]. rewrite leb_join, IH.
  destruct (String.leb a b); reflexivity.
Qed.
Lemma sorted_filter (g : string -> bool) l : sorted (filter g (sorted l)) = sorted (filter g l).
Proof.
  apply chain_unique; [apply chain_sorted|apply chain_sorted| |intros; apply leb_antisym; assumption].
  rewrite (sorted_perm (filter g (sorted l))), (sorted_perm (filter g l)). apply filter_perm, sorted_perm.
Qed.
Lemma filter_map_join (g : string -> bool) d l : filter g (map (join d) l) = map (join d) (filter (fun f => g (join d f)) l).
Proof. induction l as [|a l IH]; [reflexivity|]. cbn. rewrite IH. destruct (g (join d a)); reflexivity. Qed.
Lemma filter_filter {A} (g h : A -> bool) l : filter g (filter h l) = filter (fun x => h x && g x) l.
Proof. induction l as [|a l IH]; [reflexivity|]. cbn. destruct (h a); cbn; rewrite IH; reflexivity. Qed.
Lemma filter_same {A} (g h : A -> bool) l : (forall x, In x l -> g x = h x) -> filter g l = filter h l.
Proof. induction l as [|a l IH]; intro H; [reflexivity|]. cbn. rewrite (H a), IH; [reflexivity|intros; apply H; right; assumption|left; reflexivity]. Qed.
Lemma bool_eq a b : (a = true <-> b = true) -> a = b.
Proof. destruct a, b; intros [H1 H2]; auto. symmetry. auto. Qed.
Lemma one_list word d names : ~ occurs "/" word -> word <> "" -> ~ substring_of word d ->
  (forall f, In f names -> substring_of ".mat" f -> exists s, f = append s ".mat") ->
  (forall f, In f names -> substring_of word f -> exists s, f = append word s) ->
  list_text (sorted (filter (contains word) (find_files_with_pattern d (Dir (map (fun f => (f, File)) names)) ".mat"))) = generate_list word d names.
Proof.
  intros Hs Hn Hd Hm Hw. unfold find_files_with_pattern, generate_list. rewrite sorted_filter, rglob_flat, filter_map_join, sorted_join, filter_filter.
  do 3 f_equal. apply filter_same. intros f Hf. apply bool_eq. rewrite !andb_true_iff, contains_join, orb_true_iff by assumption.
  rewrite (glob_substring ".mat" f (conj (proj1 dot_mat_plain "*"%char ltac:(cbn; tauto)) (proj1 dot_mat_plain "?"%char ltac:(cbn; tauto)))).

  rewrite !contains_iff, prefix_iff, ends_iff. split.
  - intros [H1 [H2|H2]]; [tauto|]. split; [exact (Hw f Hf H2)|exact (Hm f Hf H1)].
  - intros [(s & E1) (s' & E2)]. split.
    + exists s', "". rewrite append_nil_r. exact E2.
    + right. exists "", s. exact E1.
Qed.
Lemma script_same d names :
  (forall f, In f names -> substring_of ".mat" f -> exists s, f = append s ".mat") ->
  (forall word, In word ["velocities"; "coordinate"; "particles"] -> ~ substring_of word d /\ forall f, In f names -> substring_of word f -> exists s, f = append word s) ->
  let '(v, c, p) := snd (create_list (find_files_with_pattern d (Dir (map (fun f => (f, File)) names)) ".mat")) in
  list_text v = generate_list "velocities" d names /\ list_text c = generate_list "coordinate" d names /\ list_text p = generate_list "particles" d names.
Proof.
  intros Hm Hw. cbn [create_list snd].
  assert (G : forall word, In word ["velocities"; "coordinate"; "particles"] -> ~ occurs "/" word /\ word <> "").
  { intros word I. cbn in I. destruct I as [<-|[<-|[<-|[]]]]; (split; [|discriminate]); intro C;
      (repeat (apply occurs_cons in C as [C|C]; [discriminate|])); destruct (occurs_nil _ C). }
  repeat split; apply one_list; try exact Hm; try (apply G; cbn; tauto); apply Hw; cbn; tauto.
Qed.

(** ** Cases *)
Lemma order_refuted : exists n entries, Permutation entries (map (velocity_name 4) (seq 1 n)) /\
  generate_list "velocity" "data" entries <> list_text (map (fun i => join "data" (velocity_name 4 i)) (seq 1 n)).
Proof.
  exists (Nat.pow 10 4), (map (velocity_name 4) (seq 1 (Nat.pow 10 4))). split; [reflexivity|]. intro E.
  pose proof (notebook_list 4 (Nat.pow 10 4) "data" (map (velocity_name 4) (seq 1 (Nat.pow 10 4))) [] ltac:(lia)) as N.
  assert (H : ~ occurs "010" "data") by (intro C; repeat (apply occurs_cons in C as [C|C]; [discriminate|]); destruct (occurs_nil _ C)).
  specialize (N H ltac:(rewrite app_nil_r; reflexivity) ltac:(intros f [])). apply (proj1 N) in E. exact (Nat.lt_irrefl _ E).
Qed.
Lemma names_refuted : exists d names,
  let '(v, c, p) := snd (create_list (find_files_with_pattern d (Dir (map (fun f => (f, File)) names)) ".mat")) in
  In (velocity_name 4 1) names /\ generate_list "velocity" d names = list_text [join d (velocity_name 4 1)] /\ v = [].
Proof. exists "data", ["velocity0001.mat"; "coordinates.mat"; "particles.mat"]. vm_compute. repeat split. left. reflexivity. Qed.

Definition listing : list string := ["velocity03.mat"; "particles.mat"; "velocity10.mat"; "velocity.txt"; "velocity01.mat"; "velocity04.mat";
  "velocity02.mat"; "velocity08.mat"; "velocity05.mat"; "velocity09.mat"; "velocity07.mat"; "velocity06.mat"].
Lemma listing_perm : Permutation listing (map (velocity_name 2) (seq 1 10) ++ ["particles.mat"; "velocity.txt"])%list.
Proof.
  apply NoDup_Permutation.
  - unfold listing. repeat constructor; cbn; intuition discriminate.
  - vm_compute. repeat constructor; cbn; intuition discriminate.
  - intro x. vm_compute. tauto.
Qed.
Lemma listing_others f : In f ["particles.mat"; "velocity.txt"] -> ~ ((exists s, f = append "velocity" s) /\ exists s, f = append s ".mat").
Proof.
  intros I [H1 H2]. apply prefix_iff in H1. apply ends_iff in H2. cbn in I. destruct I as [<-|[<-|[]]]; vm_compute in H1, H2; discriminate.
Qed.
Lemma same_case : let names := ["velocities2.mat"; "notes.txt"; "coordinates.mat"; "velocities1.mat"; "particles.mat"] in
  ((forall f, In f names -> substring_of ".mat" f -> exists s, f = append s ".mat") /\
   (forall word, In word ["velocities"; "coordinate"; "particles"] ->
     ~ substring_of word "data" /\ forall f, In f names -> substring_of word f -> exists s, f = append word s)) /\
  generate_list "velocities" "data" names = list_text ["data/velocities1.mat"; "data/velocities2.mat"].
Proof.
  cbv zeta. split; [|reflexivity]. split.
  - intros f I S. apply contains_iff in S. apply ends_iff. cbn in I. decompose [or] I; subst; try reflexivity; try tauto; vm_compute in S; discriminate.
  - intros word W. split.
    + intro S. apply contains_iff in S. cbn in W. decompose [or] W; subst; try tauto; vm_compute in S; discriminate.
    + intros f I S. apply contains_iff in S. apply prefix_iff. cbn in W, I. decompose [or] W; subst; try tauto;
        decompose [or] I; subst; try tauto; vm_compute in S |- *; congruence.
Qed.
