(** The order of the files in the lists of input files. *)
From Coq Require Import Lia Permutation.
From Verif Require Import Base FileUtils SpecText SpecNumbered FileUtilsFacts SearchFacts.
Local Open Scope string_scope.

Lemma decimal_bound s n : decimal s n -> n < 10 ^ String.length s.
Proof.
  induction 1 as [|d s n Hd H IH]; cbn [String.length Nat.pow]; [lia|]. nia.
Qed.

Lemma digit_compare a b : a < 10 -> b < 10 -> Ascii.compare (ascii_of_nat (48 + a)) (ascii_of_nat (48 + b)) = Nat.compare a b.
Proof.
  intros Ha Hb.
  do 10 (destruct a as [|a]; [do 10 (destruct b as [|b]; [reflexivity|]); lia|]). lia.
Qed.

Lemma ascii_compare_refl c : Ascii.compare c c = Eq.
Proof. unfold Ascii.compare. apply N.compare_refl. Qed.

Lemma compare_prefix p a b : String.compare (append p a) (append p b) = String.compare a b.
Proof. induction p as [|c p IH]; cbn; [reflexivity|]. rewrite ascii_compare_refl. exact IH. Qed.

Lemma compare_decimal_suf a m : decimal a m -> forall b n suf, decimal b n -> String.length a = String.length b ->
  String.compare (append a suf) (append b suf) = Nat.compare m n.
Proof.
  induction 1 as [|d s m Hd H IH]; intros b n suf Hb Hl.
  - inversion Hb; subst; [|discriminate Hl]. cbn.
    induction suf as [|c suf IHs]; cbn; [reflexivity|]. rewrite ascii_compare_refl. exact IHs.
  - inversion Hb as [|e s' n' He Hs']; subst; [discriminate Hl|].
    cbn [String.length] in Hl. injection Hl as Hl. cbn [append String.compare].
    rewrite (digit_compare d e Hd He), <- Hl, (IH _ _ suf Hs' Hl).
    pose proof (decimal_bound _ _ H) as Bm. pose proof (decimal_bound _ _ Hs') as Bn. rewrite <- Hl in Bn.
    set (p := 10 ^ String.length s) in *.
    destruct (Nat.compare_spec d e) as [->|Hlt|Hgt].
    + destruct (Nat.compare_spec m n'); symmetry; [apply Nat.compare_eq_iff|apply Nat.compare_lt_iff|apply Nat.compare_gt_iff]; nia.
    + symmetry. apply Nat.compare_lt_iff. nia.
    + symmetry. apply Nat.compare_gt_iff. nia.
Qed.

Lemma append_length a b : String.length (append a b) = String.length a + String.length b.
Proof. induction a as [|c a IH]; cbn; [reflexivity|]. f_equal. exact IH. Qed.

Lemma append_inj_r a : forall b c, append a c = append b c -> a = b.
Proof.
  induction a as [|x a IH]; intros [|y b] c H; cbn in H.
  - reflexivity.
  - apply (f_equal String.length) in H. cbn in H. rewrite append_length in H. lia.
  - apply (f_equal String.length) in H. cbn in H. rewrite append_length in H. lia.
  - injection H as -> H. f_equal. exact (IH _ _ H).
Qed.

Lemma middle_inj p a b s : append p (append a s) = append p (append b s) -> a = b.
Proof. intros H. exact (append_inj_r _ _ _ (append_inj _ _ _ H)). Qed.

Lemma nodup_sorted_filter (f : string -> bool) l : NoDup l -> NoDup (sorted (filter f l)).
Proof.
  intros H. apply (Permutation_NoDup (Permutation_sym (sorted_perm _))). apply NoDup_filter. exact H.
Qed.

Lemma ascending_time before after w l : NoDup l -> ascending l ->
  (forall path, In path l -> numbered_width w before after path) -> in_time_order before after l.
Proof.
  intros Hn Ha Hw i j a b m n Hij Hi Hj (s & -> & _ & Hs) (u & -> & _ & Hu).
  destruct (Hw _ (nth_error_In _ _ Hi)) as (s' & m' & Es & Ls & Ds).
  destruct (Hw _ (nth_error_In _ _ Hj)) as (u' & n' & Eu & Lu & Du).
  apply middle_inj in Es. apply middle_inj in Eu. subst s' u'.
  pose proof (Ha _ _ _ _ Hij Hi Hj) as L. apply leb_compare in L.
  rewrite compare_prefix, (compare_decimal_suf _ _ Hs _ _ after Hu) in L by congruence.
  apply Nat.compare_ngt_iff in L.
  destruct (Nat.eq_dec m n) as [->|]; [exfalso|lia].
  assert (E : s = u).
  { apply (append_inj_r _ _ ""). apply String.compare_eq_iff.
    rewrite (compare_decimal_suf _ _ Hs _ _ "" Hu) by congruence. apply Nat.compare_refl. }
  subst u. assert (i = j); [|lia].
  apply (proj1 (NoDup_nth_error l) Hn); [|congruence].
  apply nth_error_Some. congruence.
Qed.

Lemma padded_search root t pattern before after w : proper t ->
  (forall path, In path (find_files_with_pattern root t pattern) -> numbered_width w before after path) ->
  in_time_order before after (find_files_with_pattern root t pattern).
Proof.
  intros Hp Hw. destruct (find_order root t pattern Hp) as [Ha Hn]. exact (ascending_time _ _ w _ Hn Ha Hw).
Qed.

Lemma padded_script root t before after w : proper t ->
  let '(velocity, coordinate, particle) := snd (create_list (find_files_with_pattern root t ".mat")) in
  forall l, In l [velocity; coordinate; particle] ->
  (forall path, In path l -> numbered_width w before after path) -> in_time_order before after l.
Proof.
  intros Hp. cbn. intros l Hl Hw. apply (ascending_time _ _ w _); [| |exact Hw];
    destruct Hl as [<-|[<-|[<-|[]]]]; try apply sorted_ascending;
    apply nodup_sorted_filter; exact (proj2 (find_order root t _ Hp)).
Qed.

(** ** Cases *)

Definition unpadded : node := Dir [("velocities_2.mat", File); ("velocities_10.mat", File)].
Definition padded : node := Dir [("velocities_10.mat", File); ("velocities_02.mat", File); ("particles.mat", File)].

Lemma no_slash_dec s : contains "/" s = false -> ~ occurs "/" s.
Proof.
  intros H (a & b & ->). assert (E : contains "/" (append a (String "/" b)) = true); [|congruence].
  apply contains_iff. exists a, b. reflexivity.
Qed.

Lemma proper_flat (names : list string) : NoDup names -> forallb (fun s => negb (contains "/" s) && negb (String.eqb s "")) names = true ->
  proper (Dir (map (fun s => (s, File)) names)).
Proof.
  intros Hn Hf. constructor.
  - rewrite map_map. cbn. rewrite map_id. exact Hn.
  - intros name t Hin. apply in_map_iff in Hin. destruct Hin as (s & E & Hs). injection E as <- <-.
    rewrite forallb_forall in Hf. specialize (Hf _ Hs). apply andb_prop in Hf. destruct Hf as [H1 H2].
    split; [apply no_slash_dec; destruct (contains "/" s); [discriminate|reflexivity]|].
    split; [intros ->; discriminate H2|constructor].
Qed.

Lemma unpadded_proper : proper unpadded.
Proof.
  apply (proper_flat ["velocities_2.mat"; "velocities_10.mat"]); [|reflexivity].
  repeat constructor; cbn; intuition discriminate.
Qed.
Lemma padded_proper : proper padded.
Proof.
  apply (proper_flat ["velocities_10.mat"; "velocities_02.mat"; "particles.mat"]); [|reflexivity].
  repeat constructor; cbn; intuition discriminate.
Qed.

Lemma decimal_2 : decimal "2" 2.
Proof. apply (decimal_digit 2 "" 0); [lia|constructor]. Qed.
Lemma decimal_02 : decimal "02" 2.
Proof. apply (decimal_digit 0 "2" 2); [lia|exact decimal_2]. Qed.
Lemma decimal_10 : decimal "10" 10.
Proof. apply (decimal_digit 1 "0" 0); [lia|]. apply (decimal_digit 0 "" 0); [lia|constructor]. Qed.

Lemma unpadded_refuted : exists root t before after,
  proper t /\
  let velocity := fst (fst (snd (create_list (find_files_with_pattern root t ".mat")))) in
  (forall path, In path velocity -> exists n, numbered before after path n) /\
  ~ in_time_order before after velocity.
Proof.
  exists "/data", unpadded, "/data/velocities_", ".mat". split; [exact unpadded_proper|].
  cbn zeta. replace (fst (fst _)) with ["/data/velocities_10.mat"; "/data/velocities_2.mat"] by reflexivity.
  assert (N10 : numbered "/data/velocities_" ".mat" "/data/velocities_10.mat" 10) by (exists "10"; repeat split; [discriminate|exact decimal_10]).
  assert (N2 : numbered "/data/velocities_" ".mat" "/data/velocities_2.mat" 2) by (exists "2"; repeat split; [discriminate|exact decimal_2]).
  split.
  - intros path [<-|[<-|[]]]; eauto.
  - intros H. specialize (H 0 1 _ _ 10 2 ltac:(lia) eq_refl eq_refl N10 N2). lia.
Qed.

Lemma padded_case : proper padded /\
  let velocity := fst (fst (snd (create_list (find_files_with_pattern "/data" padded ".mat")))) in
  velocity = ["/data/velocities_02.mat"; "/data/velocities_10.mat"] /\
  (forall path, In path velocity -> numbered_width 2 "/data/velocities_" ".mat" path) /\
  numbered "/data/velocities_" ".mat" "/data/velocities_02.mat" 2 /\
  numbered "/data/velocities_" ".mat" "/data/velocities_10.mat" 10.
Proof.
  split; [exact padded_proper|]. cbn zeta.
  replace (fst (fst _)) with ["/data/velocities_02.mat"; "/data/velocities_10.mat"] by reflexivity.
  split; [reflexivity|]. split; [|split].
  - intros path [<-|[<-|[]]].
    + exists "02", 2. repeat split. exact decimal_02.
    + exists "10", 10. repeat split. exact decimal_10.
  - exists "02". repeat split; [discriminate|exact decimal_02].
  - exists "10". repeat split; [discriminate|exact decimal_10].
Qed.
