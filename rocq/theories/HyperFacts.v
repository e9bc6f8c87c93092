(** Lemmas about Hyper.v. *)
From Coq Require Import Lia.
From Verif Require Import Base Text Hyper SpecText SpecConfig FileUtilsFacts SearchFacts.
Open Scope string_scope.

(** ** Characters *)

Lemma digit_iff c : is_digit c = true <->
  exists k, nth_error ["0"; "1"; "2"; "3"; "4"; "5"; "6"; "7"; "8"; "9"]%char k = Some c /\ digit_value c = Z.of_nat k.
Proof.
  split.
  - intro H. exists (Z.to_nat (digit_value c)).
    destruct c as [[|] [|] [|] [|] [|] [|] [|] [|]]; try discriminate H; vm_compute; auto.
  - intros (k & H & _). repeat (destruct k as [|k]; [cbn in H; injection H as <-; reflexivity|]). destruct k; discriminate.
Qed.
Lemma digit_of c k : nth_error ["0"; "1"; "2"; "3"; "4"; "5"; "6"; "7"; "8"; "9"]%char k = Some c ->
  is_digit c = true /\ digit_value c = Z.of_nat k.
Proof. intro H. repeat (destruct k as [|k]; [cbn in H; injection H as <-; auto|]). destruct k; discriminate. Qed.

Lemma space_iff c : is_space c = true <-> In c [" "; "009"; "010"; "011"; "012"; "013"]%char.
Proof.
  split.
  - intro H. destruct c as [[|] [|] [|] [|] [|] [|] [|] [|]]; try discriminate H; cbn; auto 10.
  - cbn. intros [<-|[<-|[<-|[<-|[<-|[<-|[]]]]]]]; reflexivity.
Qed.
Lemma spaces_iff s : all_spaces s = true <-> blanks s.
Proof.
  induction s as [|c s IH]; cbn; [split; constructor|]. rewrite andb_true_iff, IH, space_iff. split.
  - intros [H1 H2]. constructor; assumption.
  - intro H. inversion H; auto.
Qed.
Lemma space_sep c : is_space c = true -> is_digit c = false /\ Ascii.eqb c "_" = false /\ Ascii.eqb c "-" = false /\ Ascii.eqb c "+" = false /\ c <> ","%char.
Proof. rewrite space_iff. cbn. intros [<-|[<-|[<-|[<-|[<-|[<-|[]]]]]]]; repeat split; discriminate. Qed.
Lemma digit_sep c : is_digit c = true -> is_space c = false /\ Ascii.eqb c "_" = false /\ Ascii.eqb c "-" = false /\ Ascii.eqb c "+" = false /\ c <> ","%char.
Proof.
  rewrite digit_iff. intros (k & H & _).
  repeat (destruct k as [|k]; [cbn in H; injection H as <-; repeat split; discriminate|]). destruct k; discriminate.
Qed.

(** ** Digits *)

Inductive tail : Z -> string -> Z -> Prop :=
| tail_end acc : tail acc "" acc
| tail_digit acc c s n : is_digit c = true -> tail (10 * acc + digit_value c) s n -> tail acc (String c s) n
| tail_group acc c s n : is_digit c = true -> tail (10 * acc + digit_value c) s n -> tail acc (String "_" (String c s)) n.

Lemma int_tail acc s z : int_digits acc s = Ok z <-> exists ds b, s = append ds b /\ blanks b /\ tail acc ds z.
Proof.
  split.
  - revert acc z. assert (Hn : forall n s, String.length s <= n -> forall acc z, int_digits acc s = Ok z ->
      exists ds b, s = append ds b /\ blanks b /\ tail acc ds z); [|apply (Hn (String.length s) s (le_n _))].
    induction n as [|n IH]; intros [|c u] Hl acc z H; cbn in Hl; try lia; cbn [int_digits] in H.
    + injection H as <-. exists "", "". repeat constructor.
    + injection H as <-. exists "", "". repeat constructor.
    + destruct (is_digit c) eqn:Ed.
      * apply IH in H as (ds & b & -> & Hb & Ht); [|lia]. exists (String c ds), b. repeat split; auto. constructor; auto.
      * destruct (Ascii.eqb c "_") eqn:Eu.
        -- apply Ascii.eqb_eq in Eu. subst c. destruct u as [|d u]; [discriminate|]. destruct (is_digit d) eqn:Ed'; [|discriminate].
           cbn in Hl. apply IH in H as (ds & b & -> & Hb & Ht); [|lia]. exists (String "_" (String d ds)), b.
           repeat split; auto. apply tail_group; auto.
        -- destruct (all_spaces (String c u)) eqn:Es; [|discriminate]. injection H as <-. exists "", (String c u).
           repeat split; [apply spaces_iff, Es|constructor].
  - intros (ds & b & -> & Hb & Ht). induction Ht as [acc|acc c s n Hc Ht IH|acc c s n Hc Ht IH].
    + cbn [append]. destruct b as [|c b]; [reflexivity|]. cbn [int_digits]. pose proof Hb as Hs. apply spaces_iff in Hs. rewrite Hs.
      cbn in Hs. apply andb_true_iff in Hs as [Hc _]. destruct (space_sep c Hc) as (-> & -> & _). reflexivity.
    + cbn [append int_digits]. rewrite Hc. exact IH.
    + cbn [append int_digits is_digit Ascii.eqb]. change (is_digit "_") with false. change (Ascii.eqb "_" "_") with true. cbv iota.
      rewrite Hc. exact IH.
Qed.

Lemma tail_snoc acc s n c : tail acc s n -> is_digit c = true -> tail acc (append s (String c "")) (10 * n + digit_value c).
Proof. induction 1; intro Hc; cbn; [apply tail_digit|apply tail_digit|apply tail_group]; auto; constructor. Qed.
Lemma tail_snoc_group acc s n c : tail acc s n -> is_digit c = true ->
  tail acc (append s (String "_" (String c ""))) (10 * n + digit_value c).
Proof. induction 1; intro Hc; cbn; [apply tail_group|apply tail_digit|apply tail_group]; auto; constructor. Qed.

Lemma decimal_one c : is_digit c = true -> decimal (String c "") (digit_value c).
Proof. intro H. apply digit_iff in H as (k & H & ->). constructor. exact H. Qed.
Lemma decimal_single c z : decimal (String c "") z -> is_digit c = true /\ digit_value c = z.
Proof.
  intro H. inversion H as [c' k Hk E1 E2|s n c' k Hs Hc E1 E2|s n c' k Hs Hc E1 E2]; subst.
  - exact (digit_of _ _ Hk).
  - exfalso. assert (Hx : s <> "") by (intros ->; clear - Hs; remember "" as e; destruct Hs; try discriminate; destruct s; discriminate).
    destruct s as [|x [|y s]]; cbn in E1; try discriminate. congruence.
  - exfalso. destruct s as [|x [|y s]]; cbn in E1; discriminate.
Qed.

Lemma decimal_snoc s n c : decimal s n -> is_digit c = true -> decimal (append s (String c "")) (10 * n + digit_value c).
Proof. intros Hs Hc. pose proof (decimal_one c Hc) as H1. apply digit_iff in Hc as (k & _ & E). rewrite E in *. constructor; assumption. Qed.
Lemma decimal_snoc_group s n c : decimal s n -> is_digit c = true ->
  decimal (append s (String "_" (String c ""))) (10 * n + digit_value c).
Proof. intros Hs Hc. pose proof (decimal_one c Hc) as H1. apply digit_iff in Hc as (k & _ & E). rewrite E in *. exact (decimal_group _ _ _ _ Hs H1). Qed.

Lemma decimal_tail acc s n : tail acc s n -> forall p, decimal p acc -> decimal (append p s) n.
Proof.
  induction 1 as [acc|acc c s n Hc Ht IH|acc c s n Hc Ht IH]; intros p Hp.
  - rewrite append_nil_r. exact Hp.
  - change (String c s) with (append (String c "") s). rewrite <- append_assoc. apply IH. apply decimal_snoc; assumption.
  - change (String "_" (String c s)) with (append (String "_" (String c "")) s). rewrite <- append_assoc. apply IH.
    apply decimal_snoc_group; assumption.
Qed.

Lemma decimal_iff s n : decimal s n <-> exists c u, s = String c u /\ is_digit c = true /\ tail (digit_value c) u n.
Proof.
  split.
  - induction 1 as [c k Hk|s n c k Hs IH Hc _|s n c k Hs IH Hc _].
    + destruct (digit_of _ _ Hk) as [H1 H2]. exists c, "". split; [reflexivity|]. split; [exact H1|]. rewrite H2. constructor.
    + destruct IH as (d & u & -> & Hd & Ht). apply decimal_single in Hc as [Hc <-]. exists d, (append u (String c "")).
      repeat split; auto. apply tail_snoc; assumption.
    + destruct IH as (d & u & -> & Hd & Ht). apply decimal_single in Hc as [Hc <-]. exists d, (append u (append "_" (String c ""))).
      repeat split; auto. apply tail_snoc_group; assumption.
  - intros (c & u & -> & Hc & Ht). change (String c u) with (append (String c "") u). apply (decimal_tail _ _ _ Ht). apply decimal_one, Hc.
Qed.

Lemma unsigned_iff s z : int_unsigned s = Ok z <-> exists ds b, s = append ds b /\ blanks b /\ decimal ds z.
Proof.
  split.
  - destruct s as [|c s]; [discriminate|]. cbn [int_unsigned]. destruct (is_digit c) eqn:Hc; [|discriminate].
    intro H. apply int_tail in H as (ds & b & -> & Hb & Ht). exists (String c ds), b. repeat split; auto.
    apply decimal_iff. exists c, ds. auto.
  - intros (ds & b & -> & Hb & Hd). apply decimal_iff in Hd as (c & u & -> & Hc & Ht). cbn [append int_unsigned]. rewrite Hc.
    apply int_tail. exists u, b. auto.
Qed.

(** ** Integers *)

Lemma skip_iff s : exists a, s = append a (skip_spaces s) /\ blanks a /\
  match skip_spaces s with String c _ => is_space c = false | EmptyString => True end.
Proof.
  induction s as [|c s (a & E & Ha & Hc)]; cbn [skip_spaces]; [exists ""; repeat constructor|].
  destruct (is_space c) eqn:Es.
  - exists (String c a). split; [cbn; f_equal; exact E|]. split; [|exact Hc]. constructor; [apply space_iff, Es|exact Ha].
  - exists "". repeat split; auto. constructor.
Qed.
Lemma skip_app a s : blanks a -> match s with String c _ => is_space c = false | EmptyString => True end -> skip_spaces (append a s) = s.
Proof.
  induction 1 as [|c a Hc Ha IH]; intro Hs; cbn [append].
  - destruct s as [|c s]; [reflexivity|]. cbn. rewrite Hs. reflexivity.
  - cbn [skip_spaces]. apply space_iff in Hc. rewrite Hc. auto.
Qed.

Lemma py_int_iff s z : py_int s = Ok z <-> integer s z.
Proof.
  unfold py_int, integer. split.
  - destruct (skip_iff s) as (a & E & Ha & Hc). destruct (skip_spaces s) as [|c u]; [discriminate|]. intro H.
    destruct (Ascii.eqb c "-") eqn:E1; [|destruct (Ascii.eqb c "+") eqn:E2].
    + apply Ascii.eqb_eq in E1. subst c. destruct (int_unsigned u) as [n|] eqn:Eu; [|discriminate]. cbn in H. injection H as <-.
      apply unsigned_iff in Eu as (ds & b & -> & Hb & Hd). exists a, "-", ds, b, n. repeat split; auto.
    + apply Ascii.eqb_eq in E2. subst c. apply unsigned_iff in H as (ds & b & -> & Hb & Hd). exists a, "+", ds, b, z. repeat split; auto.
    + apply unsigned_iff in H as (ds & b & Eq & Hb & Hd). exists a, "", ds, b, z. cbn [append]. rewrite <- Eq. repeat split; auto.
  - intros (a & sg & ds & b & n & -> & Ha & Hb & Hd & Hz).
    assert (Hu : int_unsigned (append ds b) = Ok n) by (apply unsigned_iff; exists ds, b; auto).
    apply decimal_iff in Hd as (c & u & -> & Hc & _). destruct (digit_sep c Hc) as (S1 & _ & S2 & S3 & _).
    destruct Hz as [[[-> | ->] ->]|[-> ->]].
    + rewrite skip_app; [|exact Ha|cbn; exact S1]. cbn [append]. rewrite S2, S3. exact Hu.
    + rewrite skip_app; [|exact Ha|reflexivity]. exact Hu.
    + rewrite skip_app; [|exact Ha|reflexivity]. change (bind (int_unsigned (append (String c u) b)) (fun m => Ok (- m)%Z) = Ok (- n)%Z).
      rewrite Hu. reflexivity.
Qed.

Lemma py_int_err s e : py_int s = Err e -> e = ValueError.
Proof.
  unfold py_int.
  assert (Hu : forall s, int_unsigned s = Err e -> e = ValueError).
  { intros [|c u]; cbn; [congruence|]. destruct (is_digit c); [|congruence]. generalize (digit_value c). 
    assert (Hn : forall n u, String.length u <= n -> forall acc, int_digits acc u = Err e -> e = ValueError);
      [|intro acc; apply (Hn (String.length u) u (le_n _))].
    clear. induction n as [|n IH]; intros [|c u] Hl acc H; cbn in Hl; try lia; cbn [int_digits] in H; try discriminate.
    destruct (is_digit c); [apply (IH u) in H; [exact H|lia]|]. destruct (Ascii.eqb c "_").
    - destruct u as [|d u]; [congruence|]. destruct (is_digit d); [|congruence]. cbn in Hl. apply (IH u) in H; [exact H|lia].
    - destruct (all_spaces _); congruence. }
  destruct (skip_spaces s) as [|c u]; [congruence|]. destruct (Ascii.eqb c "-"); [|destruct (Ascii.eqb c "+"); apply Hu].
  destruct (int_unsigned u) as [|e'] eqn:E; cbn; [discriminate|]. intro H. injection H as ->. exact (Hu u E).
Qed.

(** ** Splitting *)

Lemma occurs_app c a b : occurs c (append a b) <-> occurs c a \/ occurs c b.
Proof.
  induction a as [|x a IH]; cbn [append]; [split; [auto|intros [H|H]; [destruct (occurs_nil c H)|exact H]]|].
  rewrite !occurs_cons, IH. tauto.
Qed.

Lemma blanks_no_comma b : blanks b -> ~ occurs "," b.
Proof.
  induction 1 as [|c b Hc Hb IH]; [apply occurs_nil|]. rewrite occurs_cons. intros [<-|H]; [|contradiction].
  apply space_iff in Hc. destruct (space_sep _ Hc) as (_ & _ & _ & _ & Hn). congruence.
Qed.
Lemma tail_no_comma acc s n : tail acc s n -> ~ occurs "," s.
Proof.
  induction 1 as [acc|acc c s n Hc Ht IH|acc c s n Hc Ht IH]; [apply occurs_nil| |]; rewrite !occurs_cons;
    destruct (digit_sep c Hc) as (_ & _ & _ & _ & Hn); intuition congruence.
Qed.
Lemma integer_no_comma s z : integer s z -> ~ occurs "," s.
Proof.
  intros (a & sg & ds & b & n & -> & Ha & Hb & Hd & Hz). apply decimal_iff in Hd as (c & u & -> & Hc & Ht).
  rewrite !occurs_app, occurs_cons. pose proof (blanks_no_comma a Ha). pose proof (blanks_no_comma b Hb).
  pose proof (tail_no_comma _ _ _ Ht). destruct (digit_sep c Hc) as (_ & _ & _ & _ & Hn).
  assert (~ occurs "," sg).
  { destruct Hz as [[[-> | ->] _]|[-> _]]; [apply occurs_nil| |]; rewrite occurs_cons; intros [E|E]; try discriminate; exact (occurs_nil _ E). }
  intuition congruence.
Qed.

Lemma split_ne sep s : split_on sep s <> [].
Proof. destruct s as [|c s]; cbn; [discriminate|]. destruct (Ascii.eqb c sep); [discriminate|]. destruct (split_on sep s); discriminate. Qed.

Lemma concat_cons x l : l <> [] -> String.concat "," (x :: l) = append x (String "," (String.concat "," l)).
Proof. destruct l; [congruence|reflexivity]. Qed.

Lemma concat_split s : String.concat "," (split_on "," s) = s.
Proof.
  induction s as [|c s IH]; [reflexivity|]. cbn [split_on]. destruct (Ascii.eqb c ",") eqn:E.
  - apply Ascii.eqb_eq in E. subst c. rewrite concat_cons by apply split_ne. rewrite IH. reflexivity.
  - destruct (split_on "," s) as [|w ws] eqn:Ew; [destruct (split_ne _ _ Ew)|]. rewrite <- IH. destruct ws; reflexivity.
Qed.

Lemma split_plain s : ~ occurs "," s -> split_on "," s = [s].
Proof.
  induction s as [|c s IH]; [reflexivity|]. rewrite occurs_cons. intro H. cbn [split_on].
  destruct (Ascii.eqb c ",") eqn:E; [apply Ascii.eqb_eq in E; subst; tauto|]. rewrite IH by tauto. reflexivity.
Qed.
Lemma split_app a s : ~ occurs "," a -> split_on "," (append a (String "," s)) = a :: split_on "," s.
Proof.
  induction a as [|c a IH]; intro H; [reflexivity|]. rewrite occurs_cons in H. cbn [append split_on].
  destruct (Ascii.eqb c ",") eqn:E; [apply Ascii.eqb_eq in E; subst; tauto|]. rewrite IH by tauto. reflexivity.
Qed.
Lemma split_concat l : l <> [] -> (forall p, In p l -> ~ occurs "," p) -> split_on "," (String.concat "," l) = l.
Proof.
  induction l as [|x l IH]; [congruence|]. intros _ H. destruct l as [|y l].
  - apply split_plain, H. left. reflexivity.
  - rewrite concat_cons by discriminate. rewrite split_app by (apply H; left; reflexivity). f_equal. apply IH; [discriminate|].
    intros p Hp. apply H. right. exact Hp.
Qed.

Lemma mapr_py_int l zs : mapr py_int l = Ok zs <-> Forall2 integer l zs.
Proof.
  revert zs. induction l as [|s l IH]; intro zs; cbn [mapr].
  - split; [intro H; injection H as <-; constructor|]. intro H. inversion H. reflexivity.
  - split.
    + destruct (py_int s) as [z|] eqn:E; cbn [bind]; [|discriminate]. destruct (mapr py_int l) as [zl|] eqn:El; cbn [bind]; [|discriminate].
      intro H. injection H as <-. constructor; [apply py_int_iff, E|]. apply IH. reflexivity.
    + intro H. inversion H as [|? z ? zl Hz Hl]; subst. apply py_int_iff in Hz. apply IH in Hl. rewrite Hz, Hl. reflexivity.
Qed.
Lemma mapr_py_err l e : mapr py_int l = Err e -> e = ValueError.
Proof.
  induction l as [|s l IH]; cbn [mapr]; [discriminate|]. destruct (py_int s) as [z|e'] eqn:E; cbn [bind].
  - destruct (mapr py_int l) as [zl|e']; cbn [bind]; [discriminate|]. intro H. injection H as ->. auto.
  - intro H. injection H as ->. exact (py_int_err s e E).
Qed.

Lemma split_integers s zs : mapr py_int (split_on "," s) = Ok zs <-> zs <> [] /\ integers s zs.
Proof.
  rewrite mapr_py_int. split.
  - intro H. split; [intros ->; inversion H as [E|]; symmetry in E; exact (split_ne _ _ E)|].
    exists (split_on "," s). rewrite concat_split. auto.
  - intros [Hz (parts & -> & H)]. rewrite split_concat; [exact H| |].
    + intros ->. inversion H. congruence.
    + intros p Hp. revert Hp. clear Hz. induction H as [|q z l zl Hq Hl IH]; [intros []|]. intros [<-|Hp]; auto. exact (integer_no_comma _ _ Hq).
Qed.

(** ** parse_tuple *)

Lemma parse_iff s t : parse_tuple s = Ok t <->
  exists zs, integers s zs /\ (length zs = 2 \/ length zs = 3) /\ (forall z, In z zs -> (0 < z)%Z) /\
             t = if (last zs 0 =? 1)%Z then removelast zs else zs.
Proof.
  unfold parse_tuple. split.
  - destruct (mapr py_int (split_on "," s)) as [zs|] eqn:E; cbn [bind]; [|discriminate]. apply split_integers in E as [_ Hi].
    destruct (existsb (Nat.eqb (length zs)) [2; 3]) eqn:El; cbn [negb]; [|discriminate].
    destruct (forallb (fun x => (0 <? x)%Z) zs) eqn:Ep; cbn [negb]; [|discriminate]. intro H. exists zs. split; [exact Hi|].
    split; [|split].
    + cbn [existsb] in El. rewrite !orb_true_iff, !Nat.eqb_eq in El. intuition discriminate.
    + intros z Hz. rewrite forallb_forall in Ep. apply Z.ltb_lt, Ep, Hz.
    + destruct (last zs 0 =? 1)%Z; congruence.
  - intros (zs & Hi & Hl & Hp & ->).
    assert (E : mapr py_int (split_on "," s) = Ok zs) by (apply split_integers; split; [intros ->; destruct Hl; discriminate|exact Hi]).
    rewrite E. cbn [bind]. assert (El : existsb (Nat.eqb (length zs)) [2; 3] = true) by (destruct Hl as [-> | ->]; reflexivity).
    rewrite El. assert (Ep : forallb (fun x => (0 <? x)%Z) zs = true) by (apply forallb_forall; intros z Hz; apply Z.ltb_lt, Hp, Hz).
    rewrite Ep. cbn [negb]. destruct (last zs 0 =? 1)%Z; reflexivity.
Qed.

Lemma parse_err s e : parse_tuple s = Err e -> e = ValueError.
Proof.
  unfold parse_tuple. destruct (mapr py_int (split_on "," s)) as [zs|e'] eqn:E; cbn [bind].
  - destruct (negb _); [congruence|]. destruct (negb _); [congruence|]. destruct (last zs 0 =? 1)%Z; discriminate.
  - intro H. injection H as ->. exact (mapr_py_err _ _ E).
Qed.

Lemma parse_rejects s : parse_tuple s = Err ValueError <->
  ~ exists zs, integers s zs /\ (length zs = 2 \/ length zs = 3) /\ forall z, In z zs -> (0 < z)%Z.
Proof.
  split.
  - intros H (zs & H1 & H2 & H3).
    assert (E : parse_tuple s = Ok (if (last zs 0 =? 1)%Z then removelast zs else zs)) by (apply parse_iff; exists zs; auto). congruence.
  - intro H. destruct (parse_tuple s) as [t|e] eqn:E; [|f_equal; exact (parse_err s e E)].
    exfalso. apply H. apply parse_iff in E as (zs & H1 & H2 & H3 & _). exists zs. auto.
Qed.

Lemma last_removelast (l : list Z) z : In z (removelast l) -> In z l.
Proof.
  induction l as [|a l IH]; [intros []|]. destruct l as [|b l]; [intros []|]. change (removelast (a :: b :: l)) with (a :: removelast (b :: l)).
  intros [<-|H]; [left; reflexivity|]. right. exact (IH H).
Qed.

Lemma parse_result s t : parse_tuple s = Ok t ->
  (forall z, In z t -> (0 < z)%Z) /\ (length t = 1 \/ length t = 2 \/ length t = 3).
Proof.
  intro H. apply parse_iff in H as (zs & _ & Hl & Hp & ->). destruct (last zs 0 =? 1)%Z.
  - split; [intros z Hz; apply Hp, last_removelast, Hz|]. destruct Hl as [Hl|Hl].
    + destruct zs as [|a [|b [|c zs]]]; try discriminate. auto.
    + destruct zs as [|a [|b [|c [|d zs]]]]; try discriminate. auto.
  - auto.
Qed.

Lemma parse_shape s t zs : parse_tuple s = Ok t -> integers s zs -> ~ (length zs = 2 /\ last zs 0%Z = 1%Z) ->
  (length t = 2 \/ length t = 3) /\ forall z, In z t -> (0 < z)%Z.
Proof.
  intros H Hi Hn. pose proof H as H0. apply parse_iff in H as (zs' & Hi' & Hl & Hp & ->).
  assert (Ez : zs = zs').
  { assert (Hne : zs' <> []) by (intros ->; destruct Hl; discriminate).
    assert (E' : mapr py_int (split_on "," s) = Ok zs') by (apply split_integers; auto).
    destruct (list_eq_dec Z.eq_dec zs []) as [->|Hz]; [|assert (E : mapr py_int (split_on "," s) = Ok zs) by (apply split_integers; auto); congruence].
    destruct Hi as (parts & -> & Hf). inversion Hf; subst. destruct Hl as [Hl|Hl]; cbn in E'; discriminate. }
  subst zs'. destruct (Z.eqb_spec (last zs 0%Z) 1) as [E1|E1].
  - destruct Hl as [Hl|Hl]; [destruct Hn; auto|]. split; [|intros z Hz; apply Hp, last_removelast, Hz].
    destruct zs as [|a [|b [|c [|d zs]]]]; try discriminate. auto.
  - auto.
Qed.

Lemma parse_refuted : exists s t, parse_tuple s = Ok t /\ length t = 1.
Proof. exists "10,1", [10%Z]. split; reflexivity. Qed.

Lemma int_case : integer " 1_28 " 128.
Proof. apply py_int_iff. reflexivity. Qed.
Lemma integers_case : integers "128, 128 ,256" [128; 128; 256]%Z.
Proof. exact (proj2 (proj1 (split_integers "128, 128 ,256" [128; 128; 256]%Z) eq_refl)). Qed.
