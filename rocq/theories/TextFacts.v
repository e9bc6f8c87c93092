(** Facts about paths, stems and decimal notation. *)
From Coq Require Import Lia.
From Verif Require Import Base Text SpecPaths.


Lemma split_not_nil c s : split_on c s <> [].
Proof. destruct s as [|a s]; cbn; [discriminate|]. destruct (Ascii.eqb a c); [discriminate|]. destruct (split_on c s); discriminate. Qed.
Lemma split_none c s : has_char c s = false -> split_on c s = [s].
Proof.
  induction s as [|a s IH]; [reflexivity|]. cbn. intro H. apply Bool.orb_false_iff in H. destruct H as [-> H].
  rewrite (IH H). reflexivity.
Qed.
Lemma split_app c a b : split_on c (a ++ String c b) = split_on c a ++ split_on c b.
Proof.
  induction a as [|x a IH]; cbn; [rewrite Ascii.eqb_refl; reflexivity|].
  destruct (Ascii.eqb x c); rewrite IH; [reflexivity|].
  pose proof (split_not_nil c a). destruct (split_on c a); [congruence|reflexivity].
Qed.
Lemma concat_split c s : String.concat (String c "") (split_on c s) = s.
Proof.
  induction s as [|a s IH]; [reflexivity|]. cbn [split_on]. pose proof (split_not_nil c s) as N.
  destruct (Ascii.eqb_spec a c) as [->|E].
  - destruct (split_on c s) as [|w ws]; [congruence|]. cbn [String.concat] in IH |- *. cbn. f_equal. exact IH.
  - destruct (split_on c s) as [|w ws]; [congruence|]. cbn [String.concat] in IH |- *.
    destruct ws as [|w2 ws]; cbn in IH |- *; f_equal; exact IH.
Qed.

(** Stem of a file with an extension in some directory. *)
Lemma stem_file d a e : has_char "/" a = false -> a <> ""%string -> has_char "/" e = false -> has_char "." e = false -> e <> ""%string ->
  stem (d ++ "/" ++ a ++ "." ++ e) = a.
Proof.
  intros Ha Hn He He' Hne. unfold stem.
  assert (Hap : forall x y, has_char "/" x = false -> has_char "/" y = false -> has_char "/" (x ++ y) = false).
  { induction x as [|c x IH]; cbn; intros y H1 H2; [exact H2|]. apply Bool.orb_false_iff in H1. destruct H1 as [-> H1]. apply IH; assumption. }
  assert (Hx : has_char "/" (a ++ "." ++ e) = false) by (apply Hap; [exact Ha|exact He]).
  assert (E : path_name (d ++ "/" ++ a ++ "." ++ e) = (a ++ "." ++ e)%string).
  { unfold path_name. change (d ++ "/" ++ a ++ "." ++ e)%string with (d ++ String "/" (a ++ "." ++ e))%string.
    rewrite split_app, (split_none _ _ Hx), filter_app. cbn [filter].
    destruct (String.eqb_spec (a ++ "." ++ e) "") as [X|_]; [destruct a; discriminate|].
    destruct (String.eqb_spec (a ++ "." ++ e) ".") as [X|_].
    { destruct a as [|c a]; [congruence|]. injection X as _ X. destruct a; discriminate. }
    cbn [negb orb]. apply last_last. }
  rewrite E. unfold stem_of_name. change (a ++ "." ++ e)%string with (a ++ String "." e)%string.
  rewrite split_app, (split_none _ _ He'), removelast_last, last_last, concat_split, app_length. cbn [length].
  pose proof (split_not_nil "." a) as N. destruct (split_on "." a) as [|w ws]; [congruence|].
  destruct (Nat.ltb_spec 1 (length (w :: ws) + 1)) as [_|L]; [|cbn in L; lia].
  destruct (String.eqb_spec a "") as [X|_]; [contradiction|].
  destruct (String.eqb_spec e "") as [X|_]; [contradiction|]. reflexivity.
Qed.

(* ---- decimal notation ---- *)
(** The number read off the digits of a string, other characters being skipped. *)
Definition digit_value (c : ascii) : option nat :=
  let n := nat_of_ascii c in if (48 <=? n) && (n <? 58) then Some (n - 48) else None.
Fixpoint reading (s : string) (acc : nat) : nat :=
  match s with
  | EmptyString => acc
  | String c s' => reading s' (match digit_value c with Some d => 10 * acc + d | None => acc end)
  end.
Lemma reading_app a b acc : reading (a ++ b) acc = reading b (reading a acc).
Proof. revert acc. induction a as [|c a IH]; intro acc; [reflexivity|]. cbn. apply IH. Qed.
Lemma digit_ok n : digit_value (digit n) = Some (n mod 10).
Proof.
  unfold digit_value, digit. pose proof (Nat.mod_upper_bound n 10 ltac:(lia)) as H.
  rewrite nat_ascii_embedding by lia. destruct (Nat.leb_spec 48 (48 + n mod 10)); [|lia].
  destruct (Nat.ltb_spec (48 + n mod 10) 58); [|lia]. cbn [andb]. f_equal. lia.
Qed.
Lemma reading_last k n acc : reading (last_digits k n) acc = acc * 10 ^ k + n mod 10 ^ k.
Proof.
  revert n acc. induction k as [|k IH]; intros n acc; [cbn; lia|].
  cbn [last_digits]. rewrite reading_app, IH. cbn [reading]. rewrite digit_ok.
  rewrite Nat.pow_succ_r'. rewrite (Nat.mod_mul_r n 10 (10 ^ k)); [|lia|apply Nat.pow_nonzero; lia]. lia.
Qed.
Lemma reading_fuel fuel n : n < fuel -> reading (decimal_fuel fuel n) 0 = n.
Proof.
  revert n. induction fuel as [|f IH]; intros n H; [lia|]. cbn [decimal_fuel].
  destruct (Nat.ltb_spec n 10) as [L|L].
  - cbn [reading]. rewrite digit_ok, Nat.mod_small by exact L. lia.
  - rewrite reading_app, IH.
    + cbn [reading]. rewrite digit_ok. pose proof (Nat.div_mod n 10 ltac:(lia)). lia.
    + pose proof (Nat.div_lt n 10 ltac:(lia) ltac:(lia)). lia.
Qed.
Lemma reading_decimal n : reading (decimal n) 0 = n.
Proof. apply reading_fuel. lia. Qed.
Lemma reading_fixed6 neg m : reading (fixed6 neg m) 0 = m.
Proof.
  unfold fixed6. rewrite !reading_app.
  replace (reading (if neg then "-" else "") 0) with 0 by (destruct neg; reflexivity).
  rewrite reading_decimal. change (reading "." (m / Nat.pow 10 6)) with (m / Nat.pow 10 6).
  rewrite reading_last, Nat.mod_mod by (apply Nat.pow_nonzero; lia).
  pose proof (Nat.div_mod m (Nat.pow 10 6)) as H. rewrite Nat.mul_comm. symmetry. apply H, Nat.pow_nonzero. lia.
Qed.
Lemma fixed6_inj neg m neg' m' : fixed6 neg m = fixed6 neg' m' -> m = m'.
Proof. intro H. rewrite <- (reading_fixed6 neg m), H. apply reading_fixed6. Qed.
