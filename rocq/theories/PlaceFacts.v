(** Where output files are put (C92). *)
From Coq Require Import String Ascii.
From Verif Require Import Base Text Writers SpecPlace FileUtilsFacts.

Lemma slash_spec s : ends_with_slash s = true <-> exists d, s = append d "/".
Proof.
  induction s as [|c s IH]; cbn [ends_with_slash].
  - split; [discriminate|]. intros [[|] H]; discriminate.
  - destruct s as [|c' s].
    + rewrite Ascii.eqb_eq. split.
      * intros ->. exists EmptyString. reflexivity.
      * intros [[|x d] H]; cbn in H; injection H; [congruence|]. intros H' _. destruct d; discriminate.
    + rewrite IH. split.
      * intros [d ->]. exists (String c d). reflexivity.
      * intros [[|x d] H]; cbn in H; injection H; [discriminate|]. intros H' _. exists d. exact H'.
Qed.
Lemma join_placed dir name : name <> EmptyString -> placed dir name (path_join dir name).
Proof.
  intros Hn. destruct name as [|c name]; [congruence|]. unfold path_join, placed, absolute, open_ended.
  destruct (Ascii.eqb_spec c "/") as [->|Nc].
  - split; [reflexivity|]. split; intros H; destruct H; eauto.
  - split; [intros [r H]; injection H; congruence|].
    destruct (String.eqb_spec dir "") as [->|Nd]; cbn [orb].
    + split; [reflexivity|]. intros _ H. destruct H. auto.
    + destruct (ends_with_slash dir) eqn:E.
      * apply slash_spec in E. split; [reflexivity|]. intros _ H. destruct H. auto.
      * split; [|reflexivity]. intros _ [H|H]; [congruence|]. apply slash_spec in H. congruence.
Qed.
Lemma join_append dir c name e : append (path_join dir (String c name)) e = path_join dir (append (String c name) e).
Proof.
  unfold path_join. cbn [append]. destruct (Ascii.eqb c "/"); [reflexivity|].
  destruct (String.eqb dir "" || ends_with_slash dir)%bool; cbn [append]; rewrite ?FileUtilsFacts.append_assoc; reflexivity.
Qed.

Lemma output_placed (w : writer) name : name <> EmptyString ->
  placed (wr_path w) (append name (match wr_format w, wr_shape w with Mat_format, _ => ".mat" | Vtk_format, Some _ => ".vts" | Vtk_format, None => ".vtp" end))
    (output_path w name).
Proof.
  intros Hn. unfold output_path, extension. destruct name as [|c name]; [congruence|].
  destruct (wr_format w); [apply join_placed; discriminate|]. rewrite join_append. apply join_placed. discriminate.
Qed.
