(** The theorem C145: a configuration file and arguments. *)
From Coq Require Import Permutation Lia.
From Verif Require Import Base Num NdArray Particles Jacobian Integrate Text Hyper FileUtils Interpolate Readers DataSource Manager Jobs Program ConfigFile Args
  SpecText SpecConfig SpecCommand SpecConfigFile SpecArgs HyperFacts CommandFacts ConfigFileFacts ArgsFacts ArgsMain ConfigFileCases.
Open Scope string_scope.

Lemma last_app name a b : last_given name (a ++ b) = match last_given name b with Some v => Some v | None => last_given name a end.
Proof.
  induction a as [|[n v] a IH]; cbn; [destruct (last_given name b); reflexivity|]. rewrite IH.
  destruct (last_given name b); [reflexivity|]. destruct (last_given name a); reflexivity.
Qed.
Lemma last_lines name said : last_given name (items_said said) = last_said name said.
Proof.
  induction said as [|[[n v]|] said IH]; cbn; [reflexivity| |].
  - rewrite IH. destruct (last_said name said); reflexivity.
  - rewrite IH. destruct (last_said name said); reflexivity.
Qed.
Lemma options_merged said items : options_of (items_said said ++ items) = merged (options_of items) said.
Proof. unfold options_of, merged. cbn. rewrite !last_app, !last_lines. reflexivity. Qed.
Lemma said_names lines said : Forall2 says lines said -> forall n v, In (Some (n, v)) said -> In n option_names.
Proof.
  induction 1 as [|l s lines said H F IH]; intros n v; [intros []|]. intros [->|I]; [|apply (IH n v I)]. inversion H; subst; assumption.
Qed.
Lemma in_said n v said : In (n, v) (items_said said) <-> In (Some (n, v)) said.
Proof.
  induction said as [|[[m w]|] said IH]; cbn; [tauto| |]; rewrite IH.
  - split; (intros [E|H]; [left; congruence|right; exact H]).
  - split; [intros H; right; exact H|intros [E|H]; [discriminate|exact H]].
Qed.

Section Fixed.
  Context {T : Type} (O : ops T) (scp : scipy T) (parse_float : string -> res T).
  Context (imems mems : nat -> nat -> memory (T := T)) (eigvals : m33 T -> res (T * T * T)) (texts : string -> option string) (inputs : filesystem T).
  Local Notation argv_ends := (Args.argv_ends O scp parse_float imems mems eigvals texts inputs).

  Theorem file_as_arguments path lines said text cts items tokens fs :
    Forall2 says lines said -> written lines text -> path <> "" -> texts path = Some text -> spells "config" path cts ->
    Forall2 (fun i ts => spells (fst i) (snd i) ts) items tokens -> (forall i, In i items -> In (fst i) option_names) ->
    (forall i, In i (items_said said ++ items) -> suits parse_float (fst i) (snd i)) ->
    forall out fs', argv_ends (cts ++ concat tokens) fs out fs' <-> argv_ends (as_arguments said ++ concat tokens) fs out fs'.
  Proof.
    intros F W P E C H N S out fs'.
    assert (NC : last_given "config" items = None).
    { clear - N. induction items as [|[n v] l IH]; [reflexivity|]. cbn. rewrite IH by (intros i I; apply N; right; exact I).
      destruct (String.eqb_spec n "config") as [->|]; [|reflexivity]. specialize (N ("config", v) (or_introl eq_refl)). cbn in N.
      repeat (destruct N as [N|N]; [discriminate|]). destruct N. }
    transitivity (main_ends O scp parse_float imems mems eigvals texts inputs (merged (options_of items) said) fs out fs').
    - change (cts ++ concat tokens)%list with (concat (cts :: tokens)).
      rewrite (options_read O scp parse_float imems mems eigvals texts inputs (("config", path) :: items) (cts :: tokens)).
      + cbn [last_given]. rewrite NC. change (String.eqb "config" "config") with true. cbv iota.
        replace (options_of (("config", path) :: items)) with (options_of items).
        * apply (config_program O scp parse_float imems mems eigvals texts inputs path lines said text); assumption.
        * unfold options_of. cbn [last_given]. cbn. f_equal; match goal with |- context [last_given ?n items] => destruct (last_given n items); reflexivity end.
      + constructor; assumption.
      + intros i [<-|I]; [left; reflexivity|right; apply N, I].
      + right. intros i [<-|I]; [|apply S, in_or_app; right; exact I]. cbn. unfold suits.
        repeat split; intros X; try (destruct X as [X|X]); discriminate X.
    - assert (Q : as_arguments said = concat (map (fun i => ["--" ++ fst i ++ "=" ++ snd i]) (items_said said))).
      { unfold as_arguments. clear. induction (items_said said) as [|i l IH]; [reflexivity|]. cbn [map concat]. rewrite IH. reflexivity. }
      rewrite Q, <- concat_app.
      rewrite (options_read O scp parse_float imems mems eigvals texts inputs (items_said said ++ items) (map (fun i => ["--" ++ fst i ++ "=" ++ snd i]) (items_said said) ++ tokens)).
      + rewrite options_merged, last_app, NC, last_lines. unfold configured_ends.
        replace (last_said "config" said) with (@None string); [reflexivity|].
        symmetry. rewrite <- last_lines. pose proof (said_names _ _ F) as SN.
        assert (Z : forall l, (forall n v, In (n, v) l -> In n option_names) -> last_given "config" l = None).
        { clear. induction l as [|[n v] l IH]; intros N; [reflexivity|]. cbn. rewrite IH by (intros m w I; apply (N m w); right; exact I).
          destruct (String.eqb_spec n "config") as [->|]; [|reflexivity]. specialize (N "config" v (or_introl eq_refl)). cbn in N.
          repeat (destruct N as [N|N]; [discriminate|]). destruct N. }
        apply Z. intros n v I. apply in_said in I. apply (SN _ _ I).
      + apply Forall2_app; [|exact H]. clear. induction (items_said said) as [|[n v] l IH]; cbn; constructor; [apply in_one|exact IH].
      + intros [n v] I. cbn. right. apply in_app_or in I as [I|I]; [apply in_said in I; apply (said_names _ _ F _ _ I)|apply (N _ I)].
      + right. exact S.
  Qed.
End Fixed.

(** The config.yaml of the repository and --interpolator grid on the command line. *)
Lemma shipped_suits {T} (parse_float : string -> res T) x y : parse_float "0.1" = Ok x -> parse_float "5" = Ok y ->
  forall i, In i (items_said shipped_says ++ [("interpolator", "grid")])%list -> suits parse_float (fst i) (snd i).
Proof.
  intros X Y i H. apply converts_suits. cbn in H.
  repeat (destruct H as [<-|H]; [cbn [fst snd]; unfold Args.converts; cbn [String.eqb Ascii.eqb Bool.eqb orb]; rewrite ?X, ?Y; reflexivity|]).
  destruct H.
Qed.
