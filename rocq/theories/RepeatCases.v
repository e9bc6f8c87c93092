(** Concrete repeated runs in binary64 arithmetic. *)
From Coq Require Import Lia PrimFloat.
From Verif Require Import Base Num NdArray Particles Jacobian Integrate Interpolate Readers DataSource
  Solver SpecSolver Writers Batches FileRun FileUtils Hyper Manager Monitor Executor SpecExecutor ManagerRun ExecutorFacts Schedule ExecutorCases
  Jobs JobFacts Decorators ManagerFacts Program SpecProgram ProgramFacts ProgramCases ApiCases SpecMem AnalyticalRun SpecRepeat RepeatFacts.

Section Cases.
  Variables (lnF : float -> float) (imems mems : nat -> nat -> memory (T := float)) (eigvals : m33 float -> res (float * float * float)).
  Notation O := (Fops lnF).
  Notation ends v := (main_ends O fscipy one_float imems mems eigvals (lists v) toys).
  Notation tasks v := (map (manager_task O fscipy imems mems eigvals toys (the_manager v 2)) (indexed (tasks_for lnF v))).
  Notation behind := (left_behind O fscipy (asked_for O fscipy one_float (lists other) (command "2"))).

  Lemma init_parts : exists a, parse_args one_float (command "2") = Ok a /\ manager_init O fscipy (lists other) a = Ok (the_manager other 2).
  Proof.
    pose proof (init_other lnF) as H. destruct (parse_args one_float (command "2")) as [a|] eqn:E; [|discriminate]. exists a. auto.
  Qed.

  (** One more run of the program, stopped at [s]. *)
  Lemma one_stop fs fs1 s : behind fs fs1 -> steps (tasks other) 2 (start [] false fs1) s -> behind fs (torn (st_world s)).
  Proof.
    intros H Hs. destruct init_parts as (a & Ha & Hm).
    apply (stopped O fscipy _ fs fs1 one_float imems mems eigvals (lists other) toys (command "2") a (the_manager other 2) (tasks_for lnF other) s H Ha Hm
      (proj1 (batches_other lnF))); [|exact Hs].
    intros f Hf. exists a, (the_manager other 2), (tasks_for lnF other), f. do 4 (split; [first [exact Ha|exact Hm|exact (proj1 (batches_other lnF))|exact Hf]|]). reflexivity.
  Qed.

  Lemma all_differ a m ts : parse_args one_float (command "2") = Ok a -> manager_init O fscipy (lists other) a = Ok m ->
    manager_batches O fscipy m = Ok ts -> names_differ fscipy m ts.
  Proof.
    intros Ha Hm Hb. destruct init_parts as (a' & Ha' & Hm'). rewrite Ha in Ha'. injection Ha' as <-. rewrite Hm in Hm'. injection Hm' as ->.
    rewrite (proj1 (batches_other lnF)) in Hb. injection Hb as <-. apply other_differ.
  Qed.

  (** All processes are killed while the first task writes its file. *)
  Lemma cut fs : settled_files fs -> exists s, steps (tasks other) 2 (start [] false fs) s /\
    st_world s "outputs/run/ftle_v1.mat"%string = Some (Unfinished [0]).
  Proof.
    intro Hset.
    assert (H : exists s, steps (tasks other) 2 (start [] false fs) s /\
      st_world s "outputs/run/ftle_v1.mat"%string = Some (open_entry 0 (fs "outputs/run/ftle_v1.mat"%string))).
    { by_actions [Main; Main; Main; Main; Main; Hand; Hand; Take 1; Take 0; Talk 1; Talk 1; Talk 1; Open 1]. vm_compute. reflexivity. }
    destruct H as (s & Hs & E). exists s. split; [exact Hs|]. rewrite E. unfold open_entry. specialize (Hset "outputs/run/ftle_v1.mat"%string).
    destruct (fs "outputs/run/ftle_v1.mat"%string) as [[| l |]|]; try reflexivity. destruct (Hset l eq_refl).
  Qed.

  (** A run is cut short; it is repeated, and leaves what it would have left. *)
  Lemma repeat_case : exists fs1 fs2 fs2',
    settled_files (T := float) no_files /\ behind no_files fs1 /\ fs1 "outputs/run/ftle_v1.mat"%string = Some Other /\
    (forall a m ts, parse_args one_float (command "2") = Ok a -> manager_init O fscipy (lists other) a = Ok m ->
       manager_batches O fscipy m = Ok ts -> names_differ fscipy m ts) /\
    ends other (command "2") no_files (false, Ok tt) fs2 /\ ends other (command "2") fs1 (false, Ok tt) fs2' /\
    seed_x (fs2' "outputs/run/ftle_v1.mat"%string) = [0x1p-2%float].
  Proof.
    destruct (cut no_files nothing_settled) as (s & Hs & E). destruct (clean_case lnF imems mems eigvals) as (fs2 & H2 & X & _).
    pose proof (one_stop no_files no_files s (never_run _ _ _ _) Hs) as HB.
    destruct (can_repeat O fscipy one_float imems mems eigvals (lists other) toys (command "2") no_files (torn (st_world s)) fs2 H2) as [(fs2' & H2') _].
    exists (torn (st_world s)), fs2, fs2'. split; [apply nothing_settled|]. split; [exact HB|]. split; [unfold torn; rewrite E; reflexivity|].
    split; [apply all_differ|]. split; [exact H2|]. split; [exact H2'|].
    rewrite (repeated O fscipy one_float imems mems eigvals (lists other) toys (command "2") no_files (torn (st_world s)) fs2 fs2' nothing_settled HB all_differ H2 H2').
    exact X.
  Qed.

  (** A complete run, then the same run again, cut short: a finished file is lost. *)
  Lemma lost_case : exists f fs1 fs2 x,
    manager_batches O fscipy (the_manager other 2) = Ok (tasks_for lnF other) /\
    nth_error (tasks_for lnF other) 0 = Some f /\ output_file fscipy (the_manager other 2) f = "outputs/run/ftle_v1.mat"%string /\
    behind no_files fs1 /\ fs1 "outputs/run/ftle_v1.mat"%string = Some (Whole x) /\
    right_contents O fscipy imems mems eigvals toys (the_manager other 2) 0 f x /\
    behind fs1 fs2 /\ fs2 "outputs/run/ftle_v1.mat"%string = Some Other.
  Proof.
    assert (H : exists s, steps (tasks other) 2 (start [] false no_files) s /\ completed s 0 /\ exists rs, st_main s = Exited (Ok rs)).
    { by_actions first_last. split; [vm_compute; auto|]. eexists. reflexivity. }
    destruct H as (s & Hs & Hc & rs & Hm).
    destruct (nth_error (tasks_for lnF other) 0) as [f|] eqn:Hf; [|vm_compute in Hf; discriminate].
    assert (Ho : output_file fscipy (the_manager other 2) f = "outputs/run/ftle_v1.mat"%string) by (vm_compute in Hf; injection Hf as <-; reflexivity).
    assert (Hn : nth_error (indexed (tasks_for lnF other)) 0 = Some (0, f)) by (rewrite indexed_nth, Hf; reflexivity).
    destruct (all_completed _ (indexed (tasks_for lnF other)) 2 [] false no_files s rs Hs Hm 0 (0, f) Hn) as (_ & r & Hr).
    rewrite (none_result O fscipy imems mems eigvals toys (the_manager other 2) (0, f) r Hr) in Hr.
    destruct (any_state O fscipy imems mems eigvals toys (the_manager other 2) (tasks_for lnF other) 2 [] false no_files s (other_differ lnF) nothing_settled Hs 0 f Hf Hc Hr)
      as (x & Hx & Hrt).
    pose proof (one_stop no_files no_files s (never_run _ _ _ _) Hs) as HB.
    destruct (cut (torn (st_world s)) (torn_settled _)) as (s2 & Hs2 & E2).
    exists f, (torn (st_world s)), (torn (st_world s2)), x. split; [exact (proj1 (batches_other lnF))|]. split; [reflexivity|]. split; [exact Ho|]. split; [exact HB|].
    split; [|split; [exact Hrt|split]].
    - rewrite Ho in Hx. unfold torn. rewrite Hx. reflexivity.
    - apply (one_stop _ (torn (st_world s))); [apply never_run|exact Hs2].
    - unfold torn at 1. rewrite E2. reflexivity.
  Qed.

  (** A run that was cut short is repeated, and cut short again when one task is done and the other not begun. *)
  Lemma half_case : exists fs1 s,
    behind no_files fs1 /\ settled_files fs1 /\
    names_differ fscipy (the_manager other 2) (tasks_for lnF other) /\ length (tasks_for lnF other) = 2 /\
    steps (tasks other) 2 (start [] false fs1) s /\ completed s 0 /\ ~ begun s 1.
  Proof.
    destruct (cut no_files nothing_settled) as (s & Hs & E). exists (torn (st_world s)).
    assert (H : exists s', steps (tasks other) 2 (start [] false (torn (st_world s))) s' /\ completed s' 0 /\ ~ begun s' 1).
    { by_actions [Main; Main; Main; Main; Main; Hand; Hand; Take 1; Talk 1; Talk 1; Talk 1; Open 1; Write 1].
      split; [vm_compute; auto|]. vm_compute. intros [X|[]]. discriminate. }
    destruct H as (s' & Hs' & H). exists s'. split; [exact (one_stop no_files no_files s (never_run _ _ _ _) Hs)|]. split; [apply torn_settled|].
    split; [apply other_differ|]. split; [exact (proj2 (batches_other lnF))|]. split; [exact Hs'|exact H].
  Qed.
End Cases.

Lemma toys_flat : forall lnF,
  whole_arrays toys /\
  (forall a m, parse_args one_float (command "2") = Ok a -> manager_init (Fops lnF) fscipy (lists other) a = Ok m -> not_scattered_in_space toys a m).
Proof.
  intro lnF. split.
  - intros name file key a [= <-]. unfold toy.
    repeat (match goal with |- (if ?b then _ else _) = _ -> _ => destruct b end; [intros [= <-]; reflexivity|]). discriminate.
  - intros a m Ha Hm. destruct (init_parts lnF) as (a' & Ha' & Hm'). rewrite Ha in Ha'. injection Ha' as <-. rewrite Hm in Hm'. injection Hm' as ->.
    right. left. intros name Hn file b [= <-] [= <-]. exists 1. reflexivity.
Qed.

Section Analytical.
  Variables (lnF : float -> float) (scp : scipy float) (imems mems : nat -> nat -> memory (T := float))
    (eigvals : m33 float -> res (float * float * float)).
  Notation O := (Fops lnF).
  Notation wr := (Writer Mat_format "out" None).
  Notation sources := (analytical_tasks O scp two_names 2 2 0.5%float).
  Notation tasks := (map (saving_task O scp imems mems eigvals wr (fstart lnF scp)) (indexed sources)).

  Lemma repeat_analytical_case : exists fs1 s s' rs rs',
    left_behind_analytical O scp (fun p => exists t id, In t sources /\ src_id t = Ok id /\ p = output_path wr (append "ftle_" id)) no_files fs1 /\
    fs1 "out/ftle_first.mat"%string = Some Other /\
    (have_ids scp sources /\ ids_differ scp sources) /\
    steps tasks 2 (start [] false no_files) s /\ st_main s = Exited (Ok rs) /\
    steps tasks 2 (start [] false fs1) s' /\ st_main s' = Exited (Ok rs').
  Proof.
    assert (H : exists s, steps tasks 2 (start [] false no_files) s /\ st_world s "out/ftle_first.mat"%string = Some (Unfinished [0])).
    { by_actions [Main; Main; Main; Main; Main; Hand; Hand; Take 1; Take 0; Talk 1; Talk 1; Talk 1; Open 1]. vm_compute. reflexivity. }
    destruct H as (s0 & Hs0 & E). destruct (two_saved lnF scp imems mems eigvals) as (s & rs & _ & _ & Hs & Hm & _).
    destruct (can_repeat_analytical O scp two_names imems mems eigvals wr (fstart lnF scp) 2 2 0.5%float 2 [] [] false false no_files (torn (st_world s0)) s rs Hs Hm)
      as [(s' & rs' & Hs' & Hm') _].
    exists (torn (st_world s0)), s, s', rs, rs'. split.
    - apply (stopped_analytical O scp _ no_files no_files imems mems eigvals wr (fstart lnF scp) sources 2 [] false s0); [apply never_run_analytical| |exact Hs0].
      intros t id Ht Hid. eauto.
    - split; [unfold torn; rewrite E; reflexivity|]. split; [apply two_ids|]. auto.
  Qed.
End Analytical.
