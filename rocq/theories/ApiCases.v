(** Concrete runs of both workflows in binary64 arithmetic. *)
From Coq Require Import Lia Permutation PrimFloat.
From Verif Require Import Base Num NdArray Particles ParticleFacts SpecSeeds Jacobian Integrate Interpolate Readers DataSource
  Solver Writers Batches FileRun AnalyticalRun
  Monitor Executor SpecExecutor ExecutorFacts Schedule ExecutorCases Jobs SpecProgram AnalyticalDisk.


Definition fseed : group2 float := (Group2 (-1, 0) (1, 0) (0, 1) (0, -1))%float.
(** The velocity of a particle is its position. *)
Definition expand (t : float) (q : mat float) : res (mat float) := Ok q.

Section Analytical.
  Variables (lnF : float -> float) (scp : scipy float) (imems mems : nat -> nat -> memory (T := float))
    (eigvals : m33 float -> res (float * float * float)) (format : float -> string)
    (write : @wstate float -> string -> list (xval float) -> mat float -> @wstate float * res unit).
  Notation O := (Fops lnF).
  Definition fstart : world float (istate scp) (particles float) (@wstate float) :=
    World (Euler None) (IAnalytical (Analytical expand 0%float), 0%nat) (mk2 O [fseed]) [] (WState (T := float) None no_files) 0.

  Lemma fstart_is : analytical_start O scp expand (mk2 O [fseed]) "euler" (WState (T := float) None no_files) = Ok fstart.
  Proof. reflexivity. Qed.

  Definition two_workers : list action :=
    [Main; Main; Main; Main; Main; Hand; Hand; Take 1; Take 0; Talk 0; Talk 1; Talk 0; Talk 0; Open 0; Write 0; Return 0; Talk 1; Talk 1;
     Open 1; Write 1; Return 1; Receive; Receive; Collect 1; Collect 0; Main; Leave; Main; Main].

  Lemma two_fields : exists s rs f g,
    steps (map (fun t => job (fst t) (analytical_worker O scp (imems (fst t)) eigvals (mems (fst t)) write (snd t) true false) fstart) (indexed (analytical_tasks O scp format 2 2 0.5%float)))
      2 (start [] false no_files) s /\
    st_main s = Exited (Ok rs) /\ api_run false (Ok rs) = Ok (ReturnsStack [[f]; [g]]).
  Proof.
    assert (H : exists s, steps (map (fun t => job (fst t) (analytical_worker O scp (imems (fst t)) eigvals (mems (fst t)) write (snd t) true false) fstart) (indexed (analytical_tasks O scp format 2 2 0.5%float)))
      2 (start [] false no_files) s /\ exists rs f g, st_main s = Exited (Ok rs) /\ api_run false (Ok rs) = Ok (ReturnsStack [[f]; [g]])).
    { by_actions two_workers. do 3 eexists. split; [reflexivity|]. vm_compute. reflexivity. }
    destruct H as (s & Hs & rs & f & g & H). exists s, rs, f, g. auto.
  Qed.
  Definition one_worker : list action :=
    [Main; Main; Main; Main; Hand; Take 0; Talk 0; Talk 0; Talk 0; Open 0; Write 0; Return 0; Receive; Collect 0; Main; Leave; Main; Main].
  Lemma one_field : exists s rs f,
    steps (map (fun t => job (fst t) (analytical_worker O scp (imems (fst t)) eigvals (mems (fst t)) write (snd t) true false) fstart) (indexed (analytical_tasks O scp format 1 2 0.5%float)))
      1 (start [] false no_files) s /\
    st_main s = Exited (Ok rs) /\ api_run false (Ok rs) = Ok (ReturnsField [f]).
  Proof.
    assert (H : exists s, steps (map (fun t => job (fst t) (analytical_worker O scp (imems (fst t)) eigvals (mems (fst t)) write (snd t) true false) fstart) (indexed (analytical_tasks O scp format 1 2 0.5%float)))
      1 (start [] false no_files) s /\ exists rs f, st_main s = Exited (Ok rs) /\ api_run false (Ok rs) = Ok (ReturnsField [f])).
    { by_actions one_worker. do 2 eexists. split; [reflexivity|]. vm_compute. reflexivity. }
    destruct H as (s & Hs & rs & f & H). exists s, rs, f. auto.
  Qed.
End Analytical.

(** A run of two tasks with a writer. *)
Definition two_names (t : float) : string := if PrimFloat.eqb t 0 then "first" else "second".
Section Saving.
  Variables (lnF : float -> float) (scp : scipy float) (imems mems : nat -> nat -> memory (T := float))
    (eigvals : m33 float -> res (float * float * float)).
  Notation O := (Fops lnF).
  Notation wr := (Writer Mat_format "out" None).
  Notation sources := (analytical_tasks O scp two_names 2 2 0.5%float).

  Lemma two_saved : exists s rs c d,
    steps (map (saving_task O scp imems mems eigvals wr (fstart lnF scp)) (indexed sources)) 2 (start [] false no_files) s /\
    st_main s = Exited (Ok rs) /\ st_world s "out/ftle_first.mat"%string = Some (Whole c) /\ st_world s "out/ftle_second.mat"%string = Some (Whole d).
  Proof.
    assert (H : exists s, steps (map (saving_task O scp imems mems eigvals wr (fstart lnF scp)) (indexed sources)) 2 (start [] false no_files) s /\
      exists rs c d, st_main s = Exited (Ok rs) /\ st_world s "out/ftle_first.mat"%string = Some (Whole c) /\ st_world s "out/ftle_second.mat"%string = Some (Whole d)).
    { by_actions two_workers. do 3 eexists. split; [reflexivity|]. split; vm_compute; reflexivity. }
    destruct H as (s & Hs & rs & c & d & H). exists s, rs, c, d. auto.
  Qed.

  Lemma two_ids : have_ids scp sources /\ ids_differ scp sources.
  Proof.
    split.
    - intros t Ht. cbn in Ht. destruct Ht as [<-|[<-|[]]]; vm_compute; eexists; reflexivity.
    - intros i j a b Ha Hb Hij. destruct i as [|[|i]]; destruct j as [|[|j]]; cbn in Ha, Hb; try (destruct i; discriminate); try (destruct j; discriminate);
        try congruence; injection Ha as <-; injection Hb as <-; vm_compute; discriminate.
  Qed.
End Saving.

