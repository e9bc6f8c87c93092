(** Every execution can be brought to an end without disturbance. *)
From Coq Require Import Lia Classical.
From Verif Require Import Base Num Monitor Executor SpecExecutor ExecutorFacts ExecutorMain ExecutorProps.

Section Runs.
  Context {R W : Type} (tasks : list (task R W)) (n : Z).

  Lemma move_killed (s s' : state R W) : move tasks n s s' -> (killed s' -> killed s).
  Proof.
    unfold killed. intros [s1 s2 H|c rs p p' b w H|c rs p p' b b' w w' H|c rs p b b' w H]; cbn [st_pool].
    - destruct H; cbn; (tauto || discriminate).
    - destruct H; exact (fun x => x).
    - destruct H; exact (fun x => x).
    - exact (fun x => x).
  Qed.

  Lemma steps_trans (s1 s2 s3 : state R W) : steps tasks n s1 s2 -> steps tasks n s2 s3 -> steps tasks n s1 s3.
  Proof. intros H1 H2. induction H2 as [|a b c _ IH Hs]; [exact H1|]. exact (steps_next _ _ _ _ _ (IH H1) Hs). Qed.

  Lemma undisturbed q stop w0 s : steps tasks n (start q stop w0) s ->
    exists s', steps tasks n s s' /\ final tasks n s' /\ (killed s' -> killed s).
  Proof.
    intro Hr. remember (weight tasks n s) as k eqn:Ek. revert s Hr Ek. induction k as [k IH] using lt_wf_ind. intros s Hr ->.
    destruct (classic (exists s', move tasks n s s')) as [(s' & Hm)|Hno].
    - pose proof (steps_next _ _ _ _ _ Hr (s_move _ _ _ _ Hm)) as Hr'.
      assert (Hw : weight tasks n s' < weight tasks n s) by (apply (weight_step tasks n); [apply s_move; exact Hm|exact (early_reachable tasks n q stop w0 _ Hr)]).
      destruct (IH _ Hw s' Hr' eq_refl) as (s'' & H1 & H2 & H3). exists s''. split; [|split; [exact H2|]].
      + apply steps_trans with s'; [|exact H1]. exact (steps_next _ _ _ _ _ (steps_refl _ _ _) (s_move _ _ _ _ Hm)).
      + intro Hk. exact (move_killed _ _ Hm (H3 Hk)).
    - exists s. split; [constructor|]. split; [|exact (fun x => x)]. intros s' Hm. apply Hno. eauto.
  Qed.
End Runs.
