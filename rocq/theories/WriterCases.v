(** Concrete seeds for the properties of writers. *)
From Coq Require Import Reals Lia.
From Verif Require Import Base Num NdArray Writers SpecWriters.

Definition ramp (N : nat) : list (xval R) := map (fun i => XVal (INR i)) (seq 0 N).
Definition ramp_rows (N d : nat) : mat R := Mat d (map (fun i => repeat (INR i) d) (seq 0 N)).
Lemma ramp_seeds N d : seeds N d (ramp N) (ramp_rows N d).
Proof.
  unfold seeds, ramp, ramp_rows, wf_mat, nrows. cbn [mcols mrows]. rewrite !map_length, seq_length.
  split; [|auto]. apply Forall_forall. intros r Hr. apply in_map_iff in Hr. destruct Hr as (i & <- & _). apply repeat_length.
Qed.
Lemma fresh_ready {T} (files : string -> option (content T)) d : ready (WState None files) d.
Proof. left. reflexivity. Qed.
