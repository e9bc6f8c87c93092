(** C56, for every history and every interpolator that reads files: what a solver has run before, with or without success, does not
    influence the field of the next task.  Theorems only. *)
From Coq Require Import Floats.
From Verif Require Import Base Num NdArray Particles Jacobian Integrate Interpolate Readers DataSource Solver FileRun SpecIntegrate SpecInterp SpecMem
  RerunAny HistoryCases.

(** The interpolator and the integrator are new, then run the tasks of [history] (each with or without a queue and a writer), then run
    [f].  Two coordinates for scattered velocities; two or three on a grid with as many axes. *)
Theorem C56_any_history_partial : forall (T : Type) (O : ops T) (scp : scipy T) name gs fn iname i0 g0 d imems eigvals mems (W : Type)
  (write : W -> string -> list (xval T) -> mat T -> W * res unit) fs f q (history : list (file_source T * bool * bool))
  (w : world T (istate scp) unit W),
  create_interpolator O scp name gs fn = Ok i0 -> data_driven name ->
  match gs with None => d = 2 | Some l => length l = d /\ (d = 2 \/ d = 3) end ->
  create_integrator iname = Ok g0 -> ~ case_variant iname "ab2" ->
  whole_arrays fs -> seeds_have d fs (particle_file f) ->
  Forall (fun g => seeds_have d fs (particle_file (fst (fst g)))) history ->
  fst (w_interp w) = i0 -> w_integrator w = g0 ->
  let after := fold_left (fun w g => fst (file_worker O scp imems eigvals mems write fs (fst (fst g)) (snd (fst g)) (snd g) w)) history w in
  snd (file_worker O scp imems eigvals mems write fs f q false after) = snd (file_worker O scp imems eigvals mems write fs f q false w).
Proof. exact @any_history. Qed.
Print Assumptions C56_any_history_partial.

(** A task that fails at its second snapshot and then one that gives a field, both on interpolator "Grid". *)
Example C56_any_history_case : forall (lnF : float -> float) (scp : scipy float) fn (imems mems : nat -> memory (T := float)) eigvals
  (write : unit -> string -> list (xval float) -> mat float -> unit * res unit),
  exists (i0 : interp scp) g0 f,
  let w := World g0 (i0, 0) tt [] tt 0 in
  let run g q wr := file_worker (Fops lnF) scp imems eigvals mems write little_files g q wr in
  create_interpolator (Fops lnF) scp "Grid" (Some [3; 3]) fn = Ok i0 /\ create_integrator "RK4" = Ok g0 /\ whole_arrays little_files /\
  seeds_have 2 little_files "p.mat" /\
  snd (run (task ["v0.mat"; "lost.mat"]%string) true false w) = Err FileNotFoundError /\
  fst (w_interp (fst (run (task ["v0.mat"; "lost.mat"]%string) true false w))) <> i0 /\
  snd (run (task ["v0.mat"; "v1.mat"]%string) true false (fst (run (task ["v0.mat"; "lost.mat"]%string) true false w))) = Ok (Some f) /\ length f = 1.
Proof. exact history_case. Qed.
