(** Plain forms of the facts about file tasks, and a concrete task. *)
From Coq Require Import Reals Lia.
From Verif Require Import Base Num NdArray Particles Integrate GridInterp Interpolate Readers DataSource Solver FileRun
  SpecIntegrate SpecInterp SpecSeeds SpecSolver ParticleFacts FileRunFacts SolverCases StructMain.

Lemma get_nth {A} (l : list A) j x : get l j = Ok x -> nth_error l j = Some x.
Proof. unfold get. destruct (nth_error l j); congruence. Qed.

Lemma own_snapshot_run {T} (O : ops T) (scp : scipy T) (fs : filesystem T)
  snapshots coordinates particle h period f :
  mk_file_source snapshots coordinates particle h period = Ok f ->
  forall imems mems k ig0 i0 c0 p0 j ig i c p i' c',
  is_unstructured i0 ->
  advance O (i_interpolate O scp imems) mems k (file_task O scp fs f) j (ig0, (i0, c0), p0) (ig, (i, c), p) ->
  src_update (file_task O scp fs f) (i, c) j = ((i', c'), Ok tt) ->
  exists vf cf V C, nth_error snapshots j = Some vf /\ nth_error coordinates j = Some cf /\
    (let* d := fs vf in read_velocity d) = Ok V /\ (let* d := fs cf in read_coordinate d) = Ok C /\
    update O scp i V (Some C) = (i', Ok tt).
Proof.
  intros Hf imems mems k ig0 i0 c0 p0 j ig i c p i' c' K Ha Hu.
  assert (Hr : reuse_coordinates f = true -> length (nodup string_dec (coordinate_files f)) = 1).
  { unfold mk_file_source in Hf. destruct snapshots; [discriminate|]. injection Hf as <-. cbn. apply Nat.eqb_eq. }
  assert (Hs : snapshot_files f = snapshots /\ coordinate_files f = coordinates).
  { unfold mk_file_source in Hf. destruct snapshots; [discriminate|]. injection Hf as <-. split; reflexivity. }
  destruct Hs as [<- <-].
  destruct (own_snapshot O scp fs f Hr imems mems k ig0 i0 c0 p0 j ig i c p (i', c') K Ha Hu)
    as (vf & cf & V & C & E1 & E2 & E).
  exists vf, cf, V, C. split; [apply get_nth, E1|]. split; [apply get_nth, E2|exact E].
Qed.

Lemma nodup_same (c : string) l : l <> [] -> (forall x, In x l -> x = c) -> nodup string_dec l = [c].
Proof.
  induction l as [|a l IH]; intros Hn H; [congruence|]. pose proof (H a (or_introl eq_refl)) as ->. cbn.
  destruct l as [|b l]; [reflexivity|]. pose proof (H b (or_intror (or_introl eq_refl))) as ->.
  destruct (in_dec string_dec c (c :: l)) as [_|N]; [|destruct N; left; reflexivity].
  apply IH; [discriminate|]. intros x Hx. apply H. right. exact Hx.
Qed.
Lemma grid_static_run {T} (O : ops T) (scp : scipy T) imems (fs : filesystem T)
  snapshots coordinates particle h period f {W} eigvals mems
  (write : W -> string -> list (xval T) -> mat T -> W * res unit) q wr (w : world T (istate scp) unit W) :
  mk_file_source snapshots coordinates particle h period = Ok f ->
  2 <= length snapshots -> (exists c, coordinates <> [] /\ forall x, In x coordinates -> x = c) ->
  (exists o, fst (w_interp w) = IHigh o) ->
  exists e, snd (file_worker O scp imems eigvals mems write fs f q wr w) = Err e /\
            w_writer (fst (file_worker O scp imems eigvals mems write fs f q wr w)) = w_writer w.
Proof.
  intros Hf Hn (c & Hc & Hx) Hi. apply grid_static_fails; [exact Hi| |];
    unfold mk_file_source in Hf; destruct snapshots; try discriminate; injection Hf as <-; cbn [reuse_coordinates snapshot_files].
  - rewrite (nodup_same c _ Hc Hx). reflexivity.
  - exact Hn.
Qed.

(** A file that serves as snapshot, coordinates and particles at once. *)
Definition toy_file : matfile R := fun name =>
  if existsb (String.eqb name) ["velocity_x"; "velocity_y"; "coordinate_x"; "coordinate_y"]%string
  then Some (Nd [1; 1] [1%R]) else None.
Definition toy_fs : filesystem R := fun _ => Ok toy_file.
Definition two_files : file_source R :=
  FileSource ["v0.mat"; "v1.mat"]%string ["c.mat"; "c.mat"]%string "p.mat" 1%R 2 true "v0".

Lemma own_case (imems mems : nat -> memory (T := R)) : exists ig i c p s1,
  mk_file_source ["v0.mat"; "v1.mat"]%string ["c.mat"; "c.mat"]%string "p.mat" 1%R 2 = Ok two_files /\
  reuse_coordinates two_files = true /\
  advance Rops (i_interpolate Rops node_scipy imems) mems 0 (file_task Rops node_scipy toy_fs two_files) 1
    (Euler None, (INearest unstructured_new, 0), mk2 Rops [seed1]) (ig, (i, c), p) /\
  src_update (file_task Rops node_scipy toy_fs two_files) (i, c) 1 = (s1, Ok tt).
Proof.
  do 5 eexists. split; [reflexivity|]. split; [reflexivity|]. split.
  - refine (advance_S _ _ _ _ _ 0%nat _ _ _ _ _ _ _ _ (advance_0 _ _ _ _ _ _) _ _); reflexivity.
  - reflexivity.
Qed.

Lemma grid_case {T} (O : ops T) (scp : scipy T) fn : exists o,
  create_interpolator O scp "grid" (Some [3; 3]) fn = Ok (IHigh o).
Proof. eexists. reflexivity. Qed.
