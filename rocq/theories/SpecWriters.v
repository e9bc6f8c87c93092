(** Specification vocabulary for output files. *)
From Verif Require Import Base Num NdArray Writers.

(** [N] seeds with centroids of [d] coordinates: one FTLE value and one row per seed. *)
Definition seeds {T} (N d : nat) (ftle : list (xval T)) (centroid : mat T) : Prop :=
  wf_mat centroid /\ mcols centroid = d /\ length ftle = N /\ nrows centroid = N.

(** Value and l-th centroid coordinate of seed [r]. *)
Definition value_of {T} (ftle : list (xval T)) (r : nat) (v : xval T) : Prop := nth_error ftle r = Some v.
Definition coord_of {T} (centroid : mat T) (r l : nat) (x : T) : Prop :=
  exists row, nth_error (mrows centroid) r = Some row /\ nth_error row l = Some x.

(** [seed] numbers the indices of an array of shape [s] from 0 to [N]-1, each number once. *)
Definition numbers (s : list nat) (N : nat) (seed : list nat -> nat) : Prop :=
  (forall ix, in_bounds s ix = true -> seed ix < N) /\
  (forall r, r < N -> exists ix, in_bounds s ix = true /\ seed ix = r /\
     forall ix', in_bounds s ix' = true -> seed ix' = r -> ix' = ix).

(** The arrays [f], [x], [y] (and [z] if there are three coordinates) of shape [s] hold at each index
    the value and the coordinates of one seed, each seed at exactly one index. *)
Definition arrays_hold {T} (s : list nat) (N d : nat) (ftle : list (xval T)) (centroid : mat T)
  (f : nd (xval T)) (x y : nd T) (z : option (nd T)) (seed : list nat -> nat) : Prop :=
  shape f = s /\ shape x = s /\ shape y = s /\ numbers s N seed /\
  (forall ix, in_bounds s ix = true ->
     (exists v, nd_get f ix = Ok v /\ value_of ftle (seed ix) v) /\
     (exists a, nd_get x ix = Ok a /\ coord_of centroid (seed ix) 0 a) /\
     (exists b, nd_get y ix = Ok b /\ coord_of centroid (seed ix) 1 b)) /\
  match z with
  | Some z => d = 3 /\ shape z = s /\ forall ix, in_bounds s ix = true ->
                exists c, nd_get z ix = Ok c /\ coord_of centroid (seed ix) 2 c
  | None => d <> 3
  end.

(** The point [p] is the centroid of seed [r]; plane centroids lie at height 0. *)
Definition is_centroid {T} (O : ops T) (centroid : mat T) (r : nat) (p : T * T * T) : Prop :=
  coord_of centroid r 0 (fst (fst p)) /\ coord_of centroid r 1 (snd (fst p)) /\
  (mcols centroid = 2 -> snd p = o_zero O) /\ (mcols centroid = 3 -> coord_of centroid r 2 (snd p)).

(** The writer has not been used, or only for centroids with [d] coordinates. *)
Definition ready {T} (st : @wstate T) (d : nat) : Prop := w_dim st = None \/ w_dim st = Some d.

(** The file at [path] holds [c], all other files are as before. *)
Definition saved {T} (st st' : @wstate T) (path : string) (c : content T) : Prop :=
  w_files st' path = Some c /\ forall p, p <> path -> w_files st' p = w_files st p.
(** No file was changed. *)
Definition nothing_saved {T} (st st' : @wstate T) : Prop := forall p, w_files st' p = w_files st p.
