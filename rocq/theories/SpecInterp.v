(** Vocabulary for histories of interpolator calls and for laws of SciPy. *)
From Coq Require Import Reals Sorted.
From Verif Require Import Base Num NdArray Integrate GridInterp Interpolate SpecIntegrate.

(** A call made on an interpolator: update(velocities, points) or interpolate(query), the latter
    with some contents of the memory it allocates. *)
Inductive act (T : Type) : Type :=
| AUpdate (v : mat T) (p : option (mat T))
| AQuery (mem : nat -> nat -> nat -> T) (q : mat T).
Arguments AUpdate {T}. Arguments AQuery {T}.

Definition is_update {T} (a : act T) : bool := match a with AUpdate _ _ => true | AQuery _ _ => false end.

(** Every query of the history is an array with [d] columns. *)
Definition queries_have {T} (d : nat) (hist : list (act T)) : Prop :=
  Forall (fun a => match a with AUpdate _ _ => True | AQuery _ q => wf_mat q /\ mcols q = d end) hist.

(** The interpolator after a history; exceptions do not end it. *)
Fixpoint after {T} (O : ops T) (scp : scipy T) (i : interp scp) (hist : list (act T)) : interp scp :=
  match hist with
  | [] => i
  | AUpdate v p :: h => after O scp (fst (update O scp i v p)) h
  | AQuery mem q :: h => after O scp (fst (interpolate O scp mem i q)) h
  end.

(** A history of velocity-only updates. *)
Definition only_velocities {T} (vs : list (mat T)) : list (act T) := map (fun v => AUpdate v None) vs.

(** Kinds of interpolator objects. *)
Definition is_unstructured {T} {scp : scipy T} (i : interp scp) : Prop :=
  match i with ICubic _ | ILinear _ | INearest _ => True | _ => False end.
Definition is_linear_or_nearest {T} {scp : scipy T} (i : interp scp) : Prop :=
  match i with ILinear o => o = unstructured_new | INearest o => o = unstructured_new | _ => False end.

(** The names of interpolators that work on given velocities. *)
Definition data_driven (name : string) : Prop :=
  case_variant name "cubic" \/ case_variant name "linear" \/ case_variant name "nearest" \/ case_variant name "grid".

Definition unstructured_name (name : string) : Prop :=
  case_variant name "cubic" \/ case_variant name "linear" \/ case_variant name "nearest".
Definition linear_or_nearest (name : string) : Prop := case_variant name "linear" \/ case_variant name "nearest".

(** The names that select a structured SciPy interpolator when a grid shape is given, with the
    method passed to SciPy. *)
Definition structured_name (name method : string) : Prop :=
  case_variant name method /\ (method = "linear" \/ method = "nearest" \/ method = "cubic")%string.

(** SciPy's RegularGridInterpolator evaluates its current values (methods 'linear', 'nearest',
    'slinear'), or the values it was built with (spline methods, which fit them at once). *)
Definition evaluates_current {T} (scp : scipy T) (method : string) : Prop :=
  forall axes b b' c q, rgi_eval scp method axes b c q = rgi_eval scp method axes b' c q.
Definition evaluates_built {T} (scp : scipy T) (method : string) : Prop :=
  forall axes b c c' q, rgi_eval scp method axes b c q = rgi_eval scp method axes b c' q.

(** It accepts strictly increasing axes of at least [m] entries (splines need several), and
    reproduces the values it was built with at the nodes. *)
Definition reproduces_nodes (scp : scipy R) (method : string) (m : nat) : Prop :=
  (forall axes v, Forall (fun a => StronglySorted Rlt a /\ m <= length a) axes ->
     shape v = map (@length R) axes -> rgi_check scp method axes v = Ok tt) /\
  forall axes c ix x a, Forall (StronglySorted Rlt) axes -> shape c = map (@length R) axes ->
    length ix = length x -> Forall2 (fun ax p => nth_error ax (fst p) = Some (snd p)) axes (combine ix x) ->
    nd_get c ix = Ok a -> rgi_eval scp method axes c c (Mat (length axes) [x]) = Ok [a].

(** Arrays with one column per sample, as update expects them. *)
Definition cols2 {T} (l : list (T * T)) : mat T := Mat (length l) [map fst l; map snd l].
Definition cols3 {T} (l : list (T * T * T)) : mat T :=
  Mat (length l) [map (fun p => fst (fst p)) l; map (fun p => snd (fst p)) l; map snd l].

(** Rows (u, v, old memory). *)
Definition stale_third {T} (mem : nat -> nat -> nat -> T) (uv : list (T * T)) : list (T * T * T) :=
  zip_with (fun k c => (fst c, snd c, mem 0 k 2)) (seq 0 (length uv)) uv.
