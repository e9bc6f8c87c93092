(** Specification vocabulary for runs of the solver. *)
From Coq Require Import Reals.
From Verif Require Import Base Num Particles Jacobian Ftle Integrate DataSource Solver SpecFtle SpecSeeds SpecIntegrate.

Section Runs.
  Context {T : Type} (O : ops T) {S P : Type}.
  Variable interpolate : S -> mat T -> S * res (mat T).
  Variable mems : nat -> memory (T := T).
  (** The number of integration steps made before. *)
  Variable k : nat.
  Variable src : source T S P.

  (** [advance n a b]: from integrator, interpolator and particles [a], exactly [n] steps lead to [b];
      the j-th one (j = 0 ... n-1) presents snapshot j to the interpolator and then integrates once
      over the source's time step. *)
  Inductive advance : nat -> integrator T * S * particles T -> integrator T * S * particles T -> Prop :=
  | advance_0 a : advance 0 a a
  | advance_S n a ig s p s1 ig' s' p' :
      advance n a (ig, s, p) ->
      src_update src s n = (s1, Ok tt) ->
      integrate O interpolate (mems (k + n)) ig s1 (src_timestep src) p = (ig', s', p', Ok tt) ->
      advance (1 + n) a (ig', s', p').

  (** Step [n] from [a] raises [e], in the update or in the integration; [b] is the state left. *)
  Definition blocked (n : nat) (a : integrator T * S * particles T) (e : exn)
    (b : integrator T * S * particles T) : Prop :=
    match a with
    | (ig, s, p) =>
        (exists s1, src_update src s n = (s1, Err e) /\ b = (ig, s1, p)) \/
        (exists s1 ig' s' p', src_update src s n = (s1, Ok tt) /\
           integrate O interpolate (mems (k + n)) ig s1 (src_timestep src) p = (ig', s', p', Err e) /\
           b = (ig', s', p'))
    end.
End Runs.

(** The run fails before its first step: the particles cannot be read, or the task has no id. *)
Definition start_fails {T S P W} (sv : solver T S P) (w : world T S P W) (e : exn) : Prop :=
  src_particles (s_source sv) (w_source w) = Err e \/
  ((exists p, src_particles (s_source sv) (w_source w) = Ok p) /\ src_id (s_source sv) = Err e).

(** The messages of [n] completed steps. *)
Definition step_messages (id : string) (n : nat) : list message := map (Progress id) (seq 0 n).

(** The FTLE field of advected particles: (1/T) ln ||F|| with T = (n-1) |h|, from the 2x2 Jacobian for
    groups of four neighbours and from the 3x3 Jacobian otherwise. *)
Definition field_of {T} (O : ops T) (eigvals : m33 T -> res (T * T * T)) (n : nat) (h : T)
  (p : particles T) (r : res (list (xval T))) : Prop :=
  let period := o_mul O (o_ofZ O (Z.of_nat n - 1)) (o_abs O h) in
  (num_neighbors p = 4 ->
     match compute_flow_map_jacobian_2x2 O p with
     | Ok Fs => r = compute_ftle_2x2 O Fs period
     | Err e => r = Err e
     end) /\
  (num_neighbors p <> 4 ->
     match compute_flow_map_jacobian_3x3 O p with
     | Ok Fs => r = compute_ftle_3x3 O eigvals Fs period
     | Err e => r = Err e
     end).

(** The same source with other particles. *)
Definition with_particles {T S P} (src : source T S P) (p : res (particles T)) : source T S P :=
  Source (src_id src) (src_timestep src) (src_steps src) (fun _ => p) (src_keep src) (src_update src).

(** [src] presents the fields [v 0], [v 1], ... in turn: update [j] succeeds and leaves an interpolator
    that samples [v j]. *)
Definition presents_fields {T S P} (I : (list T -> list T) -> S -> Prop) (src : source T S P)
  (v : nat -> list T -> list T) : Prop :=
  forall j w s, j < src_steps src -> I w s ->
    exists s', src_update src s j = (s', Ok tt) /\ I (v j) s'.

(** A field in the plane / in space acting on rows of coordinates. *)
Definition on_rows2 {T} (f : T * T -> T * T) (x : list T) : list T :=
  match x with [a; b] => row2 (f (a, b)) | _ => x end.
Definition on_rows3 {T} (f : T * T * T -> T * T * T) (x : list T) : list T :=
  match x with [a; b; c] => row3 (f (a, b, c)) | _ => x end.

(* ---- linear flows ---- *)
Local Open Scope R_scope.
(** x |-> M x + c. *)
Definition aff2 (M : m22 R) (c x : R * R) : R * R := (fst (app22 M x) + fst c, snd (app22 M x) + snd c).
Definition aff3 (M : m33 R) (c x : vec3) : vec3 :=
  (v0 (app33 M x) + v0 c, v1 (app33 M x) + v1 c, v2 (app33 M x) + v2 c).
Definition add22 (A B : m22 R) : m22 R :=
  M22 (a00 A + a00 B) (a01 A + a01 B) (a10 A + a10 B) (a11 A + a11 B).
Fixpoint pow22 (A : m22 R) (n : nat) : m22 R :=
  match n with O => id22 | S n' => mul22 A (pow22 A n') end.
Definition add33 (A B : m33 R) : m33 R :=
  M33 (b00 A + b00 B) (b01 A + b01 B) (b02 A + b02 B)
      (b10 A + b10 B) (b11 A + b11 B) (b12 A + b12 B)
      (b20 A + b20 B) (b21 A + b21 B) (b22 A + b22 B).
Fixpoint pow33 (A : m33 R) (n : nat) : m33 R :=
  match n with O => id33 | S n' => mul33 A (pow33 A n') end.

(** The propagators after [n] steps of size [h] for x' = A x + b.  AB2: the pair (P_(n-1), P_n) with
    P_1 = I + hA and P_(n+1) = P_n + h (3/2 A P_n - 1/2 A P_(n-1)). *)
Definition taylor22 (h : R) (A : m22 R) : m22 R :=
  add22 id22 (add22 (scal22 h A) (add22 (scal22 (h^2 / 2) (pow22 A 2))
    (add22 (scal22 (h^3 / 6) (pow22 A 3)) (scal22 (h^4 / 24) (pow22 A 4))))).
Fixpoint ab2_pair22 (h : R) (A : m22 R) (n : nat) : m22 R * m22 R :=
  match n with
  | O => (id22, add22 id22 (scal22 h A))
  | S n' => let (P, Q) := ab2_pair22 h A n' in
            (Q, add22 Q (scal22 h (add22 (scal22 (3/2) (mul22 A Q)) (scal22 (-1/2) (mul22 A P)))))
  end.
Definition propagator2 (m : method) (A : m22 R) (h : R) (n : nat) : m22 R :=
  match m with
  | MEuler => pow22 (add22 id22 (scal22 h A)) n
  | MRK4 => pow22 (taylor22 h A) n
  | MAB2 => fst (ab2_pair22 h A n)
  end.
Definition taylor33 (h : R) (A : m33 R) : m33 R :=
  add33 id33 (add33 (scal33 h A) (add33 (scal33 (h^2 / 2) (pow33 A 2))
    (add33 (scal33 (h^3 / 6) (pow33 A 3)) (scal33 (h^4 / 24) (pow33 A 4))))).
Fixpoint ab2_pair33 (h : R) (A : m33 R) (n : nat) : m33 R * m33 R :=
  match n with
  | O => (id33, add33 id33 (scal33 h A))
  | S n' => let (P, Q) := ab2_pair33 h A n' in
            (Q, add33 Q (scal33 h (add33 (scal33 (3/2) (mul33 A Q)) (scal33 (-1/2) (mul33 A P)))))
  end.
Definition propagator3 (m : method) (A : m33 R) (h : R) (n : nat) : m33 R :=
  match m with
  | MEuler => pow33 (add33 id33 (scal33 h A)) n
  | MRK4 => pow33 (taylor33 h A) n
  | MAB2 => fst (ab2_pair33 h A n)
  end.

(** Seeds whose opposite neighbours differ in one coordinate only. *)
Definition axis_aligned2 (g : group2 R) : Prop :=
  snd (g_right g) = snd (g_left g) /\ fst (g_top g) = fst (g_bottom g) /\
  fst (g_right g) <> fst (g_left g) /\ snd (g_top g) <> snd (g_bottom g).
Definition axis_aligned3 (g : group3 R) : Prop :=
  v1 (h_right g) = v1 (h_left g) /\ v2 (h_right g) = v2 (h_left g) /\
  v0 (h_top g) = v0 (h_bottom g) /\ v2 (h_top g) = v2 (h_bottom g) /\
  v0 (h_front g) = v0 (h_back g) /\ v1 (h_front g) = v1 (h_back g) /\
  v0 (h_right g) <> v0 (h_left g) /\ v1 (h_top g) <> v1 (h_bottom g) /\
  v2 (h_front g) <> v2 (h_back g).

(** The integration time of a run with one snapshot, 0 * |h|, compares equal to 0. *)
Definition zero_period {T} (O : ops T) (h : T) : Prop := o_eqb O (o_mul O (o_ofZ O 0) (o_abs O h)) (o_zero O) = true.
