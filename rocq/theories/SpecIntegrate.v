(** Specification vocabulary for time integration of single points.  A point (or
    velocity) is the list of its coordinates.  Independent of integrate.py. *)
From Coq Require Import Reals.
From Verif Require Import Base Num Integrate.

Section Spec.
  Context {T : Type} (O : ops T).

  (** Vector operations. *)
  Fixpoint vadd (x y : list T) : list T :=
    match x, y with a :: x', b :: y' => o_add O a b :: vadd x' y' | _, _ => [] end.
  Fixpoint vsub (x y : list T) : list T :=
    match x, y with a :: x', b :: y' => o_sub O a b :: vsub x' y' | _, _ => [] end.
  Definition vscale (c : T) (x : list T) : list T := map (o_mul O c) x.

  (** Textbook steps of one point in the field [v]. *)
  Definition textbook_euler (v : list T -> list T) (h : T) (x : list T) : list T :=
    vadd x (vscale h (v x)).

  (** [vp] is the velocity found at the previous step. *)
  Definition textbook_ab2 (v : list T -> list T) (h : T) (vp x : list T) : list T :=
    vadd x (vscale h (vsub (vscale (o_three_halves O) (v x)) (vscale (o_half O) vp))).

  Definition textbook_rk4 (v : list T -> list T) (h : T) (x : list T) : list T :=
    let hh := o_mul O (o_half O) h in
    let k1 := v x in
    let k2 := v (vadd x (vscale hh k1)) in
    let k3 := v (vadd x (vscale hh k2)) in
    let k4 := v (vadd x (vscale h k3)) in
    vadd x (vscale (o_div O h (o_ofZ O 6))
      (vadd (vadd (vadd k1 (vscale (o_ofZ O 2) k2)) (vscale (o_ofZ O 2) k3)) k4)).

  (** Iterated AB2: the first step is an Euler step; [vp] is the previous velocity if any. *)
  Fixpoint ab2_path (steps : list ((list T -> list T) * T)) (vp : option (list T)) (x : list T) : list T :=
    match steps with
    | [] => x
    | (v, h) :: steps' =>
        ab2_path steps' (Some (v x))
          (match vp with
           | None => textbook_euler v h x
           | Some w => textbook_ab2 v h w x
           end)
    end.
  Fixpoint euler_path (steps : list ((list T -> list T) * T)) (x : list T) : list T :=
    match steps with
    | [] => x
    | (v, h) :: steps' => euler_path steps' (textbook_euler v h x)
    end.
  Fixpoint rk4_path (steps : list ((list T -> list T) * T)) (x : list T) : list T :=
    match steps with
    | [] => x
    | (v, h) :: steps' => rk4_path steps' (textbook_rk4 v h x)
    end.
End Spec.

(** The three methods. *)
Inductive method : Type := MEuler | MAB2 | MRK4.
Definition path {T} (O : ops T) (m : method) (steps : list ((list T -> list T) * T)) (x : list T) : list T :=
  match m with
  | MEuler => euler_path O steps x
  | MAB2 => ab2_path O steps None x
  | MRK4 => rk4_path O steps x
  end.

(** RK4 for a time-dependent field, stages at t, t+h/2, t+h/2, t+h. *)
Definition textbook_rk4_t {T} (O : ops T) (v : T -> list T -> list T) (t h : T) (x : list T) : list T :=
  let hh := o_mul O (o_half O) h in
  let k1 := v t x in
  let k2 := v (o_add O t hh) (vadd O x (vscale O hh k1)) in
  let k3 := v (o_add O t hh) (vadd O x (vscale O hh k2)) in
  let k4 := v (o_add O t h) (vadd O x (vscale O h k3)) in
  vadd O x (vscale O (o_div O h (o_ofZ O 6))
    (vadd O (vadd O (vadd O k1 (vscale O (o_ofZ O 2) k2)) (vscale O (o_ofZ O 2) k3)) k4)).

(** An interpolator holding a time, which evaluates the field at that time and
    records the time of every query. *)
Definition recorder {T} (v : T -> list T -> list T) (s : T * list T) (m : mat T)
  : (T * list T) * res (mat T) :=
  ((fst s, snd s ++ [fst s]), Ok (Mat (mcols m) (map (v (fst s)) (mrows m)))).

(** Two strings that differ only in the case of ASCII letters, the second one lower case. *)
Definition same_letter (c d : ascii) : Prop :=
  c = d \/ (65 <= nat_of_ascii c <= 90 /\ nat_of_ascii d = nat_of_ascii c + 32).
Fixpoint case_variant (s t : string) : Prop :=
  match s, t with
  | EmptyString, EmptyString => True
  | String c s', String d t' => same_letter c d /\ case_variant s' t'
  | _, _ => False
  end.

(** [s] answers every query with the field [v] evaluated at each row, now and after
    any number of queries. [I] is an invariant of the interpolator. *)
Definition samples_field {T S} (interpolate : S -> mat T -> S * res (mat T))
  (I : (list T -> list T) -> S -> Prop) : Prop :=
  forall v s m, I v s ->
    exists s', interpolate s m = (s', Ok (Mat (mcols m) (map v (mrows m)))) /\ I v s'.

(** A history of (update, time step) pairs that presents the fields [steps] in turn. *)
Definition presents {T S} (I : (list T -> list T) -> S -> Prop)
  (hist : list ((S -> S) * T)) (steps : list ((list T -> list T) * T)) : Prop :=
  Forall2 (fun a b => snd a = snd b /\ forall w s, I w s -> I (fst b) (fst a s)) hist steps.

(** A new integrator of each kind. *)
Definition fresh {T} (m : method) : integrator T :=
  match m with MEuler => Euler None | MAB2 => AB2 None None | MRK4 => RK4 None end.

(** Integrators reachable by any history of calls, failing calls included. *)
Inductive reachable {T S} (O : ops T) (interpolate : S -> mat T -> S * res (mat T)) : integrator T -> Prop :=
| reach_fresh name i : create_integrator name = Ok i -> reachable O interpolate i
| reach_step i mem s h pos i' s' r :
    reachable O interpolate i -> integrate_pos O interpolate mem i s h pos = (i', s', r) ->
    reachable O interpolate i'.

(** Integrators of the same kind that remember the same previous velocity (AB2). *)
Definition same_memory {T} (i j : integrator T) : Prop :=
  match i, j with
  | Euler _, Euler _ => True
  | AB2 p _, AB2 q _ => p = q
  | RK4 _, RK4 _ => True
  | _, _ => False
  end.

(* ---- exact reals ---- *)
Local Open Scope R_scope.
Notation "x +v y" := (vadd Rops x y) (at level 50, left associativity).
Notation "c *v x" := (vscale Rops c x) (at level 40, left associativity).

(** A linear map on vectors with [d] coordinates. *)
Definition linear_on (d : nat) (A : list R -> list R) : Prop :=
  (forall x, length x = d -> length (A x) = d) /\
  (forall x y, length x = d -> length y = d -> A (x +v y) = A x +v A y) /\
  (forall c x, length x = d -> A (c *v x) = c *v A x).

Definition taylor4 (A : list R -> list R) (b : list R) (h : R) (x : list R) : list R :=
  let w := A x +v b in
  x +v (h *v w +v (h * h / 2) *v A w +v (h * h * h / 6) *v A (A w) +v (h * h * h * h / 24) *v A (A (A w))).

(** The reversed field, and a sequence of steps with fields and time steps negated. *)
Definition neg_field (v : list R -> list R) : list R -> list R := fun x => (-1) *v v x.

Definition reversed (steps : list ((list R -> list R) * R)) :=
  map (fun a => (neg_field (fst a), - snd a)) steps.

