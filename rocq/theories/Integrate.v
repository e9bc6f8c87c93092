(** Model of src/pyftle/integrate.py. *)
From Verif Require Import Base Num Particles.

Section Integrate.
  Context {T : Type} (O : ops T).

  (** The interpolator used by an integrator: an object with a state (its
      buffers, its field) and a method [interpolate]. *)
  Context {S : Type}.
  Variable interpolate : S -> mat T -> S * res (mat T).

  (** Contents of freshly allocated arrays: allocation number, row, column (integrate.py:190, 240, 256, 311-314). *)
  Definition memory : Type := nat -> nat -> nat -> T.

  (** [a * m] for a scalar and an array (integrate.py:184-330). *)
  Definition smul (a : T) (m : mat T) : mat T := mat_map (o_mul O a) m.
  (** a + b of two arrays (integrate.py). *)
  Definition madd (a b : mat T) : res (mat T) := mat_map2 (o_add O) a b.
  (** a - b of two arrays (integrate.py). *)
  Definition msub (a b : mat T) : res (mat T) := mat_map2 (o_sub O) a b.

  (** integrate.py:16-44: [positions += h * velocity]. *)
  Definition euler_step (pos : mat T) (h : T) (v : mat T) : res (mat T) :=
    madd pos (smul h v).

  (** integrate.py:47-78: [positions += h * (1.5 * v_current - 0.5 * v_prev)]. *)
  Definition ab2_step (pos : mat T) (h : T) (vc vp : mat T) : res (mat T) :=
    let* d := msub (smul (o_three_halves O) vc) (smul (o_half O) vp) in
    madd pos (smul h d).

  (** integrate.py:81-109: [positions += (h / 6.0) * (k1 + 2.0*k2 + 2.0*k3 + k4)]. *)
  Definition rk4_step (pos : mat T) (h : T) (k1 k2 k3 k4 : mat T) : res (mat T) :=
    let* s1 := madd k1 (smul (o_ofZ O 2) k2) in
    let* s2 := madd s1 (smul (o_ofZ O 2) k3) in
    let* s3 := madd s2 k4 in
    madd pos (smul (o_div O h (o_ofZ O 6)) s3).

  (** integrate.py:161-174, 204-224, 265-297: the integrator objects and their buffers. *)
  Inductive integrator : Type :=
  | Euler (velocity : option (mat T))
  | AB2 (previous_velocity velocity : option (mat T))
  | RK4 (buffers : option (mat T * mat T * mat T * mat T * mat T)).

  (** integrate.py:190-191: reuse the buffer if its shape matches, else allocate. *)
  Definition get_buffer (mem : memory) (k : nat) (b : option (mat T)) (pos : mat T) : mat T :=
    match b with
    | Some v => if same_shape v pos then v else empty_like (mem k) pos
    | None => empty_like (mem k) pos
    end.

  (** One call [np.copyto(buf, self.interpolator.interpolate(pos))] (integrate.py:184-330). *)
  Definition sample (s : S) (buf pos : mat T) : S * res (mat T) :=
    let (s', r) := interpolate s pos in
    (s', let* v := r in copyto buf v).

  (** Result of a step: new integrator, new interpolator state, and the new
      positions or the exception (positions are then unchanged).  A step that
      fails keeps the buffers it had; their contents are never read before being
      overwritten (see the theorems), so this loses nothing (integrate.py:184-330). *)
  Definition step_result : Type := integrator * S * res (mat T).

  (** integrate.py:176-196, EulerIntegrator.integrate. *)
  Definition euler_integrate (mem : memory) (b : option (mat T)) (s : S) (h : T) (pos : mat T)
    : step_result :=
    let buf := get_buffer mem 0 b pos in
    match sample s buf pos with
    | (s', Err e) => (Euler (Some buf), s', Err e)
    | (s', Ok v) => (Euler (Some v), s', euler_step pos h v)
    end.

  (** integrate.py:226-257, AdamsBashforth2Integrator.integrate.  [previous_velocity]
      is only written after a successful step. *)
  Definition ab2_integrate (mem : memory) (prev b : option (mat T)) (s : S) (h : T) (pos : mat T)
    : step_result :=
    let buf := get_buffer mem 0 b pos in
    match sample s buf pos with
    | (s', Err e) => (AB2 prev (Some buf), s', Err e)
    | (s', Ok v) =>
        match (match prev with
               | None => euler_step pos h v
               | Some vp => ab2_step pos h v vp
               end) with
        | Err e => (AB2 prev (Some v), s', Err e)
        | Ok pos' =>
            let dst := match prev with
                       | None => empty_like (mem 1) v
                       | Some vp => vp
                       end in
            match copyto dst v with
            | Err e => (AB2 prev (Some v), s', Err e)
            | Ok pv => (AB2 (Some pv) (Some v), s', Ok pos')
            end
        end
    end.

  (** integrate.py:299-342, RungeKutta4Integrator.integrate.  All four stages use
      the same interpolator, whose field does not change during the call. *)
  Definition rk4_integrate (mem : memory)
    (b : option (mat T * mat T * mat T * mat T * mat T)) (s : S) (h : T) (pos : mat T)
    : step_result :=
    let fresh := (empty_like (mem 0) pos, empty_like (mem 1) pos, empty_like (mem 2) pos,
                  empty_like (mem 3) pos, empty_like (mem 4) pos) in
    let bufs := match b with
                | Some (k1, k2, k3, k4, t) =>
                    if same_shape k1 pos then (k1, k2, k3, k4, t) else fresh
                | None => fresh
                end in
    match bufs with
    | (bk1, bk2, bk3, bk4, btmp) =>
      let half_h := o_mul O (o_half O) h in
      match sample s bk1 pos with
      | (s1, Err e) => (RK4 (Some bufs), s1, Err e)
      | (s1, Ok k1) =>
        match (let* t0 := copyto btmp pos in madd t0 (smul half_h k1)) with
        | Err e => (RK4 (Some (k1, bk2, bk3, bk4, btmp)), s1, Err e)
        | Ok t1 =>
          match sample s1 bk2 t1 with
          | (s2, Err e) => (RK4 (Some (k1, bk2, bk3, bk4, t1)), s2, Err e)
          | (s2, Ok k2) =>
            match (let* t0 := copyto t1 pos in madd t0 (smul half_h k2)) with
            | Err e => (RK4 (Some (k1, k2, bk3, bk4, t1)), s2, Err e)
            | Ok t2 =>
              match sample s2 bk3 t2 with
              | (s3, Err e) => (RK4 (Some (k1, k2, bk3, bk4, t2)), s3, Err e)
              | (s3, Ok k3) =>
                match (let* t0 := copyto t2 pos in madd t0 (smul h k3)) with
                | Err e => (RK4 (Some (k1, k2, k3, bk4, t2)), s3, Err e)
                | Ok t3 =>
                  match sample s3 bk4 t3 with
                  | (s4, Err e) => (RK4 (Some (k1, k2, k3, bk4, t3)), s4, Err e)
                  | (s4, Ok k4) =>
                      (RK4 (Some (k1, k2, k3, k4, t3)), s4, rk4_step pos h k1 k2 k3 k4)
                  end
                end
              end
            end
          end
        end
      end
    end.

  (** Dynamic dispatch of [integrator.integrate(h, particles)] on the positions (integrate.py:184-330). *)
  Definition integrate_pos (mem : memory) (i : integrator) (s : S) (h : T) (pos : mat T)
    : step_result :=
    match i with
    | Euler b => euler_integrate mem b s h pos
    | AB2 p b => ab2_integrate mem p b s h pos
    | RK4 b => rk4_integrate mem b s h pos
    end.

  (** The same on the particles object, updated in place; on failure it is unchanged (integrate.py:184-330). *)
  Definition integrate (mem : memory) (i : integrator) (s : S) (h : T) (p : particles T)
    : integrator * S * particles T * res unit :=
    match integrate_pos mem i s h (positions p) with
    | (i', s', Ok pos') => (i', s', set_positions p pos', Ok tt)
    | (i', s', Err e) => (i', s', p, Err e)
    end.

  (** A history of calls on one integrator and one particles object, as the solver's
      loop makes them (ftle_solver.py:91-99): before each call the interpolator may be
      given new data (any change of its state); stops at the first exception. *)
  Fixpoint integrate_seq (mems : nat -> memory) (k : nat) (i : integrator) (s : S)
    (hist : list ((S -> S) * T)) (p : particles T) : integrator * S * particles T * res unit :=
    match hist with
    | [] => (i, s, p, Ok tt)
    | (update, h) :: hist' =>
        match integrate (mems k) i (update s) h p with
        | (i', s', p', Ok tt) => integrate_seq mems (1 + k) i' s' hist' p'
        | other => other
        end
    end.
End Integrate.
Arguments Euler {T} velocity.
Arguments AB2 {T} previous_velocity velocity.
Arguments RK4 {T} buffers.
Arguments integrator T : clear implicits.

(** str.lower() on ASCII letters.  Simplification: characters outside ASCII are
    left unchanged; none of their lower-case images matters except the Kelvin
    sign U+212A, whose lower case is "k" (so "r" ++ U+212A ++ "4" is also accepted by Python) (integrate.py:373). *)
Definition lower_ascii (c : ascii) : ascii :=
  let n := nat_of_ascii c in
  if (65 <=? n) && (n <=? 90) then ascii_of_nat (n + 32) else c.
(** str.lower() at integrate.py:373 and interpolate.py:872. *)
Fixpoint lower (s : string) : string :=
  match s with
  | EmptyString => EmptyString
  | String c s' => String (lower_ascii c) (lower s')
  end.

(** integrate.py:350-387, create_integrator: a fresh integrator without buffers. *)
Definition create_integrator {T} (name : string) : res (integrator T) :=
  let n := lower name in
  if String.eqb n "ab2" then Ok (AB2 None None)
  else if String.eqb n "euler" then Ok (Euler None)
  else if String.eqb n "rk4" then Ok (RK4 None)
  else Err ValueError.
