(** Specification vocabulary for analytical tasks. *)
From Verif Require Import Base Num Particles Integrate Interpolate DataSource FileRun.

(** An analytical task as it is documented: before step [j] the interpolator's time is the j-th of the
    task's times. *)
Definition at_times {T} (scp : scipy T) (format : T -> string) (h : T) (times : list T)
  : source T (istate scp) (particles T) :=
  Source (match times with [] => Err IndexError | t :: _ => Ok (format t) end) h (length times)
    (fun p => Ok p) (fun _ p => p)
    (fun s j => match fst s, nth_error times j with
                | IAnalytical o, Some t => ((IAnalytical (Analytical (velocity_fn o) t), snd s), Ok tt)
                | _, _ => (s, Ok tt)
                end).
