(** Model of src/pyftle/decorators.py.  A datetime is a number of microseconds.  No proofs here. *)
From Verif Require Import Base.
Local Open Scope Z_scope.

(** The attributes days and seconds of the timedelta of [us] microseconds (CPython normalises it to
    0 <= microseconds < 10^6 and 0 <= seconds < 86400) (decorators.py:32-33). *)
Definition timedelta_days (us : Z) : Z := us / 86400000000.
(** The attribute seconds, decorators.py:34. *)
Definition timedelta_seconds (us : Z) : Z := us mod 86400000000 / 1000000.

(** decorators.py:8-33. *)
Definition date_diff_in_seconds (dt2 dt1 : Z) : Z :=
  let timedelta := dt2 - dt1 in timedelta_days timedelta * 24 * 3600 + timedelta_seconds timedelta.

(** Python's divmod with a positive divisor (decorators.py:55-57). *)
Definition divmod (a b : Z) : Z * Z := (a / b, a mod b).

(** decorators.py:36-58. *)
Definition dhms_from_seconds (seconds : Z) : Z * Z * Z * Z :=
  let (minutes, seconds) := divmod seconds 60 in
  let (hours, minutes) := divmod minutes 60 in
  let (days, hours) := divmod hours 24 in
  (days, hours, minutes, seconds).

(** decorators.py:61-100, time_it: what is printed after the call of the function, whose outcome is
    [result] (an exception propagates), and the outcome of the decorated function. *)
Definition time_it {A} (start_time end_time : Z) (result : res A) : list (Z * Z * Z * Z) * res A :=
  match result with
  | Ok a => ([dhms_from_seconds (date_diff_in_seconds end_time start_time)], Ok a)
  | Err e => ([], Err e)
  end.
