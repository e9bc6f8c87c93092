(** Strings: paths and number formatting used by data_source.py.  Simplification: a string is a
    sequence of bytes (ASCII); Python strings are sequences of Unicode characters.  No proofs here. *)
From Verif Require Import Base.

(** str.split(c) for a single character (hyperparameters.py:131). *)
Fixpoint split_on (c : ascii) (s : string) : list string :=
  match s with
  | EmptyString => [EmptyString]
  | String a s' =>
      if Ascii.eqb a c then EmptyString :: split_on c s'
      else match split_on c s' with
           | w :: ws => String a w :: ws
           | [] => [String a EmptyString]
           end
  end.

(** pathlib.PurePosixPath(s).name: the last component; empty and "." components are dropped (data_source.py:138). *)
Definition path_name (s : string) : string :=
  last (filter (fun w => negb (String.eqb w "" || String.eqb w ".")) (split_on "/" s)) ""%string.

(** pathlib's [stem] of a component: with i = name.rfind("."), name[:i] if 0 < i < len(name) - 1,
    else name (data_source.py:138). *)
Definition stem_of_name (name : string) : string :=
  let parts := split_on "." name in
  let pre := String.concat "." (removelast parts) in
  if (1 <? length parts) && negb (String.eqb pre "") && negb (String.eqb (last parts ""%string) "")
  then pre else name.

(** data_source.py:137, [Path(f).stem]. *)
Definition stem (path : string) : string := stem_of_name (path_name path).

(** Decimal digits (data_source.py:249-252). *)
Definition digit (n : nat) : ascii := ascii_of_nat (48 + n mod 10).
(** The last [k] digits of [n], most significant first (data_source.py:249-252). *)
Fixpoint last_digits (k n : nat) : string :=
  match k with
  | 0 => EmptyString
  | S k' => append (last_digits k' (n / 10)) (String (digit n) EmptyString)
  end.
(** [n] in decimal without leading zeros ([fuel] bounds the number of digits) (data_source.py:249-252). *)
Fixpoint decimal_fuel (fuel n : nat) : string :=
  match fuel with
  | 0 => EmptyString
  | S fuel' => if n <? 10 then String (digit n) EmptyString
               else append (decimal_fuel fuel' (n / 10)) (String (digit n) EmptyString)
  end.
(** str(n) of a natural number (data_source.py:249-252). *)
Definition decimal (n : nat) : string := decimal_fuel (S n) n.

(** f"{x:06f}" for the number with [x = (-1)^neg * m / 10^6] after rounding to six decimals: the
    minimum width 6 is always exceeded, so neither it nor the zero flag has an effect (data_source.py:249-252). *)
Definition fixed6 (neg : bool) (m : nat) : string :=
  let million := Nat.pow 10 6 in
  append (if neg then "-" else "")
    (append (decimal (m / million)) (append "." (last_digits 6 (m mod million)))).
