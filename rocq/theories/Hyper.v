(** Model of src/pyftle/hyperparameters.py.  Strings are sequences of bytes.  No proofs here. *)
From Verif Require Import Base Text.

(** str.isspace for ASCII, as int() uses it (hyperparameters.py:131). *)
Definition is_space (c : ascii) : bool :=
  let n := nat_of_ascii c in (Nat.eqb n 32 || ((9 <=? n) && (n <=? 13)))%bool.
(** A decimal digit, as int() at hyperparameters.py:131 uses it. *)
Definition is_digit (c : ascii) : bool := let n := nat_of_ascii c in ((48 <=? n) && (n <=? 57))%bool.
(** Its value (hyperparameters.py:131). *)
Definition digit_value (c : ascii) : Z := (Z.of_nat (nat_of_ascii c) - 48)%Z.

(** Only blanks are left: what int() accepts after the digits (hyperparameters.py:131). *)
Fixpoint all_spaces (s : string) : bool :=
  match s with EmptyString => true | String c s' => (is_space c && all_spaces s')%bool end.
(** The blanks that int() skips before the sign (hyperparameters.py:131). *)
Fixpoint skip_spaces (s : string) : string :=
  match s with EmptyString => EmptyString | String c s' => if is_space c then skip_spaces s' else s end.

(** int(s), called at hyperparameters.py:131 (CPython, PyLong_FromString with base 10).  Simplifications: digits and
    blanks outside ASCII, which Python also accepts, are refused; no limit on the number of digits. *)
Fixpoint int_digits (acc : Z) (s : string) : res Z :=
  match s with
  | EmptyString => Ok acc
  | String c s' =>
      if is_digit c then int_digits (10 * acc + digit_value c) s'
      else if Ascii.eqb c "_" then
        match s' with
        | String d s'' => if is_digit d then int_digits (10 * acc + digit_value d) s'' else Err ValueError
        | EmptyString => Err ValueError
        end
      else if all_spaces s then Ok acc else Err ValueError
  end.
(** The part of int(s) after the sign (hyperparameters.py:131). *)
Definition int_unsigned (s : string) : res Z :=
  match s with
  | String c s' => if is_digit c then int_digits (digit_value c) s' else Err ValueError
  | EmptyString => Err ValueError
  end.
(** int(s) at hyperparameters.py:131. *)
Definition py_int (s : string) : res Z :=
  match skip_spaces s with
  | String c s' =>
      if Ascii.eqb c "-" then let* n := int_unsigned s' in Ok (- n)%Z
      else if Ascii.eqb c "+" then int_unsigned s'
      else int_unsigned (String c s')
  | EmptyString => Err ValueError
  end.

(** hyperparameters.py:96-145, parse_tuple. *)
Definition parse_tuple (value : string) : res (list Z) :=
  let* parsed_values := mapr py_int (split_on "," value) in
  if negb (existsb (Nat.eqb (length parsed_values)) [2; 3]) then Err ValueError
  else if negb (forallb (fun x => (0 <? x)%Z) parsed_values) then Err ValueError
  else if (last parsed_values 0 =? 1)%Z then Ok (removelast parsed_values)
  else Ok parsed_values.
