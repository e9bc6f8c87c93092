(** Vocabulary of the statements about the configuration.  No proofs here. *)
From Verif Require Import Base.

(** [s] consists of blanks, tabs and line breaks. *)
Inductive blanks : string -> Prop :=
| blanks_nil : blanks EmptyString
| blanks_cons c s : In c [" "; "009"; "010"; "011"; "012"; "013"]%char -> blanks s -> blanks (String c s).

(** [s] are the decimal digits of [n], with single underscores allowed between digits. *)
Inductive decimal : string -> Z -> Prop :=
| decimal_digit c k : nth_error ["0"; "1"; "2"; "3"; "4"; "5"; "6"; "7"; "8"; "9"]%char k = Some c ->
    decimal (String c EmptyString) (Z.of_nat k)
| decimal_next s n c k : decimal s n -> decimal (String c EmptyString) (Z.of_nat k) ->
    decimal (append s (String c EmptyString)) (10 * n + Z.of_nat k)
| decimal_group s n c k : decimal s n -> decimal (String c EmptyString) (Z.of_nat k) ->
    decimal (append s (append "_" (String c EmptyString))) (10 * n + Z.of_nat k).

(** [s] is a decimal integer of value [z], possibly surrounded by blanks. *)
Definition integer (s : string) (z : Z) : Prop :=
  exists before sign digits after n,
    s = append before (append sign (append digits after)) /\ blanks before /\ blanks after /\ decimal digits n /\
    ((sign = EmptyString \/ sign = "+"%string) /\ z = n \/ sign = "-"%string /\ z = (- n)%Z).

(** [s] is the comma-separated list of the integers [zs]. *)
Definition integers (s : string) (zs : list Z) : Prop :=
  exists parts, s = String.concat "," parts /\ Forall2 integer parts zs.

(** Between the instants [dt1] and [dt2] (in microseconds) d days, h hours, m minutes and s seconds have passed, and less than a
    second more; the days are negative exactly when the clock went backwards. *)
Definition elapsed (dt1 dt2 : Z) (reported : Z * Z * Z * Z) : Prop :=
  let '(d, h, m, s) := reported in
  (0 <= (dt2 - dt1) - 1000000 * (86400 * d + 3600 * h + 60 * m + s) < 1000000 /\
   0 <= h < 24 /\ 0 <= m < 60 /\ 0 <= s < 60 /\ (dt1 <= dt2 <-> 0 <= d))%Z.
