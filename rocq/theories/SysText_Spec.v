(** Specification vocabulary for C65. *)
From Verif Require Import Common Format_Spec SysText_Model.

(** A decimal number. *)
Definition decimal (v : Z) (text : list Z) : Prop := exists digits, positional 10 false (Z.abs v) digits /\ text = (if v <? 0 then [45] else []) ++ digits.
(** A number with leading zeros to two digits. *)
Definition padded (v : Z) (text : list Z) : Prop := exists a b, text = [a; b] /\ digit_of 10 false a /\ digit_of 10 false b /\ v = value_of_digit a * 10 + value_of_digit b.
(** The ranges of struct tm ([time.h]); years of an int. *)
Definition tm_ok (t : tm) : Prop :=
  0 <= tm_mon t <= 11 /\ 1 <= tm_mday t <= 31 /\ - 2 ^ 31 <= tm_year t < 2 ^ 31 /\ 0 <= tm_hour t <= 23 /\ 0 <= tm_min t <= 59 /\ 0 <= tm_sec t <= 60.
