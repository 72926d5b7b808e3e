(** The value C++ assigns to an integer-literal without suffix ([lex.icon]). *)
From Verif Require Import Common.

(** The value of a digit character. *)
Inductive digit : Z -> Z -> Prop :=
| digit_dec c : 48 <= c <= 57 -> digit c (c - 48)
| digit_low c : 97 <= c <= 102 -> digit c (c - 87)
| digit_up c : 65 <= c <= 70 -> digit c (c - 55).

(** A digit sequence of the given base: digits below the base, optionally separated by single quotes. *)
Inductive digits (base : Z) : list Z -> list Z -> Prop :=
| digits_one c d : digit c d -> d < base -> digits base [c] [d]
| digits_more c d s ds : digit c d -> d < base -> digits base s ds -> digits base (c :: s) (d :: ds)
| digits_sep c d s ds : digit c d -> d < base -> digits base s ds -> digits base (c :: 39 :: s) (d :: ds).

(** Positional value, most significant digit first. *)
Definition value (base : Z) (ds : list Z) : Z := fold_left (fun a d => a * base + d) ds 0.

Inductive integer_literal : list Z -> Z -> Prop :=
| lit_decimal c s ds : c <> 48 -> digits 10 (c :: s) ds -> integer_literal (c :: s) (value 10 ds)
| lit_zero : integer_literal [48] 0
| lit_octal s ds : digits 8 s ds -> integer_literal (48 :: s) (value 8 ds)
| lit_octal_sep s ds : digits 8 s ds -> integer_literal (48 :: 39 :: s) (value 8 ds)
| lit_hex x s ds : x = 120 \/ x = 88 -> digits 16 s ds -> integer_literal (48 :: x :: s) (value 16 ds)
| lit_binary b s ds : b = 98 \/ b = 66 -> digits 2 s ds -> integer_literal (48 :: b :: s) (value 2 ds).

(** The range of the fixed-width integer types. *)
Definition fits (is_signed : bool) (bits v : Z) : Prop :=
  if is_signed then - 2 ^ (bits - 1) <= v < 2 ^ (bits - 1) else 0 <= v < 2 ^ bits.
