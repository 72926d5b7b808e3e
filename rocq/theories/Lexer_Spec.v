(** Specification vocabulary for C20 and C21. *)
From Verif Require Import Common.

(** ASCII character classes. *)
Definition ascii_upper (c : Z) : Prop := 65 <= c <= 90.
Definition ascii_lower (c : Z) : Prop := 97 <= c <= 122.
Definition ascii_alpha (c : Z) : Prop := ascii_upper c \/ ascii_lower c.
Definition ascii_digit (c : Z) : Prop := 48 <= c <= 57.
Definition ascii_xdigit (c : Z) : Prop := ascii_digit c \/ 65 <= c <= 70 \/ 97 <= c <= 102.
Definition ascii_space (c : Z) : Prop := c = 32 \/ 9 <= c <= 13.

(** Values of the [bits]-bit character type. *)
Definition in_range (bits : Z) (sg : bool) (v : Z) : Prop :=
  if sg then - 2 ^ (bits - 1) <= v < 2 ^ (bits - 1) else 0 <= v < 2 ^ bits.

(** The digit value of a (hexadecimal) digit character and the number denoted by a digit string. *)
Definition digit_value (c : Z) : Z :=
  if c <=? 57 then c - 48 else if c <=? 70 then c - 55 else c - 87.
Definition number (base : Z) (s : list Z) : Z := fold_left (fun a c => a * base + digit_value c) s 0.

(** [run P s] is the longest prefix of [s] all of whose characters satisfy [P]. *)
Definition is_run (P : Z -> Prop) (s pre rest : list Z) : Prop :=
  s = pre ++ rest /\ Forall P pre /\ match rest with c :: _ => ~ P c | [] => True end.
