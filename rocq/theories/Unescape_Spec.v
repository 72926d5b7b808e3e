(** Specification of escape sequences in texts (C19), from the documentation of
    escape_codepoint and unescape_all_codepoints (fly/types/string/string.hpp:308-376): a backslash, 'u' and four hexadecimal
    digits; a backslash, 'U' and eight hexadecimal digits; two of the former for a surrogate pair.
    Independent of the model. *)
From Verif Require Import Common Unicode_Spec.

(** The value of a hexadecimal digit, given by its ASCII code. *)
Inductive hex_digit : Z -> Z -> Prop :=
| hex_decimal d : 0 <= d <= 9 -> hex_digit (48 + d) d          (* '0'..'9' *)
| hex_upper d : 10 <= d <= 15 -> hex_digit (65 + (d - 10)) d   (* 'A'..'F' *)
| hex_lower d : 10 <= d <= 15 -> hex_digit (97 + (d - 10)) d.  (* 'a'..'f' *)

(** [hex_number n cs v]: the [n] characters [cs] are hexadecimal digits and read [v] in base 16. *)
Inductive hex_number : nat -> list Z -> Z -> Prop :=
| hex_none : hex_number 0 [] 0
| hex_more n c d cs v : hex_digit c d -> hex_number n cs v -> hex_number (S n) (c :: cs) (d * 16 ^ Z.of_nat n + v).

(** [escape cs c]: the characters [cs] are one escape sequence for the scalar value [c]. *)
Inductive escape_sequence : list Z -> Z -> Prop :=
| escape_four ds v : hex_number 4 ds v -> scalar v -> escape_sequence (92 :: 117 :: ds) v
| escape_pair ds1 h ds2 l : hex_number 4 ds1 h -> hex_number 4 ds2 l ->
    0xd800 <= h <= 0xdbff -> 0xdc00 <= l <= 0xdfff ->
    escape_sequence (92 :: 117 :: ds1 ++ 92 :: 117 :: ds2) (0x10000 + (h - 0xd800) * 1024 + (l - 0xdc00))
| escape_eight ds v : hex_number 8 ds v -> scalar v -> escape_sequence (92 :: 85 :: ds) v.

(** A backslash directly followed by 'u' or 'U' starts an escape sequence. *)
Definition starts_escape (it : list Z) : Prop :=
  match it with c :: p :: _ => c = 92 /\ (p = 117 \/ p = 85) | _ => False end.

(** [unescaped form it out]: [out] is [it] with every escape sequence replaced by the encoding of its
    scalar value, and everything else copied; there is no such [out] when some backslash-u or
    backslash-U is not the start of an escape sequence. *)
Inductive unescaped (form : Z -> list Z) : list Z -> list Z -> Prop :=
| unescaped_end : unescaped form [] []
| unescaped_copy u it out : ~ starts_escape (u :: it) -> unescaped form it out -> unescaped form (u :: it) (u :: out)
| unescaped_escape s c it out : escape_sequence s c -> unescaped form it out ->
    unescaped form (s ++ it) (form c ++ out).

(** The forms escape_codepoint documents (string.hpp:313-326), with lower-case digits; [upper]: the
    prefix character is 'U'. *)
Definition lower_case (c : Z) : Prop := ~ (65 <= c <= 90).
Inductive escaped_as (upper : bool) : Z -> list Z -> Prop :=
| escaped_not c : 0x20 <= c <= 0x7e -> escaped_as upper c [c]
| escaped_four c ds : 0 <= c < 0x20 \/ 0x7f <= c <= 0xffff -> hex_number 4 ds c -> Forall lower_case ds ->
    escaped_as upper c (92 :: 117 :: ds)
| escaped_pair h ds1 l ds2 : upper = false -> 0xd800 <= h <= 0xdbff -> 0xdc00 <= l <= 0xdfff ->
    hex_number 4 ds1 h -> hex_number 4 ds2 l -> Forall lower_case ds1 -> Forall lower_case ds2 ->
    escaped_as upper (0x10000 + (h - 0xd800) * 1024 + (l - 0xdc00)) (92 :: 117 :: ds1 ++ 92 :: 117 :: ds2)
| escaped_eight c ds : upper = true -> 0x10000 <= c <= 0x10ffff -> hex_number 8 ds c -> Forall lower_case ds ->
    escaped_as upper c (92 :: 85 :: ds).
