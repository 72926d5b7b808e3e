(** Model of the fixed-width integer literal suffixes (fly/types/numeric/literals.hpp and
    fly/types/numeric/detail/literal_parser.hpp).  Template instantiation is modelled as evaluation;
    [None] is a program that does not compile: an unsatisfied constraint, or a signed overflow inside
    a constant expression. *)
From Verif Require Import Common.

(** literal_parser.hpp:13-20 ValidLiteralForBase *)
Definition valid_for_base (base c : Z) : bool :=
  (c =? 39) ||
  ((base =? 2) && (48 <=? c) && (c <=? 49)) ||
  ((base =? 8) && (48 <=? c) && (c <=? 55)) ||
  ((base =? 10) && (48 <=? c) && (c <=? 57)) ||
  ((base =? 16) && (48 <=? c) && (c <=? 57)) ||
  ((base =? 16) && (65 <=? c) && (c <=? 70)) ||
  ((base =? 16) && (97 <=? c) && (c <=? 102)).

(** literal_parser.hpp:64-80 parse_and_validate_literal.  Digits reaching it are valid for the base,
    so no intermediate value leaves [0, 15]. *)
Definition parse_literal (c : Z) : Z :=
  if (65 <=? c) && (c <=? 70) then c - 65 + 10
  else if (97 <=? c) && (c <=? 102) then c - 97 + 10
  else c - 48.

(** Arithmetic of std::intmax_t (overflow is not a constant expression) or std::uintmax_t (wraps). *)
Definition max_arith (is_signed : bool) (v : Z) : option Z :=
  if is_signed then if (- 2 ^ 63 <=? v) && (v <? 2 ^ 63) then Some v else None
  else Some (wrap 64 v).

(** literal_parser.hpp:43-101 Aggregator<T, Base, Literals...>::aggregate *)
Fixpoint aggregate (is_signed : bool) (base : Z) (chars : list Z) (aggregated : Z) : option Z :=
  match chars with
  | [] => Some aggregated
  | c :: r =>
      if c =? 39 then aggregate is_signed base r aggregated
      else
        match max_arith is_signed (aggregated * base) with
        | None => None
        | Some m =>
            match max_arith is_signed (m + parse_literal c) with
            | None => None
            | Some a => aggregate is_signed base r a
            end
        end
  end.

(** literal_parser.hpp:115-122 ParserBase, with Aggregator's constraint (lines 43-47). *)
Definition parser_base (is_signed : bool) (base : Z) (chars : list Z) : option Z :=
  if forallb (valid_for_base base) chars then aggregate is_signed base chars 0 else None.

(** literal_parser.hpp:124-155 Parser and its specializations; the most specialized one is chosen. *)
Definition parser (is_signed : bool) (chars : list Z) : option Z :=
  match chars with
  | 48 :: 98 :: r => parser_base is_signed 2 r
  | 48 :: 66 :: r => parser_base is_signed 2 r
  | 48 :: 120 :: r => parser_base is_signed 16 r
  | 48 :: 88 :: r => parser_base is_signed 16 r
  | 48 :: r => parser_base is_signed 8 r
  | _ => parser_base is_signed 10 chars
  end.

Definition type_min (is_signed : bool) (bits : Z) : Z := if is_signed then - 2 ^ (bits - 1) else 0.
Definition type_max (is_signed : bool) (bits : Z) : Z := if is_signed then 2 ^ (bits - 1) - 1 else 2 ^ bits - 1.

(** literal_parser.hpp:166-186 validate_and_convert and literal<T>; T is the integer type of [bits]
    bits (8, 16, 32, 64). *)
Definition literal (is_signed : bool) (bits : Z) (chars : list Z) : option Z :=
  match parser is_signed chars with
  | None => None
  | Some v => if (type_min is_signed bits <=? v) && (v <=? type_max is_signed bits) then Some v else None
  end.
