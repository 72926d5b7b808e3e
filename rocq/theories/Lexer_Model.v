(** Model of fly::detail::BasicClassifier (fly/types/string/detail/classifier.hpp) and
    fly::BasicLexer (fly/types/string/lexer.hpp).  Characters are the values of the character type
    (negative when the type is signed). *)
From Verif Require Import Common.

(** A character type: its width and signedness, and those of std::char_traits<CharType>::int_type. *)
Record ctype := CType { c_bits : Z; c_signed : bool; i_bits : Z; i_signed : bool }.

(** The StandardCharacter types (concepts.hpp:17-25) on the supported platforms. *)
Definition char_signed := CType 8 true 32 true.
Definition char_unsigned := CType 8 false 32 true.
Definition char8 := CType 8 false 32 false.
Definition char16 := CType 16 false 16 false.
Definition char32 := CType 32 false 32 false.
Definition wchar_linux := CType 32 true 32 false.
Definition wchar_arm := CType 32 false 32 false.
Definition wchar_windows := CType 16 false 16 false.
Definition ctypes := [char_signed; char_unsigned; char8; char16; char32; wchar_linux; wchar_arm; wchar_windows].

(** Conversion of an integer to an integral type of the given width and signedness. *)
Definition convert_int (bits : Z) (sg : bool) (v : Z) : Z := if sg then signed bits v else wrap bits v.
Definition to_char (t : ctype) (v : Z) : Z := convert_int (c_bits t) (c_signed t) v.
Definition to_int_type (t : ctype) (v : Z) : Z := convert_int (i_bits t) (i_signed t) v.

(** classifier.hpp:184-185 *)
Definition s_case_bit (t : ctype) : Z := to_int_type t 0x20.
Definition s_case_mask (t : ctype) : Z := to_int_type t (Z.lnot (s_case_bit t)).

(** classifier.hpp:284-287 *)
Definition unify_az_characters (t : ctype) (ch : Z) : Z := to_char t (Z.land (to_int_type t ch) (s_case_mask t)).
(** classifier.hpp:223-226 *)
Definition is_upper (ch : Z) : bool := (65 <=? ch) && (ch <=? 90).
(** classifier.hpp:216-219 *)
Definition is_alpha (t : ctype) (ch : Z) : bool := is_upper (unify_az_characters t ch).
(** classifier.hpp:230-233 *)
Definition is_lower (ch : Z) : bool := (97 <=? ch) && (ch <=? 122).
(** classifier.hpp:237-245 *)
Definition to_upper (t : ctype) (ch : Z) : Z :=
  if is_lower ch then to_char t (Z.land (to_int_type t ch) (s_case_mask t)) else ch.
(** classifier.hpp:249-257 *)
Definition to_lower (t : ctype) (ch : Z) : Z :=
  if is_upper ch then to_char t (Z.lor (to_int_type t ch) (s_case_bit t)) else ch.
(** classifier.hpp:261-264.  Operands promote to int (or are 32-bit): exact on values. *)
Definition is_digit (ch : Z) : bool := Z.lxor ch 48 <? 10.
(** classifier.hpp:268-272 *)
Definition is_x_digit (t : ctype) (ch : Z) : bool :=
  let alpha := unify_az_characters t ch in is_digit ch || ((65 <=? alpha) && (alpha <=? 70)).
(** classifier.hpp:276-280 *)
Definition is_space (ch : Z) : bool :=
  (ch =? 32) || (ch =? 12) || (ch =? 10) || (ch =? 13) || (ch =? 9) || (ch =? 11).

(** * Lexer *)

(** lexer.hpp:144-147; m_size is the length of m_view. *)
Record lexer := Lexer { view : list Z; index : Z }.
Definition size (l : lexer) : Z := Z.of_nat (length (view l)).

(** lexer.hpp:188-198.  The address m_view.data() + m_index + offset; with a wrapped sum that
    pointer arithmetic leaves the array (undefined). *)
Definition peek (l : lexer) (offset : Z) : res (option Z) :=
  if u64 (index l + offset) >=? size l then Ok None
  else if index l + offset =? u64 (index l + offset)
       then Ok (lookup (view l) (Z.to_nat (index l + offset)))
       else UB.

(** lexer.hpp:200-210 *)
Definition consume (l : lexer) : option Z * lexer :=
  if index l >=? size l then (None, l)
  else (lookup (view l) (Z.to_nat (index l)), Lexer (view l) (u64 (index l + 1))).

(** lexer.hpp:212-223 *)
Definition consume_if_char (l : lexer) (ch : Z) : res (bool * lexer) :=
  let! next := peek l 0 in
  match next with
  | Some n => if n =? ch then Ok (true, Lexer (view l) (u64 (index l + 1))) else Ok (false, l)
  | None => Ok (false, l)
  end.

(** lexer.hpp:272-283 *)
Definition consume_if (l : lexer) (condition : Z -> bool) : res (option Z * lexer) :=
  let! next := peek l 0 in
  match next with
  | Some n => if condition n then Ok (consume l) else Ok (None, l)
  | None => Ok (None, l)
  end.

(** lexer.hpp:225-241 consume_number; the loop consumes a character per iteration, so [fuel] = size+1
    suffices (Lexer_Props).  [None] of the outer option: fuel exhausted. *)
Fixpoint number_loop (fuel : nat) (l : lexer) (parsed : bool) (number : Z) : res (option Z * lexer) :=
  match fuel with
  | O => UB
  | S f =>
      let! (ch, l') := consume_if l is_digit in
      match ch with
      | None => Ok (if parsed then Some number else None, l')
      | Some c => number_loop f l' true (u64 (u64 (number * 10) + u64 (c - 48)))
      end
  end.
Definition consume_number (l : lexer) : res (option Z * lexer) := number_loop (S (length (view l))) l false 0.

(** lexer.hpp:243-270 consume_hex_number *)
Definition hex_value (c : Z) : Z :=
  if (65 <=? c) && (c <=? 70) then u64 (u64 (u64 c - 65) + 10)
  else if (97 <=? c) && (c <=? 102) then u64 (u64 (u64 c - 97) + 10)
  else u64 (u64 c - 48).
Fixpoint hex_loop (fuel : nat) (t : ctype) (l : lexer) (parsed : bool) (number : Z) : res (option Z * lexer) :=
  match fuel with
  | O => UB
  | S f =>
      let! (ch, l') := consume_if l (is_x_digit t) in
      match ch with
      | None => Ok (if parsed then Some number else None, l')
      | Some c => hex_loop f t l' true (u64 (u64 (number * 16) + hex_value c))
      end
  end.
Definition consume_hex_number (t : ctype) (l : lexer) : res (option Z * lexer) :=
  hex_loop (S (length (view l))) t l false 0.
