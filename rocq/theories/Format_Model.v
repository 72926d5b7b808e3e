(** Model of the value formatters (fly/types/string/formatters.hpp: strings, integers, characters,
    booleans) and of the integer converter (fly/types/string/detail/converter.hpp).
    Characters are values of the character type; outputs are lists of characters. *)
From Verif Require Import Common Lexer_Model.

(** format_specifier.hpp:110-149, the enumerations.  [base_of] is the numeric value of Type. *)
Inductive alignment := ADefault | ALeft | ARight | ACenter.
Inductive sign_option := SDefault | SAlways | SNegativeOnly | SNegativeOnlyWithPositivePadding.
Inductive ftype := TNone | TCharacter | TString | TPointer | TBinary | TOctal | TDecimal | THex
                 | THexFloat | TScientific | TFixed | TGeneral.
Inductive fcase := CLower | CUpper.
Definition base_of (t : ftype) : Z :=
  match t with
  | TNone => 20 | TCharacter => 21 | TString => 22 | TPointer => 23 | TBinary => 2 | TOctal => 8
  | TDecimal => 10 | THex => 16 | THexFloat => 24 | TScientific => 25 | TFixed => 26 | TGeneral => 27
  end.

(** format_parameter_type.hpp:12-21 *)
Inductive ptype := PUserDefined | PCharacter | PString | PPointer | PIntegral | PFloatingPoint | PBoolean.

(** format_specifier.hpp:225-256, the data members of BasicFormatSpecifier with their defaults. *)
Record specifier := Specifier {
  m_position : Z;
  m_fill : option Z;
  m_alignment : alignment;
  m_sign : sign_option;
  m_alternate_form : bool;
  m_zero_padding : bool;
  m_width : option Z;
  m_width_position : option Z;
  m_precision : option Z;
  m_precision_position : option Z;
  m_locale_specific_form : bool;
  m_type : ftype;
  m_case : fcase;
  m_parse_index : Z;
  m_size : Z }.
Definition default_specifier : specifier :=
  Specifier 0 None ADefault SDefault false false None None None None false TNone CLower 0 0.

Definition padding (count : Z) (pad : Z) : list Z := repeat pad (Z.to_nat count).
Definition value_or {A} (o : option A) (d : A) : A := match o with Some a => a | None => d end.

(** std::to_chars for an unsigned value into a buffer of [n] characters: digits 0-9a-z, most
    significant first, no leading zeros; [None] is errc::value_too_large. *)
Definition digit_char (d : Z) : Z := if d <? 10 then 48 + d else 87 + d.
Fixpoint to_chars (n : nat) (value base : Z) (acc : list Z) : option (list Z) :=
  match n with
  | O => None
  | S n' =>
      let acc' := digit_char (value mod base) :: acc in
      if value / base =? 0 then Some acc' else to_chars n' (value / base) base acc'
  end.

(** formatters.hpp:478-488 count_digits.  The loop ends after at most 64 divisions of a 64-bit value;
    [None]: still running. *)
Fixpoint count_digits (fuel : nat) (value base : Z) : option Z :=
  match fuel with
  | O => None
  | S f => if value / base =? 0 then Some 1 else option_map (fun d => d + 1) (count_digits f (value / base) base)
  end.

(** formatters.hpp:420-457 append_number.  Only the char case (422-441) is written out; for the other
    character types the digits are transcoded, see [Format_Props.number_transcoded].  An exhausted
    buffer would leave unspecified characters: UB. *)
Definition append_number (spec : specifier) (value base : Z) : res (list Z) :=
  match to_chars 64 value base [] with
  | None => UB
  | Some digits =>
      Ok (match m_type spec, m_case spec with
          | THex, CUpper => map (to_upper char_signed) digits
          | _, _ => digits
          end)
  end.

(** formatters.hpp:263-289, the lambda append_prefix. *)
Definition append_prefix (spec : specifier) (is_negative : bool) : list Z :=
  (if is_negative then [45]
   else match m_sign spec with
        | SAlways => [43]
        | SNegativeOnlyWithPositivePadding => [32]
        | _ => []
        end) ++
  (if m_alternate_form spec then
     48 :: match m_type spec, m_case spec with
           | TBinary, CUpper => [66] | TBinary, CLower => [98]
           | THex, CUpper => [88] | THex, CLower => [120]
           | _, _ => []
           end
   else []).

(** formatters.hpp:238-253 *)
Definition prefix_size (spec : specifier) (is_negative : bool) : Z :=
  (if is_negative then 1 else match m_sign spec with SAlways | SNegativeOnlyWithPositivePadding => 1 | _ => 0 end) +
  (if m_alternate_form spec then 1 + match m_type spec with TBinary | THex => 1 | _ => 0 end else 0).

(** formatters.hpp:306-345: the alignment switch; [prefix] and [number] are what append_prefix and
    append_number emit. *)
Definition align_number (spec : specifier) (padding_size : Z) (prefix number : list Z) : list Z :=
  let padding_char := value_or (m_fill spec) 32 in
  match m_alignment spec with
  | ALeft => prefix ++ number ++ padding padding_size padding_char
  | ARight => padding padding_size padding_char ++ prefix ++ number
  | ACenter =>
      let left_padding := padding_size / 2 in
      let right_padding := if padding_size mod 2 =? 0 then left_padding else left_padding + 1 in
      padding left_padding padding_char ++ prefix ++ number ++ padding right_padding padding_char
  | ADefault =>
      if m_zero_padding spec
      then prefix ++ padding padding_size 48 ++ number
      else padding padding_size padding_char ++ prefix ++ number
  end.

(** formatters.hpp:361-409 format_as_character; [w] is the width of U, [char_max] the maximum of
    CharType. *)
Definition format_as_character (w char_max : Z) (spec : specifier) (width value : Z) (is_negative : bool) : list Z :=
  if is_negative || (value >? wrap w char_max) then []
  else
    let padding_size := if width >? 1 then width - 1 else 0 in
    let padding_char := value_or (m_fill spec) 32 in
    match m_alignment spec with
    | ALeft => [value] ++ padding padding_size padding_char
    | ARight | ADefault => padding padding_size padding_char ++ [value]
    | ACenter =>
        let left_padding := padding_size / 2 in
        let right_padding := if padding_size mod 2 =? 0 then left_padding else left_padding + 1 in
        padding left_padding padding_char ++ [value] ++ padding right_padding padding_char
    end.

(** formatters.hpp:229-346, the private overload; [width] is FormatSpecifier::width(context, 0). *)
Definition format_unsigned (w char_max : Z) (spec : specifier) (width value : Z) (is_negative : bool) : res (list Z) :=
  match m_type spec with
  | TCharacter => Ok (format_as_character w char_max spec width value is_negative)
  | _ =>
      let base := base_of (m_type spec) in
      match count_digits 64 value base with
      | None => UB
      | Some digits =>
          let value_size := digits + prefix_size spec is_negative in
          let padding_size := Z.max value_size width - value_size in
          let! number := append_number spec value base in
          Ok (align_number spec padding_size (append_prefix spec is_negative) number)
      end
  end.

(** formatters.hpp:203-222, the public overload for an integer type of [w] bits. *)
Definition format_integer (w : Z) (is_signed : bool) (char_max : Z) (spec : specifier) (width value : Z) : res (list Z) :=
  if is_signed then
    let sign := Z.shiftr value (w - 1) in
    let unsigned_value := wrap w (wrap w (Z.lxor value sign) + Z.land sign 1) in
    format_unsigned w char_max spec width unsigned_value (negb (sign =? 0))
  else format_unsigned w char_max spec width value false.

(** formatters.hpp:59-102: the string formatter for a value of the format string's character type. *)
Definition format_string_value (spec : specifier) (width : Z) (precision : option Z) (value : list Z) : list Z :=
  let actual_size := Z.of_nat (length value) in
  let value_size := match precision with Some p => Z.min p actual_size | None => actual_size end in
  let padding_size := Z.max value_size width - value_size in
  let padding_char := value_or (m_fill spec) 32 in
  let shown := firstn (Z.to_nat value_size) value in
  match m_alignment spec with
  | ALeft | ADefault => shown ++ padding padding_size padding_char
  | ARight => padding padding_size padding_char ++ shown
  | ACenter =>
      let left_padding := padding_size / 2 in
      let right_padding := if padding_size mod 2 =? 0 then left_padding else left_padding + 1 in
      padding left_padding padding_char ++ shown ++ padding right_padding padding_char
  end.

(** formatters.hpp:872-884: booleans; "true" and "false", or the integer formatter for unsigned. *)
Definition s_true : list Z := [116; 114; 117; 101].
Definition s_false : list Z := [102; 97; 108; 115; 101].
Definition format_bool (char_max : Z) (spec : specifier) (width : Z) (precision : option Z) (value : bool) : res (list Z) :=
  match m_type spec with
  | TString => Ok (format_string_value spec width precision (if value then s_true else s_false))
  | _ => format_integer 32 false char_max spec width (if value then 1 else 0)
  end.

(** formatters.hpp:173-184: pointers are formatted as their address. *)
Definition with_pointer_options (spec : specifier) : specifier :=
  Specifier (m_position spec) (m_fill spec) (m_alignment spec) (m_sign spec) true (m_zero_padding spec)
    (m_width spec) (m_width_position spec) (m_precision spec) (m_precision_position spec)
    (m_locale_specific_form spec) THex (m_case spec) (m_parse_index spec) (m_size spec).
Definition format_pointer (char_max : Z) (spec : specifier) (width address : Z) : res (list Z) :=
  format_integer 64 false char_max (with_pointer_options spec) width address.

(** * Conversion, converter.hpp:27-42 with std::from_chars (base 10) for an integer type.
    from_chars reads an optional minus sign (signed types only) and the maximal run of digits; no
    digit: invalid_argument; value out of range: result_out_of_range. *)
Definition convert (w : Z) (is_signed : bool) (value : list Z) : option Z :=
  let is_dec := fun c => (48 <=? c) && (c <=? 57) in
  let '(negative, body) :=
    match value with
    | c :: r => if is_signed && (c =? 45) then (true, r) else (false, value)
    | [] => (false, [])
    end in
  match body with
  | [] => None
  | _ =>
      if forallb is_dec body then
        let n := fold_left (fun a c => a * 10 + (c - 48)) body 0 in
        let v := if negative then - n else n in
        let lo := if is_signed then - 2 ^ (w - 1) else 0 in
        let hi := if is_signed then 2 ^ (w - 1) else 2 ^ w in
        if (lo <=? v) && (v <? hi) then Some v else None
      else None
  end.
