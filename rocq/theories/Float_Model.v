(** Model of the floating-point formatter (fly/types/string/formatters.hpp:501-853, the branch with std::to_chars, which is
    the one every compiler with __cpp_lib_to_chars takes, fly.hpp:39-43).
    Simplifications: the format string is char-based (for the other character types the characters, which are ASCII, are
    transcoded one by one as in Format_Props.number_transcoded); what std::to_chars writes is the argument [buf], related to
    the text the C++ standard prescribes by [to_chars_into]. *)
From Verif Require Import Common Lexer_Model Format_Model.

(** std::to_chars(begin, end, ...) with [size] = end - begin ([charconv.to.chars]): if the text fits, it is written and ptr is
    its end; otherwise ptr is end and what the buffer holds is unspecified.  The result is [begin, ptr). *)
Definition to_chars_into (size : nat) (text buf : list Z) : Prop :=
  if (length text <=? size)%nat then buf = text else length buf = size.

(** formatters.hpp:775 *)
Definition buffer_size (digits : nat) : nat := digits.

(** formatters.hpp:780-799: the character that begins the exponent. *)
Definition exponent_char (t : ftype) : Z :=
  match t with THexFloat => 112 | TScientific => 101 | TFixed => 0 | _ => 101 end.

(** formatters.hpp:535: the std::size_t is made an int *)
Definition int_precision (precision : Z) : Z := signed 32 precision.

(** formatters.hpp:780-801: the format given to std::to_chars; the default is std::chars_format::general. *)
Definition chars_format (t : ftype) : ftype :=
  match t with THexFloat => THexFloat | TScientific => TScientific | TFixed => TFixed | _ => TGeneral end.
(** A negative precision is treated as if it were omitted (printf): six digits. *)
Definition requested_precision (precision : Z) : nat := if precision <? 0 then 6%nat else Z.to_nat precision.

(** formatters.hpp:752-758 FloatConversionResult *)
Record conversion := Conversion { m_digits : list Z; m_exponent : list Z; m_append_decimal : bool; m_zeroes_to_append : Z }.

(** formatters.hpp:811-824: the loop over the buffer; None: substr throws std::out_of_range. *)
Fixpoint scan_buffer (exponent : Z) (it : list Z) (position : nat) (r : conversion) : option conversion :=
  match it with
  | [] => Some r
  | c :: rest =>
      if c =? 46 then scan_buffer exponent rest (S position) (Conversion (m_digits r) (m_exponent r) false (m_zeroes_to_append r))
      else if c =? exponent then
        if (position <=? length (m_digits r))%nat
        then scan_buffer exponent rest (S position) (Conversion (firstn position (m_digits r)) (skipn position (m_digits r)) (m_append_decimal r) (m_zeroes_to_append r))
        else None
      else scan_buffer exponent rest (S position) r
  end.

(** formatters.hpp:826-836: the zeroes of the alternate form of the general presentation; std::size_t arithmetic. *)
Definition zeroes (precision : Z) (r : conversion) : Z :=
  let digits := u64 (Z.of_nat (length (m_digits r)) - (if m_append_decimal r then 0 else 1)) in
  if u64 precision >? digits then u64 precision - digits else 0.

(** formatters.hpp:773-848 convert_value; [precision] is the int, [buf] what to_chars left in the buffer.  The views
    m_digits and m_exponent point into the buffer, whose characters are made upper case at the end (839-845). *)
Definition convert_value (spec : specifier) (precision : Z) (buf : list Z) : option conversion :=
  let r := Conversion buf [] false 0 in
  let r :=
    if m_alternate_form spec then
      match scan_buffer (exponent_char (m_type spec)) buf 0 (Conversion buf [] true 0) with
      | None => None
      | Some r =>
          Some (match m_type spec with
                | TGeneral => Conversion (m_digits r) (m_exponent r) (m_append_decimal r) (zeroes precision r)
                | _ => r
                end)
      end
    else Some r in
  match r, m_case spec with
  | Some r, CUpper => Some (Conversion (map (to_upper char_signed) (m_digits r)) (map (to_upper char_signed) (m_exponent r)) (m_append_decimal r) (m_zeroes_to_append r))
  | r, _ => r
  end.

(** formatters.hpp:538-551, the lambda append_prefix *)
Definition float_prefix (spec : specifier) (is_negative : bool) : list Z :=
  if is_negative then [45]
  else match m_sign spec with
       | SAlways => [43]
       | SNegativeOnlyWithPositivePadding => [32]
       | _ => []
       end.
(** formatters.hpp:527-533 *)
Definition float_prefix_size (spec : specifier) (is_negative : bool) : Z :=
  if is_negative then 1 else match m_sign spec with SAlways | SNegativeOnlyWithPositivePadding => 1 | _ => 0 end.

(** formatters.hpp:560-600, the lambda append_number (561-579) *)
Definition float_number (r : conversion) : list Z :=
  m_digits r ++ (if m_append_decimal r then [46] else []) ++ repeat 48 (Z.to_nat (m_zeroes_to_append r)) ++ m_exponent r.

(** formatters.hpp:522-648 format; [width] and [precision] are what FormatSpecifier::width(context, 0) and
    FormatSpecifier::precision(context, 6) return; the switch 610-647 is the one of the integer formatter. *)
Definition format_float (spec : specifier) (width precision : Z) (is_negative : bool) (buf : list Z) : option (list Z) :=
  match convert_value spec (int_precision precision) buf with
  | None => None
  | Some r =>
      let value_size := u64 (float_prefix_size spec is_negative + Z.of_nat (length (m_digits r)) + Z.of_nat (length (m_exponent r)) +
                        (if m_append_decimal r then 1 else 0) + m_zeroes_to_append r) in
      let padding_size := Z.max value_size width - value_size in
      Some (align_number spec padding_size (float_prefix spec is_negative) (float_number r))
  end.
