(** Model of the string formatter for values whose character type differs from the format string's
    (fly/types/string/formatters.hpp:59-153).
    Only string classes (std::basic_string, std::basic_string_view and what converts to them) reach
    this code with another character type: for arrays and pointers BasicClassifier<CharType>::size
    (classifier.hpp:191-203) calls char_traits<CharType>::length on a pointer to the other type, which
    does not compile. *)
From Verif Require Import Common Unicode_Model Format_Model.

(** formatters.hpp:116-153 append_string, the branch of 140-152: the first [value_size] units of the
    value (substr, line 131) are transcoded; nothing is written if that fails. *)
Definition append_foreign (from to : enc) (value : list Z) (value_size : Z) : list Z :=
  let view := firstn (Z.to_nat value_size) value in
  match Unicode_Model.convert from to view with
  | Some converted => converted
  | None => []
  end.

(** formatters.hpp:59-102 format; [width] is FormatSpecifier::width(context, 0), [precision] what
    FormatSpecifier::precision(context, npos) answers ([None]: npos).  actual_size is value.size()
    (classifier.hpp:199-202), counted in units of the value's own type. *)
Definition format_foreign (from to : enc) (spec : specifier) (width : Z) (precision : option Z) (value : list Z) : list Z :=
  let actual_size := Z.of_nat (length value) in
  let value_size := match precision with Some p => Z.min p actual_size | None => actual_size end in
  let padding_size := Z.max value_size width - value_size in
  let padding_char := value_or (m_fill spec) 32 in
  match m_alignment spec with
  | ALeft | ADefault => append_foreign from to value value_size ++ padding padding_size padding_char
  | ARight => padding padding_size padding_char ++ append_foreign from to value value_size
  | ACenter =>
      let left_padding := padding_size / 2 in
      let right_padding := if padding_size mod 2 =? 0 then left_padding else left_padding + 1 in
      padding left_padding padding_char ++ append_foreign from to value value_size ++ padding right_padding padding_char
  end.
