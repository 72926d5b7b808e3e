(** Model of format string parsing and substitution (fly/types/string/detail/format_parse_context.hpp,
    format_specifier.hpp, format_string.hpp, format.hpp, format_context.hpp, format_parameters.hpp).
    User-defined types are modelled for formatters without a parse method; their output, and that of
    floating-point values, is an arbitrary function of the specifier. *)
From Verif Require Import Common Lexer_Model Format_Model.

(** format_parse_context.hpp:100-113.  m_error is only recorded as present or absent. *)
Record pctx := PCtx {
  lex : lexer;
  m_next_position : Z;
  m_expect_no_positions : bool;
  m_expect_all_positions : bool;
  m_error : bool }.
(** 186-189 on_error *)
Definition on_error_if (b : bool) (c : pctx) : pctx :=
  PCtx (lex c) (m_next_position c) (m_expect_no_positions c) (m_expect_all_positions c) (m_error c || b).
Definition with_lexer (c : pctx) (l : lexer) : pctx :=
  PCtx l (m_next_position c) (m_expect_no_positions c) (m_expect_all_positions c) (m_error c).

(** consume_if(ch) on the context's lexer *)
Definition ctx_consume_if (c : pctx) (ch : Z) : res (bool * pctx) :=
  let! (b, l) := consume_if_char (lex c) ch in Ok (b, with_lexer c l).

(** 130-153 next_position *)
Definition next_position (c : pctx) : res (Z * pctx) :=
  let! (specified, l) := consume_number (lex c) in
  let '(position, next, none, all) :=
    match specified with
    | Some n => (n, m_next_position c, m_expect_no_positions c, true)
    | None => (m_next_position c, u64 (m_next_position c + 1), true, m_expect_all_positions c)
    end in
  Ok (position, PCtx l next none all (m_error c || (all && none))).

(** 156-168 parameter_type *)
Definition parameter_type (params : list ptype) (c : pctx) (position : Z) : option ptype * pctx :=
  if position >=? Z.of_nat (length params) then (None, on_error_if true c)
  else (lookup params (Z.to_nat position), c).

(** format_specifier.hpp:691-719 infer_type *)
Definition infer (p : option ptype) : ftype :=
  match p with
  | Some PCharacter => TCharacter
  | Some PString => TString
  | Some PPointer => TPointer
  | Some PIntegral => TDecimal
  | Some PFloatingPoint => TGeneral
  | Some PBoolean => TString
  | _ => TNone
  end.

(** Field updates of a specifier. *)
Definition set_fill (s : specifier) v := Specifier (m_position s) v (m_alignment s) (m_sign s) (m_alternate_form s) (m_zero_padding s) (m_width s) (m_width_position s) (m_precision s) (m_precision_position s) (m_locale_specific_form s) (m_type s) (m_case s) (m_parse_index s) (m_size s).
Definition set_alignment (s : specifier) v := Specifier (m_position s) (m_fill s) v (m_sign s) (m_alternate_form s) (m_zero_padding s) (m_width s) (m_width_position s) (m_precision s) (m_precision_position s) (m_locale_specific_form s) (m_type s) (m_case s) (m_parse_index s) (m_size s).
Definition set_sign (s : specifier) v := Specifier (m_position s) (m_fill s) (m_alignment s) v (m_alternate_form s) (m_zero_padding s) (m_width s) (m_width_position s) (m_precision s) (m_precision_position s) (m_locale_specific_form s) (m_type s) (m_case s) (m_parse_index s) (m_size s).
Definition set_alternate (s : specifier) v := Specifier (m_position s) (m_fill s) (m_alignment s) (m_sign s) v (m_zero_padding s) (m_width s) (m_width_position s) (m_precision s) (m_precision_position s) (m_locale_specific_form s) (m_type s) (m_case s) (m_parse_index s) (m_size s).
Definition set_zero (s : specifier) v := Specifier (m_position s) (m_fill s) (m_alignment s) (m_sign s) (m_alternate_form s) v (m_width s) (m_width_position s) (m_precision s) (m_precision_position s) (m_locale_specific_form s) (m_type s) (m_case s) (m_parse_index s) (m_size s).
Definition set_width (s : specifier) v p := Specifier (m_position s) (m_fill s) (m_alignment s) (m_sign s) (m_alternate_form s) (m_zero_padding s) v p (m_precision s) (m_precision_position s) (m_locale_specific_form s) (m_type s) (m_case s) (m_parse_index s) (m_size s).
Definition set_precision (s : specifier) v p := Specifier (m_position s) (m_fill s) (m_alignment s) (m_sign s) (m_alternate_form s) (m_zero_padding s) (m_width s) (m_width_position s) v p (m_locale_specific_form s) (m_type s) (m_case s) (m_parse_index s) (m_size s).
Definition set_locale (s : specifier) v := Specifier (m_position s) (m_fill s) (m_alignment s) (m_sign s) (m_alternate_form s) (m_zero_padding s) (m_width s) (m_width_position s) (m_precision s) (m_precision_position s) v (m_type s) (m_case s) (m_parse_index s) (m_size s).
Definition set_type (s : specifier) v c := Specifier (m_position s) (m_fill s) (m_alignment s) (m_sign s) (m_alternate_form s) (m_zero_padding s) (m_width s) (m_width_position s) (m_precision s) (m_precision_position s) (m_locale_specific_form s) v c (m_parse_index s) (m_size s).
Definition set_parse_index (s : specifier) v := Specifier (m_position s) (m_fill s) (m_alignment s) (m_sign s) (m_alternate_form s) (m_zero_padding s) (m_width s) (m_width_position s) (m_precision s) (m_precision_position s) (m_locale_specific_form s) (m_type s) (m_case s) v (m_size s).
Definition set_size (s : specifier) v := Specifier (m_position s) (m_fill s) (m_alignment s) (m_sign s) (m_alternate_form s) (m_zero_padding s) (m_width s) (m_width_position s) (m_precision s) (m_precision_position s) (m_locale_specific_form s) (m_type s) (m_case s) (m_parse_index s) v.
Definition set_position (s : specifier) v := Specifier v (m_fill s) (m_alignment s) (m_sign s) (m_alternate_form s) (m_zero_padding s) (m_width s) (m_width_position s) (m_precision s) (m_precision_position s) (m_locale_specific_form s) (m_type s) (m_case s) (m_parse_index s) (m_size s).

(** format_specifier.hpp:533-555 parse_fill_and_alignment *)
Definition parse_fill_and_alignment (c : pctx) (s : specifier) : res (pctx * specifier) :=
  let! next := peek (lex c) 1 in
  let is_align := match next with Some n => (n =? 60) || (n =? 62) || (n =? 94) | None => false end in
  let! (c1, s1) :=
    (if is_align then
       match consume (lex c) with
       | (Some ch, l) => Ok (with_lexer c l, set_fill s (Some ch))
       | (None, _) => UB (* value() of an empty optional throws *)
       end
     else Ok (c, s)) in
  let! (lt, c2) := ctx_consume_if c1 60 in
  if lt then Ok (c2, set_alignment s1 ALeft)
  else
    let! (gt, c3) := ctx_consume_if c2 62 in
    if gt then Ok (c3, set_alignment s1 ARight)
    else
      let! (caret, c4) := ctx_consume_if c3 94 in
      if caret then Ok (c4, set_alignment s1 ACenter) else Ok (c4, s1).

(** 559-573 parse_sign *)
Definition parse_sign (c : pctx) (s : specifier) : res (pctx * specifier) :=
  let! (plus, c1) := ctx_consume_if c 43 in
  if plus then Ok (c1, set_sign s SAlways)
  else
    let! (minus, c2) := ctx_consume_if c1 45 in
    if minus then Ok (c2, set_sign s SNegativeOnly)
    else
      let! (space, c3) := ctx_consume_if c2 32 in
      if space then Ok (c3, set_sign s SNegativeOnlyWithPositivePadding) else Ok (c3, s).

(** 578-589 parse_alternate_form_and_zero_padding *)
Definition parse_alternate_form_and_zero_padding (c : pctx) (s : specifier) : res (pctx * specifier) :=
  let! (number, c1) := ctx_consume_if c 35 in
  let s1 := if number then set_alternate s true else s in
  let! (zero, c2) := ctx_consume_if c1 48 in
  Ok (c2, if zero && match m_alignment s1 with ADefault => true | _ => false end then set_zero s1 true else s1).

(** 635-657 parse_nested_specifier; only m_position of the result is used. *)
Definition parse_nested_specifier (params : list ptype) (c : pctx) : res (option Z * pctx) :=
  let! (position, c1) := next_position c in
  let '(_, c2) := parameter_type params c1 position in
  let! (closed, c3) := ctx_consume_if c2 125 in
  if closed then Ok (Some position, c3) else Ok (None, on_error_if true c3).

(** 593-606 parse_width *)
Definition parse_width (params : list ptype) (c : pctx) (s : specifier) : res (pctx * specifier) :=
  let! (width, l) := consume_number (lex c) in
  let c1 := with_lexer c l in
  match width with
  | Some w => Ok (c1, set_width s (Some w) (m_width_position s))
  | None =>
      let! (brace, c2) := ctx_consume_if c1 123 in
      if brace then
        let! (nested, c3) := parse_nested_specifier params c2 in
        Ok (c3, match nested with Some p => set_width s (m_width s) (Some p) | None => s end)
      else Ok (c2, s)
  end.

(** 610-631 parse_precision *)
Definition parse_precision (params : list ptype) (c : pctx) (s : specifier) : res (pctx * specifier) :=
  let! (decimal, c1) := ctx_consume_if c 46 in
  if decimal then
    let! (precision, l) := consume_number (lex c1) in
    let c2 := with_lexer c1 l in
    match precision with
    | Some p => Ok (c2, set_precision s (Some p) (m_precision_position s))
    | None =>
        let! (brace, c3) := ctx_consume_if c2 123 in
        if brace then
          let! (nested, c4) := parse_nested_specifier params c3 in
          Ok (c4, match nested with Some p => set_precision s (m_precision s) (Some p) | None => s end)
        else Ok (on_error_if true c3, s)
    end
  else Ok (c1, s).

(** 662-668 parse_locale_specific_form *)
Definition parse_locale (c : pctx) (s : specifier) : res (pctx * specifier) :=
  let! (l, c1) := ctx_consume_if c 76 in Ok (c1, if l then set_locale s true else s).

(** 434-453 s_type_map and 926-937 type_of *)
Definition type_of (ch : Z) : option ftype :=
  if ch =? 99 then Some TCharacter else if ch =? 115 then Some TString else if ch =? 112 then Some TPointer
  else if (ch =? 98) || (ch =? 66) then Some TBinary else if ch =? 111 then Some TOctal
  else if ch =? 100 then Some TDecimal else if (ch =? 120) || (ch =? 88) then Some THex
  else if (ch =? 97) || (ch =? 65) then Some THexFloat else if (ch =? 101) || (ch =? 69) then Some TScientific
  else if (ch =? 102) || (ch =? 70) then Some TFixed else if (ch =? 103) || (ch =? 71) then Some TGeneral
  else None.

(** 672-687 parse_type *)
Definition parse_type (c : pctx) (s : specifier) : res (pctx * specifier) :=
  let! next := peek (lex c) 0 in
  match next with
  | Some ch =>
      match type_of ch with
      | Some t =>
          let '(_, l) := consume (lex c) in
          Ok (with_lexer c l, set_type s t (if is_upper ch then CUpper else m_case s))
      | None => Ok (c, s)
      end
  | None => Ok (c, s)
  end.

(** 941-958 is_numeric *)
Definition is_numeric (t : ftype) : bool :=
  match t with TBinary | TOctal | TDecimal | THex | THexFloat | TScientific | TFixed | TGeneral => true | _ => false end.

(** 804-857 validate_type: true when an error is raised *)
Definition type_error (p : ptype) (t : ftype) : bool :=
  match p with
  | PCharacter | PIntegral => match t with TCharacter | TBinary | TOctal | TDecimal | THex => false | _ => true end
  | PString => match t with TString => false | _ => true end
  | PPointer => match t with TPointer => false | _ => true end
  | PFloatingPoint => match t with THexFloat | TScientific | TFixed | TGeneral => false | _ => true end
  | PBoolean => match t with TCharacter | TString | TBinary | TOctal | TDecimal | THex => false | _ => true end
  | PUserDefined => false
  end.
Definition is_integral (p : option ptype) : bool := match p with Some PIntegral => true | _ => false end.

(** 723-798 validate; the fill comparison casts to the unsigned character type of [bits] bits. *)
Definition validate (bits : Z) (params : list ptype) (c : pctx) (s : specifier) : pctx :=
  let '(p, c0) := parameter_type params c (m_position s) in
  let c1 := on_error_if (match m_fill s with Some f => (f =? 123) || (f =? 125) || (wrap bits f >=? 128) | None => false end) c0 in
  let c2 := on_error_if (match m_sign s with SDefault => false | _ => negb (is_numeric (m_type s)) end) c1 in
  let c3 := on_error_if (m_alternate_form s && (negb (is_numeric (m_type s)) || match m_type s with TDecimal => true | _ => false end)) c2 in
  let c4 := on_error_if (m_zero_padding s && negb (is_numeric (m_type s))) c3 in
  let c5 :=
    match m_width s, m_width_position s with
    | Some 0, _ => on_error_if true c4
    | _, Some w => let '(q, c4') := parameter_type params c4 w in on_error_if (negb (is_integral q)) c4'
    | _, None => c4
    end in
  let c6 :=
    match m_precision s, m_precision_position s with
    | None, None => c5
    | _, position =>
        match p with
        | Some PString | Some PFloatingPoint =>
            match position with
            | Some w => let '(q, c5') := parameter_type params c5 w in on_error_if (negb (is_integral q)) c5'
            | None => c5
            end
        | _ => on_error_if true c5
        end
    end in
  let c7 := on_error_if (m_locale_specific_form s && match p with Some PIntegral | Some PFloatingPoint | Some PBoolean => false | _ => true end) c6 in
  match p, m_type s with
  | Some _, TNone | None, _ => c7
  | Some q, t => on_error_if (type_error q t) c7
  end.

(** 511-529 parse *)
Definition parse_options (bits : Z) (params : list ptype) (c : pctx) (s : specifier) : res (pctx * specifier) :=
  let! (c1, s1) := parse_fill_and_alignment c s in
  let! (c2, s2) := parse_sign c1 s1 in
  let! (c3, s3) := parse_alternate_form_and_zero_padding c2 s2 in
  let! (c4, s4) := parse_width params c3 s3 in
  let! (c5, s5) := parse_precision params c4 s4 in
  let! (c6, s6) := parse_locale c5 s5 in
  let! (c7, s7) := parse_type c6 s6 in
  let c8 := validate bits params c7 s7 in
  if m_error c8 then Ok (c8, s7)
  else
    let! (closed, c9) := ctx_consume_if c8 125 in
    Ok (on_error_if (negb closed) c9, s7).

(** format_string.hpp:158-187 parse_specifier; 191-224 for a user-defined type without parse method. *)
Definition parse_specifier (bits : Z) (params : list ptype) (c : pctx) : res (pctx * specifier) :=
  let starting_position := u64 (index (lex c) - 1) in
  let! (position, c1) := next_position c in
  let '(p, c2) := parameter_type params c1 position in
  let s := set_parse_index (set_type (set_position default_specifier position) (infer p) CLower) (index (lex c2)) in
  let! (colon, c3) := ctx_consume_if c2 58 in
  let! (c5, s5) :=
    (if colon then
       let s' := set_parse_index s (index (lex c3)) in
       let '(q, c4) := parameter_type params c3 position in
       match q with
       | Some PUserDefined =>
           let! (closed, c4') := ctx_consume_if c4 125 in Ok (on_error_if (negb closed) c4', s')
       | _ => parse_options bits params c4 s'
       end
     else
       let! (closed, c4) := ctx_consume_if c3 125 in Ok (on_error_if (negb closed) c4, s)) in
  Ok (c5, set_size s5 (u64 (index (lex c5) - starting_position))).

(** format_string.hpp:99-132, the constructor's loop; the lexer advances every iteration. *)
Fixpoint parse_loop (fuel : nat) (bits : Z) (params : list ptype) (c : pctx) (specs : list specifier) : res (pctx * list specifier) :=
  match fuel with
  | O => UB
  | S f =>
      if m_error c then Ok (c, specs)
      else
        match consume (lex c) with
        | (None, l) => Ok (with_lexer c l, specs)
        | (Some ch, l) =>
            let c1 := with_lexer c l in
            if ch =? 123 then
              let! (escaped, c2) := ctx_consume_if c1 123 in
              if escaped then parse_loop f bits params c2 specs
              else if (64 <=? length specs)%nat then parse_loop f bits params (on_error_if true c2) specs
              else let! (c3, s) := parse_specifier bits params c2 in parse_loop f bits params c3 (specs ++ [s])
            else if ch =? 125 then
              let! (escaped, c2) := ctx_consume_if c1 125 in
              if escaped then parse_loop f bits params c2 specs else parse_loop f bits params (on_error_if true c2) specs
            else parse_loop f bits params c1 specs
        end
  end.
(** The parsed specifiers, or [None] when the string is rejected. *)
Definition parse_format (bits : Z) (params : list ptype) (format : list Z) : res (option (list specifier)) :=
  let! (c, specs) := parse_loop (S (length format)) bits params (PCtx (Lexer format 0) 0 false false false) [] in
  Ok (if m_error c then None else Some specs).

(** * Substitution *)

(** Format parameters with their values.  Characters go to the integral formatter (concepts.hpp:99). *)
Inductive arg :=
| ACharacter (w : Z) (is_signed : bool) (v : Z)
| AString (v : list Z)
| APointer (address : Z)
| AInteger (w : Z) (is_signed : bool) (v : Z)
| AFloating (out : specifier -> list Z)
| ABoolean (v : bool)
| AUser (out : list Z).
(** format_parameter_type.hpp:31-61 *)
Definition type_of_arg (a : arg) : ptype :=
  match a with
  | ACharacter _ _ _ => PCharacter | AString _ => PString | APointer _ => PPointer
  | AInteger _ _ _ => PIntegral | AFloating _ => PFloatingPoint | ABoolean _ => PBoolean | AUser _ => PUserDefined
  end.

(** format_context.hpp:80-89 arg *)
Definition context_arg (args : list arg) (position : Z) : option arg :=
  if position <? Z.of_nat (length args) then lookup args (Z.to_nat position) else None.
(** format_specifier.hpp:887-909 resolve *)
Definition resolve (args : list arg) (position : Z) : option Z :=
  match context_arg args position with
  | Some (AInteger _ false v) | Some (ACharacter _ false v) => Some v
  | Some (AInteger _ true v) | Some (ACharacter _ true v) => if v >=? 0 then Some v else None
  | _ => None
  end.
(** 860-883 width, precision *)
Definition resolve_width (args : list arg) (s : specifier) (fallback : Z) : Z :=
  match m_width_position s with
  | Some p => value_or (resolve args p) fallback
  | None => value_or (m_width s) fallback
  end.
Definition resolve_precision (args : list arg) (s : specifier) (fallback : Z) : Z :=
  match m_precision_position s with
  | Some p => value_or (resolve args p) fallback
  | None => value_or (m_precision s) fallback
  end.
(** format_parameters.hpp:509-542 format and formatters.hpp; the fallbacks are 0 for the width and
    npos for the precision (formatters.hpp:62-63). *)
Definition npos : Z := 0xffffffffffffffff.
Definition format_arg (char_max : Z) (args : list arg) (s : specifier) (a : arg) : res (list Z) :=
  let width := resolve_width args s 0 in
  match a with
  | ACharacter w sg v | AInteger w sg v => format_integer w sg char_max s width v
  | AString v => Ok (format_string_value s width (Some (resolve_precision args s npos)) v)
  | APointer v => format_pointer char_max s width v
  | AFloating out => Ok (out s)
  | ABoolean v =>
      format_bool char_max s width (Some (resolve_precision args s npos)) v
  | AUser out => Ok out
  end.

(** format.hpp:58-86, the loop over the format string. *)
Fixpoint format_loop (fuel : nat) (char_max : Z) (args : list arg) (view : list Z) (pos : Z) (specs : list specifier) : res (list Z) :=
  if pos >=? Z.of_nat (length view) then Ok []
  else
    match fuel with
    | O => UB
    | S f =>
        match lookup view (Z.to_nat pos) with
        | None => UB
        | Some ch =>
            if ch =? 123 then
              match lookup view (Z.to_nat (pos + 1)) with
              | None => UB (* view[size()] *)
              | Some next =>
                  if next =? 123 then let! rest := format_loop f char_max args view (pos + 2) specs in Ok (ch :: rest)
                  else
                    match specs with
                    | [] => UB (* dereference of an empty optional *)
                    | s :: specs' =>
                        let! out := match context_arg args (m_position s) with
                                    | Some a => format_arg char_max args s a
                                    | None => Ok []
                                    end in
                        let! rest := format_loop f char_max args view (pos + m_size s) specs' in Ok (out ++ rest)
                    end
              end
            else if ch =? 125 then let! rest := format_loop f char_max args view (pos + 2) specs in Ok (ch :: rest)
            else let! rest := format_loop f char_max args view (pos + 1) specs in Ok (ch :: rest)
        end
    end.
(** The text "Ignored invalid formatter: " (format.hpp:47-50), followed by the message. *)
Definition ignored_text : list Z :=
  [73; 103; 110; 111; 114; 101; 100; 32; 105; 110; 118; 97; 108; 105; 100; 32; 102; 111; 114; 109; 97; 116; 116; 101; 114; 58; 32].
Definition format_to (bits char_max : Z) (error_message : list Z) (format : list Z) (args : list arg) : res (list Z) :=
  let! specs := parse_format bits (map type_of_arg args) format in
  match specs with
  | None => Ok (ignored_text ++ error_message)
  | Some ss => format_loop (S (length format)) char_max args format 0 ss
  end.
