(** Model of fly::detail::BasicUnicode (fly/types/string/detail/unicode.hpp) and of the BasicString
    functions built on it (fly/types/string/string.hpp:637-749, 812-831).

    Strings are lists of code units, each given by its unsigned representation (0 <= u < 2^width).
    Iterators are the list of units not yet consumed. *)
From Verif Require Import Common.

(** The encodings: char (signed or unsigned, implementation-defined) and char8_t are UTF-8;
    char16_t (and wchar_t on Windows) UTF-16; char32_t (and wchar_t elsewhere) UTF-32. *)
Inductive enc := U8 (char_is_signed : bool) | U16 | U32.

Definition width (e : enc) : Z := match e with U8 _ => 8 | U16 => 16 | U32 => 32 end.

(** unicode.hpp:346-351 *)
Definition s_high_surrogate_min := 0xd800.
Definition s_high_surrogate_max := 0xdbff.
Definition s_low_surrogate_min := 0xdc00.
Definition s_low_surrogate_max := 0xdfff.
Definition s_max_codepoint := 0x10ffff.
Definition s_invalid_codepoint := 0xffffffff.

(** unicode.hpp:793-800 next_encoded_byte; static_cast<char32_t> sign-extends a signed char. *)
Definition to_codepoint (e : enc) (u : Z) : Z :=
  match e with U8 true => u32 (signed 8 u) | _ => u end.
Definition next_encoded_byte (e : enc) (it : list Z) : Z * list Z :=
  match it with [] => (s_invalid_codepoint, []) | u :: r => (to_codepoint e u, r) end.

(** static_cast<CharType>(value) *)
Definition to_unit (e : enc) (v : Z) : Z := wrap (width e) v.

(** unicode.hpp:329-344: leading byte, encoding mask, codepoint mask, size. *)
Definition s_utf8_leading_bytes : list (Z * Z * Z * Z) :=
  [(0, 128, 127, 1); (192, 224, 31, 2); (224, 240, 15, 3); (240, 248, 7, 4)].
Definition s_utf8_continuation_byte : Z * Z * Z * Z := (128, 192, 63, 6).

(** unicode.hpp:609-615 *)
Fixpoint find_leading (leading_byte : Z) (l : list (Z * Z * Z * Z)) : option (Z * Z) :=
  match l with
  | [] => None
  | (lead, mask, cmask, size) :: r =>
      if Z.land leading_byte mask =? lead then Some (cmask, size) else find_leading leading_byte r
  end.

(** unicode.hpp:628-640; [n] continuation bytes remain.  None = s_invalid_codepoint returned early. *)
Fixpoint continuation (e : enc) (n : nat) (shift codepoint : Z) (it : list Z) : option Z * list Z :=
  match n with
  | O => (Some codepoint, it)
  | S n' =>
      let '(b, it1) := next_encoded_byte e it in
      if negb (Z.land b 192 =? 128) then (None, it1)
      else
        let shift' := shift - 6 in
        continuation e n' shift' (Z.lor codepoint (u32 (Z.shiftl (Z.land b 63) shift'))) it1
  end.

(** unicode.hpp:601-651 codepoint_from_string, one-byte units. *)
Definition codepoint_from_string8 (e : enc) (it : list Z) : Z * list Z :=
  let '(leading_byte, it1) := next_encoded_byte e it in
  match find_leading leading_byte s_utf8_leading_bytes with
  | None => (s_invalid_codepoint, it1)
  | Some (cmask, bytes) =>
      let shift := 6 * (bytes - 1) in
      match continuation e (Z.to_nat (bytes - 1)) shift (u32 (Z.shiftl (Z.land leading_byte cmask) shift)) it1 with
      | (None, it2) => (s_invalid_codepoint, it2)
      | (Some codepoint, it2) =>
          if ((codepoint <? 0x80) && negb (bytes =? 1)) ||
             ((codepoint >=? 0x80) && (codepoint <? 0x800) && negb (bytes =? 2)) ||
             ((codepoint >=? 0x800) && (codepoint <? 0x10000) && negb (bytes =? 3))
          then (s_invalid_codepoint, it2)
          else (codepoint, it2)
      end
  end.

Definition is_high_surrogate (c : Z) : bool := (c >=? s_high_surrogate_min) && (c <=? s_high_surrogate_max).
Definition is_low_surrogate (c : Z) : bool := (c >=? s_low_surrogate_min) && (c <=? s_low_surrogate_max).

(** unicode.hpp:734-773 create_codepoint_from_surrogates; the callback advances the iterator. *)
Definition create_codepoint_from_surrogates (next : list Z -> Z * list Z) (it : list Z) : Z * list Z :=
  let '(codepoint, it1) := next it in
  if is_high_surrogate codepoint then
    let '(low_surrogate, it2) := next it1 in
    if is_low_surrogate low_surrogate
    then (u32 (u32 (Z.shiftl codepoint 10) + low_surrogate - 0x35fdc00), it2)
    else (s_invalid_codepoint, it2)
  else if is_low_surrogate codepoint then (s_invalid_codepoint, it1)
  else (codepoint, it1).

(** unicode.hpp:597-675 codepoint_from_string *)
Definition codepoint_from_string (e : enc) (it : list Z) : Z * list Z :=
  match e with
  | U8 _ => codepoint_from_string8 e it
  | U16 => create_codepoint_from_surrogates (next_encoded_byte e) it
  | U32 => next_encoded_byte e it
  end.

(** unicode.hpp:775-791 *)
Definition validate_codepoint (codepoint : Z) : bool :=
  if (codepoint >=? s_high_surrogate_min) && (codepoint <=? s_low_surrogate_max) then false
  else if codepoint >? s_max_codepoint then false
  else true.

(** unicode.hpp:419-433 *)
Definition decode_codepoint (e : enc) (it : list Z) : option Z * list Z :=
  let '(codepoint, it') := codepoint_from_string e it in
  (if validate_codepoint codepoint then Some codepoint else None, it').

(** unicode.hpp:677-732 codepoint_to_string: the units written. *)
Definition codepoint_to_string (e : enc) (codepoint : Z) : list Z :=
  match e with
  | U8 _ =>
      if codepoint <? 0x80 then [to_unit e codepoint]
      else if codepoint <? 0x800 then
        [to_unit e (Z.lor 0xc0 (Z.shiftr codepoint 6)); to_unit e (Z.lor 0x80 (Z.land codepoint 0x3f))]
      else if codepoint <? 0x10000 then
        [to_unit e (Z.lor 0xe0 (Z.shiftr codepoint 12));
         to_unit e (Z.lor 0x80 (Z.land (Z.shiftr codepoint 6) 0x3f));
         to_unit e (Z.lor 0x80 (Z.land codepoint 0x3f))]
      else
        [to_unit e (Z.lor 0xf0 (Z.shiftr codepoint 18));
         to_unit e (Z.lor 0x80 (Z.land (Z.shiftr codepoint 12) 0x3f));
         to_unit e (Z.lor 0x80 (Z.land (Z.shiftr codepoint 6) 0x3f));
         to_unit e (Z.lor 0x80 (Z.land codepoint 0x3f))]
  | U16 =>
      if codepoint <? 0x10000 then [to_unit e codepoint]
      else
        let c := u32 (codepoint - 0x10000) in
        [to_unit e (Z.lor s_high_surrogate_min (Z.shiftr c 10));
         to_unit e (Z.lor s_low_surrogate_min (Z.land c 0x3ff))]
  | U32 => [to_unit e codepoint]
  end.

(** unicode.hpp:435-449 *)
Definition encode_codepoint (e : enc) (codepoint : Z) : option (list Z) :=
  if validate_codepoint codepoint then Some (codepoint_to_string e codepoint) else None.

(** unicode.hpp:363-377, string.hpp:635-643.  Each iteration consumes a unit ([it] is non-empty), so
    the length of the string bounds the number of iterations; fuel left over is irrelevant
    (Unicode_Proofs.decode_shorter). *)
Fixpoint validate_encoding (fuel : nat) (e : enc) (it : list Z) : bool :=
  match it, fuel with
  | [], _ => true
  | _, O => false
  | _, S fuel' =>
      match decode_codepoint e it with
      | (Some _, it') => validate_encoding fuel' e it'
      | (None, _) => false
      end
  end.
Definition validate (e : enc) (value : list Z) : bool := validate_encoding (length value) e value.

(** unicode.hpp:379-417 convert_encoding / convert_encoding_into. *)
Fixpoint convert_encoding_into (fuel : nat) (from to : enc) (it : list Z) : option (list Z) :=
  match it, fuel with
  | [], _ => Some []
  | _, O => None
  | _, S fuel' =>
      match decode_codepoint from it with
      | (Some codepoint, it') =>
          match convert_encoding_into fuel' from to it' with
          | Some out => Some (codepoint_to_string to codepoint ++ out)
          | None => None
          end
      | (None, _) => None
      end
  end.
Definition convert (from to : enc) (value : list Z) : option (list Z) :=
  convert_encoding_into (length value) from to value.

(** * Escape sequences *)

(** unicode.hpp:508-518 to_hex: digit i is s_digits[(codepoint >> 4*(length-1-i)) & 0xf]. *)
Definition s_digits : list Z := [48;49;50;51;52;53;54;55;56;57;97;98;99;100;101;102].
Fixpoint to_hex (length : nat) (codepoint : Z) : list Z :=
  match length with
  | O => []
  | S n => nth (Z.to_nat (Z.land (Z.shiftr codepoint (4 * Z.of_nat n)) 0x0f)) s_digits 0 :: to_hex n codepoint
  end.

(** unicode.hpp:503-552 escape_codepoint<UnicodePrefix>(codepoint); [upper]: UnicodePrefix == 'U'.
    The recursive calls (surrogates, always in [0xd7c0+64, 0xdfff]) are unfolded. *)
Definition escape_codepoint (upper : bool) (codepoint : Z) : list Z :=
  if (codepoint <=? 0x1f) || (codepoint >=? 0x7f) then
    if codepoint <=? 0xffff then [92; 117] ++ to_hex 4 codepoint
    else if upper then [92; 85] ++ to_hex 8 codepoint
    else
      let high_surrogate := u32 (0xd7c0 + Z.shiftr codepoint 10) in
      let low_surrogate := u32 (0xdc00 + Z.land codepoint 0x3ff) in
      ([92; 117] ++ to_hex 4 high_surrogate) ++ ([92; 117] ++ to_hex 4 low_surrogate)
  else [codepoint].

(** string.hpp:666-686 escape_all_codepoints, unicode.hpp:451-464. *)
Fixpoint escape_all (fuel : nat) (e : enc) (upper : bool) (it : list Z) : option (list Z) :=
  match it, fuel with
  | [], _ => Some []
  | _, O => None
  | _, S fuel' =>
      match decode_codepoint e it with
      | (Some codepoint, it') =>
          match escape_all fuel' e upper it' with
          | Some out => Some (escape_codepoint upper codepoint ++ out)
          | None => None
          end
      | (None, _) => None
      end
  end.
Definition escape_all_codepoints (e : enc) (upper : bool) (value : list Z) : option (list Z) :=
  escape_all (length value) e upper value.

(** unicode.hpp:572-594, the digit loop: [n] digits expected. Comparisons on the unit: a negative
    char is below every digit, so using the unsigned representation gives the same branches. *)
Fixpoint unescape_digits (n : nat) (codepoint : Z) (it : list Z) : Z * list Z :=
  match n, it with
  | O, _ => (codepoint, it)
  | S _, [] => (s_invalid_codepoint, [])
  | S n', c :: r =>
      let shift := 4 * Z.of_nat n' in
      if (48 <=? c) && (c <=? 57) then unescape_digits n' (u32 (codepoint + Z.shiftl (c - 0x30) shift)) r
      else if (65 <=? c) && (c <=? 70) then unescape_digits n' (u32 (codepoint + Z.shiftl (c - 0x37) shift)) r
      else if (97 <=? c) && (c <=? 102) then unescape_digits n' (u32 (codepoint + Z.shiftl (c - 0x57) shift)) r
      else (s_invalid_codepoint, it)
  end.

(** unicode.hpp:558-595 unescape_codepoint<UnicodePrefix>. *)
Definition unescape_prefixed (upper : bool) (it : list Z) : Z * list Z :=
  match it with
  | [] => (s_invalid_codepoint, it)
  | c :: r =>
      if negb (c =? 92) then (s_invalid_codepoint, it)
      else match r with
           | [] => (s_invalid_codepoint, r)
           | p :: r' =>
               if negb (p =? (if upper then 85 else 117)) then (s_invalid_codepoint, r)
               else unescape_digits (if upper then 8 else 4) 0 r'
           end
  end.

Definition escaped_with (it : list Z) (ch : Z) : bool :=
  match it with c :: p :: _ => (c =? 92) && (p =? ch) | _ => false end.

(** unicode.hpp:466-497 unescape_codepoint(it, end). *)
Definition unescape_codepoint (e : enc) (it : list Z) : option (list Z) * list Z :=
  let '(codepoint, it') :=
    if escaped_with it 117 then create_codepoint_from_surrogates (unescape_prefixed false) it
    else if escaped_with it 85 then unescape_prefixed true it
    else (s_invalid_codepoint, it) in
  (encode_codepoint e codepoint, it').

(** string.hpp:698-740 unescape_all_codepoints. *)
Fixpoint unescape_all (fuel : nat) (e : enc) (it : list Z) : option (list Z) :=
  match it, fuel with
  | [], _ => Some []
  | _, O => None
  | c :: r, S fuel' =>
      let copy := match unescape_all fuel' e r with Some out => Some (c :: out) | None => None end in
      match r with
      | p :: _ =>
          if (c =? 92) && ((p =? 117) || (p =? 85)) then
            match unescape_codepoint e it with
            | (Some s, it') => match unescape_all fuel' e it' with Some out => Some (s ++ out) | None => None end
            | (None, _) => None
            end
          else copy
      | [] => copy
      end
  end.
Definition unescape_all_codepoints (e : enc) (value : list Z) : option (list Z) :=
  unescape_all (length value) e value.
