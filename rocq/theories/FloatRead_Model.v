(** Model of the conversion of text to floating-point numbers (fly/types/string/detail/converter.hpp:25-134).
    Where the library has floating-point std::from_chars (__cpp_lib_to_chars, fly.hpp:39-43) the general template is used,
    otherwise the specializations for float, double and long double with std::stof, std::stod and std::stold.
    The standard functions are written out as [charconv.from.chars], [string.conversions] and C's strtod ("C" locale) describe
    them; [tiny] says for which non-zero magnitudes an implementation reports underflow (none, those that become zero, or the
    subnormal ones). A floating-point type is a binary format, as in JsonFloat_Model. *)
From Coq Require Import SpecFloat QArith.
From Verif Require Import Common Format_Model Json_Model.
Open Scope Z_scope.

(** ** Rounding of n / d (0 <= n, 0 < d) to nearest, ties to even *)
(** The integer nearest to n / d. *)
Definition nearest_int (n d : Z) : Z :=
  let q := n / d in let r := 2 * (n mod d) in
  if r <? d then q else if d <? r then q + 1 else if Z.even q then q else q + 1.
(** 2^k <= n / d *)
Definition at_least_pow2 (n d k : Z) : bool := d * 2 ^ Z.max k 0 <=? n * 2 ^ Z.max (- k) 0.
(** The exponent of n / d, that of its last place in the format. *)
Definition exponent_of (ff : fp_format) (n d : Z) : Z :=
  let l := Z.log2 n - Z.log2 d in
  let k := if at_least_pow2 n d l then l else l - 1 in
  Z.max (k - prec ff + 1) (emin (prec ff) (emax ff)).
Inductive magnitude_read := TooLarge | Zero_ | Number (m : positive) (e : Z).
Definition round_magnitude (ff : fp_format) (n d : Z) : magnitude_read :=
  if n =? 0 then Zero_ else
  let e := exponent_of ff n d in
  let m := nearest_int (n * 2 ^ Z.max (- e) 0) (d * 2 ^ Z.max e 0) in
  let '(m, e) := if m =? 2 ^ prec ff then (2 ^ (prec ff - 1), e + 1) else (m, e) in
  if e >? emax ff - prec ff then TooLarge
  else match m with Zpos m => Number m e | _ => Zero_ end.

(** ** The subject sequence *)
Fixpoint span (f : Z -> bool) (s : list Z) : list Z * list Z :=
  match s with
  | c :: r => if f c then let '(a, b) := span f r in (c :: a, b) else ([], s)
  | [] => ([], [])
  end.
(** The rest if the text begins with [c]. *)
Definition after (c : Z) (s : list Z) : option (list Z) :=
  match s with x :: r => if x =? c then Some r else None | [] => None end.
Definition is_decimal (c : Z) : bool := (48 <=? c) && (c <=? 57).
Definition is_hexadecimal (c : Z) : bool := is_decimal c || (65 <=? c) && (c <=? 70) || (97 <=? c) && (c <=? 102).
Definition digit_number (c : Z) : Z := if is_decimal c then c - 48 else if c <=? 70 then c - 55 else c - 87.
Definition digits_number (base : Z) (ds : list Z) : Z := fold_left (fun a c => a * base + digit_number c) ds 0.

(** Digits with an optional point; at least one digit.  The digits, how many follow the point, and the rest. *)
Definition scan_mantissa (digit : Z -> bool) (s : list Z) : option (list Z * Z * list Z) :=
  let '(ip, r) := span digit s in
  let '(fp, r) := match after 46 r with Some r' => span digit r' | None => ([], r) end in
  match ip ++ fp with
  | [] => None
  | ds => Some (ds, Z.of_nat (length fp), r)
  end.
(** An optional sign. *)
Definition scan_sign (s : list Z) : bool * list Z :=
  match after 45 s with Some r => (true, r) | None => match after 43 s with Some r => (false, r) | None => (false, s) end end.
(** An exponent, if there is a complete one. *)
Definition scan_exponent (lower upper : Z) (s : list Z) : Z * list Z :=
  match s with
  | c :: r =>
      if (c =? lower) || (c =? upper) then
        let '(negative, r) := scan_sign r in
        match span is_decimal r with
        | ([], _) => (0, s)
        | (ds, r) => (if negative then - digits_number 10 ds else digits_number 10 ds, r)
        end
      else (0, s)
  | [] => (0, [])
  end.
(** n / d and the rest *)
Definition scan_decimal (s : list Z) : option (Z * Z * list Z) :=
  match scan_mantissa is_decimal s with
  | None => None
  | Some (ds, places, r) =>
      let '(x, r) := scan_exponent 101 69 r in
      let k := x - places in
      Some (digits_number 10 ds * 10 ^ Z.max k 0, 10 ^ Z.max (- k) 0, r)
  end.
Definition scan_hexadecimal (s : list Z) : option (Z * Z * list Z) :=
  match after 48 s with
  | Some (x :: r) =>
      if (x =? 120) || (x =? 88) then
        match scan_mantissa is_hexadecimal r with
        | None => None
        | Some (ds, places, r) =>
            let '(x, r) := scan_exponent 112 80 r in
            let k := x - 4 * places in
            Some (digits_number 16 ds * 2 ^ Z.max k 0, 2 ^ Z.max (- k) 0, r)
        end
      else None
  | _ => None
  end.

(** Words without regard to case. *)
Definition lower_case (c : Z) : Z := if (65 <=? c) && (c <=? 90) then c + 32 else c.
Fixpoint scan_word (w s : list Z) : option (list Z) :=
  match w, s with
  | [], _ => Some s
  | a :: w', c :: s' => if lower_case c =? a then scan_word w' s' else None
  | _, [] => None
  end.
Definition is_payload (c : Z) : bool := is_decimal c || (97 <=? lower_case c) && (lower_case c <=? 122) || (c =? 95).
Inductive special := SInfinity | SNan.
Definition scan_special (s : list Z) : option (special * list Z) :=
  match scan_word [105; 110; 102] s with (* inf *)
  | Some r => Some (SInfinity, match scan_word [105; 110; 105; 116; 121] r with Some r' => r' | None => r end) (* inity *)
  | None =>
      match scan_word [110; 97; 110] s with (* nan *)
      | Some r =>
          Some (SNan, match after 40 r with (* ( *)
                      | Some r' => match after 41 (snd (span is_payload r')) with Some r'' => r'' | None => r end
                      | None => r
                      end)
      | None => None
      end
  end.

(** ** The value of what was read *)
Inductive errc := NoError | InvalidArgument | ResultOutOfRange.
Definition read_value (ff : fp_format) (tiny : Q -> bool) (negative : bool) (n d : Z) : errc * spec_float :=
  match round_magnitude ff n d with
  | TooLarge => (ResultOutOfRange, S754_infinity negative)
  | r => if tiny (n # Z.to_pos d) then (ResultOutOfRange, S754_zero negative)
         else (NoError, match r with Number m e => S754_finite negative m e | _ => S754_zero negative end)
  end.
Definition special_value (negative : bool) (v : special) : spec_float :=
  match v with SInfinity => S754_infinity negative | SNan => S754_nan end.

(** std::from_chars(begin, end, value), std::chars_format::general: only a minus sign, no white space, no 0x.
    [fc_ptr]: how many characters were read. *)
Record from_chars_result := FromCharsResult { fc_ptr : nat; fc_ec : errc; fc_value : spec_float }.
Definition from_chars (ff : fp_format) (tiny : Q -> bool) (s : list Z) : from_chars_result :=
  let '(negative, r) := match after 45 s with Some r => (true, r) | None => (false, s) end in
  match scan_special r with
  | Some (v, rest) => FromCharsResult (length s - length rest) NoError (special_value negative v)
  | None =>
      match scan_decimal r with
      | Some (n, d, rest) => let '(ec, f) := read_value ff tiny negative n d in FromCharsResult (length s - length rest) ec f
      | None => FromCharsResult 0 InvalidArgument (S754_zero false)
      end
  end.

(** std::stod and its relatives: strtod, and an exception if nothing was read or errno is ERANGE. *)
Inductive stod_result := Thrown | Converted (result : spec_float) (index : nat).
Definition is_space (c : Z) : bool := (c =? 32) || (9 <=? c) && (c <=? 13).
Definition stod (ff : fp_format) (tiny : Q -> bool) (s : list Z) : stod_result :=
  let '(_, r) := span is_space s in
  let '(negative, r) := scan_sign r in
  match scan_special r with
  | Some (v, rest) => Converted (special_value negative v) (length s - length rest)
  | None =>
      match match scan_hexadecimal r with Some x => Some x | None => scan_decimal r end with
      | Some (n, d, rest) =>
          match read_value ff tiny negative n d with
          | (NoError, f) => Converted f (length s - length rest)
          | _ => Thrown
          end
      | None => Thrown
      end
  end.

(** converter.hpp:27-42 Converter<T>::convert; result.ptr != end or an error: std::nullopt *)
Definition convert_charconv (ff : fp_format) (tiny : Q -> bool) (value : list Z) : option spec_float :=
  let result := from_chars ff tiny value in
  if negb (fc_ptr result =? length value)%nat then None
  else match fc_ec result with NoError => Some (fc_value result) | _ => None end.
(** converter.hpp:48-70, 74-96, 100-122 Converter<float>, <double>, <long double>::convert *)
Definition convert_stod (ff : fp_format) (tiny : Q -> bool) (value : list Z) : option spec_float :=
  match stod ff tiny value with
  | Thrown => None
  | Converted result index => if negb (index =? length value)%nat then None else Some result
  end.
