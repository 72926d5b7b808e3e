(** Specification vocabulary for C71: floating-point numbers in JSON texts. *)
From Coq Require Import SpecFloat QArith Qabs.
From Verif Require Import Common Format_Spec Json_Model Json_Spec Float_Model Float_Spec Float_Props JsonFloat_Props FloatRead_Spec FloatRead_Model FloatRound_Props.
Local Open Scope Z_scope.

(** The formats of long double considered: binary64, the x87 format and binary128 are among them. *)
Definition long_double (ld : fp_format) : Prop := format_ok ld /\ 21 <= prec ld /\ emax ld + prec ld <= 29000.

(** The library's own conversions.  json_parser.cpp:253-259: parsing calls fly::string::convert<long double>, here [read];
    json.cpp:131-136: serializing formats with {} (six digits, C60: std::to_chars into a buffer of
    std::numeric_limits<long double>::digits characters). *)
Definition library (ld : fp_format) (read : list Z -> option spec_float) (fp : fp_text) : Prop :=
  (forall w, parse_fp fp w = read w) /\
  (forall f, value_of ld f -> exists buf, converted (buffer_size (Z.to_nat (prec ld))) plain_float 6 (magnitude_of f) buf /\
     format_float plain_float 0 6 (sign_of f) buf = Some (print_fp fp f)).

(** RFC 8259, section 6, without the sign: int [ frac ] [ exp ], and not an integer: there is a fraction or an exponent. *)
Definition real_text (q : Q) (w : list Z) : Prop :=
  exists ip fr x ex, decimal ip /\ Forall decimal_digit fr /\ exponent_suffix 101 69 x ex /\ (fr <> [] \/ ex <> []) /\
    w = ip ++ match fr with [] => [] | _ => 46 :: fr end ++ ex /\
    (q == inject_Z (positional_value 10 (ip ++ fr)) * (10 # 1) ^ (x - Z.of_nat (length fr)))%Q.

(** The number a JSON value is. *)
Definition number_in (j : json) (q : Q) : Prop :=
  match j with
  | JSigned z | JUnsigned z => q = inject_Z z
  | JFloat f => finite f /\ q = number_of f
  | _ => False
  end.
(** [j] is a number that differs from [f] by no more than a hundred thousandth of it. *)
Definition near (f : spec_float) (j : json) : Prop :=
  exists q, number_in j q /\ (Qabs (q - number_of f) * (100000 # 1) <= Qabs (number_of f))%Q.
(** Positive zero, or a number at least by a factor of two inside of the range of the normal numbers. *)
Definition moderate (ld : fp_format) (f : spec_float) : Prop :=
  match f with
  | S754_zero s => s = false
  | S754_finite _ _ _ => (2 * smallest_normal ld <= Qabs (number_of f) /\ 2 * Qabs (number_of f) <= limit ld)%Q
  | _ => False
  end.
(** A value that may be serialized; [pf]: of the floating-point numbers in it. *)
Fixpoint writable (pf : spec_float -> Prop) (j : json) : Prop :=
  match j with
  | JObject m =>
      sorted_keys m /\
      (fix go (m : list (list Z * json)) : Prop := match m with [] => True | (k, v) :: r => utf8_text k /\ writable pf v /\ go r end) m
  | JArray l => (fix go (l : list json) : Prop := match l with [] => True | v :: r => writable pf v /\ go r end) l
  | JFloat f => pf f
  | _ => well_formed j
  end.
(** The same tree, but for the numbers: non-negative integers are unsigned, and instead of a floating-point number there is a
    number near to it. *)
Inductive alike : json -> json -> Prop :=
| a_null : alike JNull JNull
| a_bool b : alike (JBool b) (JBool b)
| a_string s : alike (JString s) (JString s)
| a_signed z : alike (JSigned z) (if z <? 0 then JSigned z else JUnsigned z)
| a_unsigned z : alike (JUnsigned z) (JUnsigned z)
| a_float f j : near f j -> alike (JFloat f) j
| a_array l l' : Forall2 alike l l' -> alike (JArray l) (JArray l')
| a_object m m' : Forall2 (fun e e' => fst e = fst e' /\ alike (snd e) (snd e')) m m' -> alike (JObject m) (JObject m').
(** The conversion function of one of the two builds (C70). *)
Definition conversion (ld : fp_format) (tiny : Q -> bool) (read : list Z -> option spec_float) : Prop :=
  (forall s, read s = convert_charconv ld tiny s) \/ (forall s, read s = convert_stod ld tiny s).
