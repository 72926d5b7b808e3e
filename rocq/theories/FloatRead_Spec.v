(** Specification vocabulary for C70: texts of numbers, and the floating-point number nearest to a rational one. *)
From Coq Require Import SpecFloat QArith Qabs.
From Verif Require Import Common Format_Spec Json_Model.
Open Scope Q_scope.

(** ** Numbers *)
Definition finite (f : spec_float) : Prop := match f with S754_zero _ | S754_finite _ _ _ => True | _ => False end.
Definition sign_of (f : spec_float) : bool := match f with S754_zero s | S754_infinity s | S754_finite s _ _ => s | S754_nan => false end.
(** The number a finite [f] is: (-1)^s m 2^e. *)
Definition number_of (f : spec_float) : Q :=
  match f with
  | S754_finite s m e => inject_Z (if s then Zneg m else Zpos m) * (2 # 1) ^ e
  | _ => 0
  end.
Definition even_mantissa (f : spec_float) : Prop := match f with S754_finite _ m _ => Z.Even (Zpos m) | _ => True end.
(** [f] is a value of the format. *)
Definition value_of (ff : fp_format) (f : spec_float) : Prop := valid_binary (prec ff) (emax ff) f = true.
(** [f] is the finite value nearest to [q]; of two, the one with the even mantissa. *)
Definition nearest (ff : fp_format) (q : Q) (f : spec_float) : Prop :=
  finite f /\ value_of ff f /\
  forall g, finite g -> value_of ff g ->
    Qabs (number_of f - q) <= Qabs (number_of g - q) /\
    (Qabs (number_of f - q) == Qabs (number_of g - q) -> ~ number_of f == number_of g -> even_mantissa f).
(** Half a unit beyond the greatest value. *)
Definition limit (ff : fp_format) : Q := (inject_Z (2 ^ prec ff) - (1 # 2)) * (2 # 1) ^ (emax ff - prec ff).
Definition smallest_normal (ff : fp_format) : Q := (2 # 1) ^ (emin (prec ff) (emax ff) + prec ff - 1).
(** Underflow is reported for numbers below the normal ones only, and not for zero. *)
Definition underflow_policy (ff : fp_format) (tiny : Q -> bool) : Prop :=
  (forall q q', (q == q')%Q -> tiny q = tiny q') /\ (forall q, (smallest_normal ff <= q)%Q -> tiny q = false) /\ tiny 0 = false.

(** ** Texts *)
Definition decimal_digit (c : Z) : Prop := digit_of 10 false c.
Definition hexadecimal_digit (c : Z) : Prop := digit_of 16 false c \/ digit_of 16 true c.
(** Digits with or without a point: [ip] before it, [fp] after it, not both empty. *)
Definition mantissa_text (digit : Z -> Prop) (ip fp s : list Z) : Prop :=
  Forall digit ip /\ Forall digit fp /\ ip ++ fp <> [] /\ (fp = [] /\ s = ip \/ s = ip ++ 46%Z :: fp).
(** Nothing, or e, a sign and digits. *)
Definition exponent_suffix (lower upper x : Z) (s : list Z) : Prop :=
  s = [] /\ x = 0%Z \/
  exists c sign ds, (c = lower \/ c = upper) /\ s = c :: sign ++ ds /\ ds <> [] /\ Forall decimal_digit ds /\
    ((sign = [] \/ sign = [43%Z]) /\ x = positional_value 10 ds \/ sign = [45%Z] /\ x = (- positional_value 10 ds)%Z).
Definition decimal_text (q : Q) (s : list Z) : Prop :=
  exists ip fp x mt ex, s = mt ++ ex /\ mantissa_text decimal_digit ip fp mt /\ exponent_suffix 101 69 x ex /\
    q == inject_Z (positional_value 10 (ip ++ fp)) * (10 # 1) ^ (x - Z.of_nat (length fp)).
Definition hexadecimal_text (q : Q) (s : list Z) : Prop :=
  exists ip fp x mt ex, (s = 48%Z :: 120%Z :: mt ++ ex \/ s = 48%Z :: 88%Z :: mt ++ ex) /\ mantissa_text hexadecimal_digit ip fp mt /\ exponent_suffix 112 80 x ex /\
    q == inject_Z (positional_value 16 (ip ++ fp)) * (2 # 1) ^ (x - 4 * Z.of_nat (length fp)).
(** The same letters, in whatever case. *)
Definition same_letter (a c : Z) : Prop := c = a \/ (97 <= a <= 122)%Z /\ c = (a - 32)%Z.
Definition word (w s : list Z) : Prop := Forall2 same_letter w s.
Definition infinity_text (s : list Z) : Prop := word [105; 110; 102]%Z s \/ word [105; 110; 102; 105; 110; 105; 116; 121]%Z s.
Definition payload_char (c : Z) : Prop := (48 <= c <= 57 \/ 65 <= c <= 90 \/ 97 <= c <= 122 \/ c = 95)%Z.
Definition nan_text (s : list Z) : Prop :=
  exists w p, word [110; 97; 110]%Z w /\ s = w ++ p /\ (p = [] \/ exists l, Forall payload_char l /\ p = 40%Z :: l ++ [41%Z]).

(** What an unsigned text stands for in the format: the finite number nearest to it if it is below the limit and no underflow
    is reported; infinity; not-a-number. *)
Definition stands_for (ff : fp_format) (tiny : Q -> bool) (number : Q -> list Z -> Prop) (s : list Z) (f : spec_float) : Prop :=
  (exists q, number q s /\ q < limit ff /\ tiny q = false /\ nearest ff q f /\ sign_of f = false) \/
  infinity_text s /\ f = S754_infinity false \/ nan_text s /\ f = S754_nan.
Definition negated (f : spec_float) : spec_float :=
  match f with
  | S754_zero s => S754_zero (negb s) | S754_infinity s => S754_infinity (negb s)
  | S754_finite s m e => S754_finite (negb s) m e | S754_nan => S754_nan
  end.
(** A text std::from_chars reads entirely: an optional minus sign. *)
Definition charconv_text (ff : fp_format) (tiny : Q -> bool) (s : list Z) (f : spec_float) : Prop :=
  stands_for ff tiny decimal_text s f \/ exists r g, s = 45%Z :: r /\ stands_for ff tiny decimal_text r g /\ f = negated g.
(** A text std::stod reads entirely: white space, an optional sign, and hexadecimal numbers. *)
Definition space (c : Z) : Prop := c = 32%Z \/ (9 <= c <= 13)%Z.
Definition any_text (q : Q) (s : list Z) : Prop := decimal_text q s \/ hexadecimal_text q s.
Definition strtod_text (ff : fp_format) (tiny : Q -> bool) (s : list Z) (f : spec_float) : Prop :=
  exists w sign r g, Forall space w /\ s = w ++ sign ++ r /\ stands_for ff tiny any_text r g /\
    ((sign = [] \/ sign = [43%Z]) /\ f = g \/ sign = [45%Z] /\ f = negated g).
