(** Model of fly::Json's conversions to and from floating-point types (fly/types/json/json.hpp:1637-1642, 1754-1777).
    A floating-point type is a binary format [FpFormat]: float is (24, 128), double (53, 1024), long double [x87], or one of the
    formats of other platforms.  Casts round to nearest, ties to even, and beyond the range to infinity, as IEC 60559 says (the
    C++ standard alone leaves the latter undefined). *)
From Coq Require Import SpecFloat.
From Verif Require Import Common Json_Model JsonApi_Model.
Open Scope Z_scope.

Definition binary32 : fp_format := FpFormat 24 128.
Definition binary64 : fp_format := FpFormat 53 1024.
(** static_cast<T> of a floating-point value *)
Definition cast_float (ff : fp_format) (f : spec_float) : spec_float :=
  match f with
  | S754_finite s m e => binary_round (prec ff) (emax ff) s m e
  | _ => f
  end.
(** json.hpp:1637-1642 the constructor; [ld] is the format of long double *)
Definition of_float (ld : fp_format) (f : spec_float) : json := JFloat (cast_float ld f).
(** json.hpp:1754-1777 operator T; [read]: std::from_chars (converter.hpp:27-42), which must read the whole text *)
Definition to_float (ff : fp_format) (read : list Z -> option spec_float) (j : json) : outcome spec_float :=
  match j with
  | JString s => match read s with Some f => Return f | None => Throw JsonException end
  | JSigned z | JUnsigned z => Return (float_of_int ff z)
  | JFloat f => Return (cast_float ff f)
  | _ => Throw JsonException
  end.
