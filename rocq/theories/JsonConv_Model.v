(** Model of the conversions of fly::Json (fly/types/json/json.hpp:1585-1780, json.cpp:200-232) to and from integers, booleans,
    UTF-8 strings, and sequences.  Conversions to and from floating-point types are in JsonFloat_Model, other string encodings and maps in JsonWide_Model
    (the constructor from a map is in JsonApi_Model).  Not modelled: sets and their orders. *)
From Coq Require Import SpecFloat.
From Verif Require Import Common Format_Model Json_Model JsonApi_Model.
Open Scope Z_scope.

(** static_cast between integer types *)
Definition cast (w : Z) (is_signed : bool) (z : Z) : Z := if is_signed then signed w z else wrap w z.
(** static_cast of a floating-point value to an integer type: towards zero, and undefined if the result does not fit *)
Definition truncated (f : spec_float) : option Z :=
  match f with
  | S754_zero _ => Some 0
  | S754_finite s m e => let n := if 0 <=? e then Z.pos m * 2 ^ e else Z.pos m / 2 ^ (- e) in Some (if s then - n else n)
  | _ => None
  end.
Definition fits (w : Z) (is_signed : bool) (v : Z) : bool :=
  ((if is_signed then - 2 ^ (w - 1) else 0) <=? v) && (v <? (if is_signed then 2 ^ (w - 1) else 2 ^ w)).

(** json.hpp:1756-1777 operator T, for an integer type of [w] bits *)
Definition to_integer (w : Z) (is_signed : bool) (j : json) : outcome Z :=
  match j with
  | JString s => match convert w is_signed s with Some v => Return v | None => Throw JsonException end
  | JSigned z | JUnsigned z => Return (cast w is_signed z)
  | JFloat f => match truncated f with Some v => if fits w is_signed v then Return v else Undefined | None => Undefined end
  | _ => Throw JsonException
  end.
(** json.hpp:1727-1753 operator bool *)
Definition to_bool (j : json) : bool :=
  match j with
  | JNull => false
  | JString s => negb (length s =? 0)%nat
  | JObject m => negb (length m =? 0)%nat
  | JArray l => negb (length l =? 0)%nat
  | JBool b => b
  | JSigned z | JUnsigned z => negb (z =? 0)
  | JFloat f => match f with S754_zero _ | S754_nan => false | _ => true end (* std::abs(f) > 0 *)
  end.
(** json.hpp:1645-1675 operator std::string *)
Definition to_text (fp : fp_text) (j : json) : res (outcome (list Z)) :=
  match j with
  | JString s => Ok (Return s)
  | JSigned z => let! t := format_integer 64 true 127 integer_field 0 z in Ok (Return t)
  | JUnsigned z => let! t := format_integer 64 false 127 integer_field 0 z in Ok (Return t)
  | JFloat f => Ok (Return (print_fp fp f))
  | _ => Ok (Throw JsonException)
  end.
(** json.hpp:1694-1708 operator std::vector<T>, std::list<T>, ...; [f]: the conversion to T *)
Fixpoint convert_all {A} (f : json -> outcome A) (l : list json) : outcome (list A) :=
  match l with
  | [] => Return []
  | v :: r =>
      match f v with
      | Return x => match convert_all f r with Return xs => Return (x :: xs) | Throw e => Throw e | Undefined => Undefined end
      | Throw e => Throw e
      | Undefined => Undefined
      end
  end.
Definition to_sequence {A} (f : json -> outcome A) (j : json) : outcome (list A) :=
  match j with JArray l => convert_all f l | _ => Throw JsonException end.
(** json.hpp:1711-1724 operator std::array<T, N>; [zero]: the value-initialized element *)
Definition to_fixed {A} (n : nat) (zero : A) (f : json -> outcome A) (j : json) : outcome (list A) :=
  match j with
  | JArray l =>
      match convert_all f (firstn (Nat.min n (length l)) l) with
      | Return xs => Return (xs ++ repeat zero (n - length l))
      | Throw e => Throw e
      | Undefined => Undefined
      end
  | _ => Throw JsonException
  end.

(** json.hpp:1604-1642 constructors *)
Definition of_integer (is_signed : bool) (z : Z) : json := if is_signed then JSigned z else JUnsigned z.
Definition of_sequence {A} (f : A -> json) (xs : list A) : json := JArray (map f xs).
