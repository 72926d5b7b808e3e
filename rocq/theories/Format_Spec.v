(** Specification vocabulary for C41. *)
From Verif Require Import Common Lexer_Spec.

(** Digits of a base, in lower or upper case. *)
Definition digit_of (base : Z) (upper : bool) (c : Z) : Prop :=
  (48 <= c <= 57 /\ c - 48 < base) \/
  (if upper then 65 <= c <= 90 /\ c - 55 < base else 97 <= c <= 122 /\ c - 87 < base).
Definition value_of_digit (c : Z) : Z := if c <=? 57 then c - 48 else if c <=? 90 then c - 55 else c - 87.

(** [s] is the positional representation of [v] in [base]: digits only, no superfluous leading zero,
    and the digits' weighted sum is [v]. *)
Fixpoint positional_value (base : Z) (s : list Z) : Z :=
  match s with
  | [] => 0
  | c :: r => value_of_digit c * base ^ Z.of_nat (length r) + positional_value base r
  end.
Definition positional (base : Z) (upper : bool) (v : Z) (s : list Z) : Prop :=
  Forall (digit_of base upper) s /\ positional_value base s = v /\ s <> [] /\
  (length s = 1%nat \/ hd 0 s <> 48).

(** Values of an integer type. *)
Definition int_ok (w : Z) (is_signed : bool) (v : Z) : Prop :=
  if is_signed then - 2 ^ (w - 1) <= v < 2 ^ (w - 1) else 0 <= v < 2 ^ w.

(** * What a replacement field asks for (format.hpp documentation; as std::format) *)
From Verif Require Import Format_Model. (* only for the option types and the specifier record *)

Definition numeric_base (t : ftype) : option Z :=
  match t with TBinary => Some 2 | TOctal => Some 8 | TDecimal => Some 10 | THex => Some 16 | _ => None end.

(** The sign shown for an integer. *)
Definition sign_text (o : sign_option) (v : Z) : list Z :=
  if v <? 0 then [45] (* - *)
  else match o with SAlways => [43] (* + *) | SNegativeOnlyWithPositivePadding => [32] | _ => [] end.
(** The prefix of the alternate form: 0b 0B 0 0x 0X (decimal has no alternate form). *)
Definition base_text (alternate : bool) (t : ftype) (c : fcase) : list Z :=
  if alternate then
    match t, c with
    | TBinary, CLower => [48; 98] | TBinary, CUpper => [48; 66]
    | THex, CLower => [48; 120] | THex, CUpper => [48; 88]
    | _, _ => [48]
    end
  else [].

(** How many fill characters go left, as zeros after the prefix, and right. *)
Definition placed (a : alignment) (zero_padding : bool) (left_ zeros right_ : nat) : Prop :=
  match a with
  | ALeft => left_ = O /\ zeros = O
  | ARight => zeros = O /\ right_ = O
  | ACenter => zeros = O /\ (left_ <= right_ <= left_ + 1)%nat
  | ADefault => right_ = O /\ if zero_padding then left_ = O else zeros = O
  end.
(** The same for text. *)
Definition placed_text (a : alignment) (left_ right_ : nat) : Prop :=
  match a with
  | ALeft | ADefault => left_ = O
  | ARight => right_ = O
  | ACenter => (left_ <= right_ <= left_ + 1)%nat
  end.

Definition native_int (w : Z) : Prop := w = 8 \/ w = 16 \/ w = 32 \/ w = 64.
