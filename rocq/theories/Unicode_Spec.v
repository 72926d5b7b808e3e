(** Specification vocabulary for C16-C19, after The Unicode Standard, chapter 3 (D76, D90-D92, tables
    3-5 and 3-6), in plain arithmetic. *)
From Verif Require Import Common Unicode_Model. (* only for the type [enc] *)

(** Unicode scalar values (D76). *)
Definition scalar (c : Z) : Prop := 0 <= c <= 0xd7ff \/ 0xe000 <= c <= 0x10ffff.

(** UTF-8 bit distribution (table 3-6). *)
Definition utf8 (c : Z) : list Z :=
  if c <? 0x80 then [c]
  else if c <? 0x800 then [0xc0 + c / 64; 0x80 + c mod 64]
  else if c <? 0x10000 then [0xe0 + c / 4096; 0x80 + c / 64 mod 64; 0x80 + c mod 64]
  else [0xf0 + c / 262144; 0x80 + c / 4096 mod 64; 0x80 + c / 64 mod 64; 0x80 + c mod 64].

(** UTF-16 bit distribution (table 3-5). *)
Definition utf16 (c : Z) : list Z :=
  if c <? 0x10000 then [c]
  else [0xd800 + (c - 0x10000) / 1024; 0xdc00 + (c - 0x10000) mod 1024].

Definition utf32 (c : Z) : list Z := [c].

(** A string of code units is well-formed text of the scalar values [cs]. *)
Definition text (form : Z -> list Z) (cs : list Z) : list Z := flat_map form cs.

(** Printable ASCII. *)
Definition printable (u : Z) : Prop := 0x20 <= u <= 0x7e.

(** No backslash is directly followed by 'u' or 'U'. *)
Fixpoint no_escape_lookalike (cs : list Z) : Prop :=
  match cs with
  | c :: r => (c = 92 -> match r with p :: _ => p <> 117 /\ p <> 85 | [] => True end) /\ no_escape_lookalike r
  | [] => True
  end.

(** Strings of the encoding [e]: lists of code units in the range of the character type. *)
Definition form (e : enc) : Z -> list Z := match e with U8 _ => utf8 | U16 => utf16 | U32 => utf32 end.
Definition unit_ok (e : enc) (u : Z) : Prop :=
  0 <= u < match e with U8 _ => 2 ^ 8 | U16 => 2 ^ 16 | U32 => 2 ^ 32 end.
Definition units_ok (e : enc) (it : list Z) : Prop := Forall (unit_ok e) it.

(** Well-formed: the concatenation of the encodings of some scalar values. *)
Definition valid (e : enc) (it : list Z) : Prop := exists cs, Forall scalar cs /\ it = text (form e) cs.
