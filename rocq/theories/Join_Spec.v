(** Specification vocabulary for C61. *)
From Verif Require Import Common Format_Model Format_Spec FormatString_Model.

(** How a value looks without any formatting option. *)
Definition no_options (t : ftype) (sp : specifier) : Prop :=
  m_fill sp = None /\ m_alignment sp = ADefault /\ m_sign sp = SDefault /\ m_alternate_form sp = false /\ m_zero_padding sp = false /\
  m_width sp = None /\ m_width_position sp = None /\ m_precision sp = None /\ m_precision_position sp = None /\
  m_locale_specific_form sp = false /\ m_type sp = t /\ m_case sp = CLower.
Definition plain (a : arg) (x : list Z) : Prop :=
  match a with
  | ACharacter _ _ c => x = [c]
  | AString s => x = s
  | AInteger _ _ v => exists digits, positional 10 false (Z.abs v) digits /\ x = (if v <? 0 then [45] else []) ++ digits
  | APointer v => exists digits, positional 16 false v digits /\ x = [48; 120] ++ digits
  | AFloating out => exists sp, no_options TGeneral sp /\ x = out sp
  | ABoolean b => x = if b then [116; 114; 117; 101] else [102; 97; 108; 115; 101]
  | AUser out => x = out
  end.

(** Texts with a separator character between each two of them. *)
Fixpoint separated (separator : Z) (texts : list (list Z)) : list Z :=
  match texts with
  | [] => []
  | [t] => t
  | t :: r => t ++ [separator] ++ separated separator r
  end.

(** The character types: width, signedness, greatest value. *)
Definition character_type (bits : Z) (sg : bool) (cm : Z) : Prop :=
  (bits = 8 \/ bits = 16 \/ bits = 32) /\ cm = if sg then 2 ^ (bits - 1) - 1 else 2 ^ bits - 1.

Definition alphanumeric (c : Z) : Prop := 48 <= c <= 57 \/ 65 <= c <= 90 \/ 97 <= c <= 122.
