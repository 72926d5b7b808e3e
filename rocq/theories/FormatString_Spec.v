(** Specification vocabulary for C40: the grammar of format strings and what a replacement field means
    (fly/types/string/format.hpp documentation, after std::format).  Only the option enumerations and
    the specifier record come from the model. *)
From Verif Require Import Common Lexer_Spec Format_Model.

(** * Grammar *)
(** A width or precision: digits, or a nested field with an optional position. *)
Inductive amount := Number (digits : list Z) | Nested (position : option (list Z)).
Record options := Options {
  o_fill : option Z;
  o_align : option Z;      (* < > ^ *)
  o_sign : option Z;       (* + - space *)
  o_alternate : bool;      (* # *)
  o_zero : bool;           (* 0 *)
  o_width : option amount;
  o_precision : option amount; (* after a . *)
  o_locale : bool;         (* L *)
  o_type : option Z }.
Record field := Field { f_position : option (list Z); f_options : option options }.
Inductive piece := Literal (c : Z) | OpenBrace | CloseBrace | Replace (f : field).

Definition opt {A} (o : option A) (f : A -> list Z) : list Z := match o with Some a => f a | None => [] end.
Definition amount_text (a : amount) : list Z :=
  match a with Number d => d | Nested p => [123] ++ opt p (fun d => d) ++ [125] end.
Definition options_text (o : options) : list Z :=
  opt (o_fill o) (fun c => [c]) ++ opt (o_align o) (fun c => [c]) ++ opt (o_sign o) (fun c => [c]) ++
  (if o_alternate o then [35] else []) ++ (if o_zero o then [48] else []) ++ opt (o_width o) amount_text ++
  opt (o_precision o) (fun a => [46] ++ amount_text a) ++ (if o_locale o then [76] else []) ++ opt (o_type o) (fun c => [c]).
Definition field_text (f : field) : list Z :=
  [123] ++ opt (f_position f) (fun d => d) ++ opt (f_options f) (fun o => [58] ++ options_text o) ++ [125].
Definition piece_text (p : piece) : list Z :=
  match p with Literal c => [c] | OpenBrace => [123; 123] | CloseBrace => [125; 125] | Replace f => field_text f end.

(** Lexical conditions.  A position, width or precision is a run of decimal digits; characters with a
    negative code (bytes above 127 where char is signed) also count as digits, of value c - 48 (the
    classification defect shown in C20).  Without such characters, these are the ASCII digits. *)
Definition digit_char (c : Z) : Prop := ascii_digit c \/ c < 0.
Definition digits_ok (d : list Z) : Prop := d <> [] /\ Forall digit_char d.
Definition opt_ok {A} (P : A -> Prop) (o : option A) : Prop := match o with Some a => P a | None => True end.
Definition amount_ok (a : amount) : Prop := match a with Number d => digits_ok d | Nested p => opt_ok digits_ok p end.
Definition type_letters : list Z := [99; 115; 112; 98; 66; 111; 100; 120; 88; 97; 65; 101; 69; 102; 70; 103; 71].
Definition options_ok (o : options) : Prop :=
  (o_fill o <> None -> o_align o <> None) /\
  opt_ok (fun c => In c [60; 62; 94]) (o_align o) /\
  opt_ok (fun c => In c [43; 45; 32]) (o_sign o) /\
  opt_ok amount_ok (o_width o) /\
  (o_zero o = false -> opt_ok (fun a => match a with Number d => hd 0 d <> 48 | _ => True end) (o_width o)) /\
  opt_ok amount_ok (o_precision o) /\
  opt_ok (fun c => In c type_letters) (o_type o).
(** The parser decides whether there is a fill character by looking at the second character after the
    colon, whatever it is: without a fill, that character must not be one of < > ^. *)
Definition no_fill_confusion (o : options) (rest : list Z) : Prop :=
  o_fill o = None -> match options_text o ++ [125] ++ rest with _ :: c :: _ => ~ In c [60; 62; 94] | _ => True end.

(** * Meaning *)
(** The argument references of a field, in textual order, and the position a reference denotes when
    [n] automatic references precede it. *)
Definition amount_refs (a : option amount) : list (option (list Z)) := match a with Some (Nested p) => [p] | _ => [] end.
Definition field_refs (f : field) : list (option (list Z)) :=
  f_position f :: match f_options f with Some o => amount_refs (o_width o) ++ amount_refs (o_precision o) | None => [] end.
Definition automatic (r : option (list Z)) : bool := match r with None => true | Some _ => false end.
Definition count_auto (rs : list (option (list Z))) : Z := Z.of_nat (length (filter automatic rs)).
Definition position_of (n : Z) (r : option (list Z)) : Z := match r with Some d => number 10 d mod 2 ^ 64 | None => n end.

Definition meaning_align (c : option Z) : alignment :=
  match c with Some 60 => ALeft | Some 62 => ARight | Some 94 => ACenter | _ => ADefault end.
Definition meaning_sign (c : option Z) : sign_option :=
  match c with Some 43 => SAlways | Some 45 => SNegativeOnly | Some 32 => SNegativeOnlyWithPositivePadding | _ => SDefault end.
Definition letter_type (c : Z) : ftype :=
  match c with
  | 99 => TCharacter | 115 => TString | 112 => TPointer | 98 | 66 => TBinary | 111 => TOctal | 100 => TDecimal
  | 120 | 88 => THex | 97 | 65 => THexFloat | 101 | 69 => TScientific | 102 | 70 => TFixed | 103 | 71 => TGeneral
  | _ => TNone
  end.
Definition default_type (p : ptype) : ftype :=
  match p with
  | PCharacter => TCharacter | PString | PBoolean => TString | PPointer => TPointer | PIntegral => TDecimal
  | PFloatingPoint => TGeneral | PUserDefined => TNone
  end.
Definition upper (c : Z) : bool := (65 <=? c) && (c <=? 90).

Definition width_ref_start (n : Z) (f : field) : Z := n + count_auto [f_position f].
Definition precision_ref_start (n : Z) (f : field) (o : options) : Z := width_ref_start n f + count_auto (amount_refs (o_width o)).
Definition amount_number (a : option amount) : option Z := match a with Some (Number d) => Some (number 10 d mod 2 ^ 64) | _ => None end.
Definition amount_position (n : Z) (a : option amount) : option Z := match a with Some (Nested p) => Some (position_of n p) | _ => None end.
Definition no_options : options := Options None None None false false None None false None.

(** The specifier a field denotes: [start] is the index of its opening brace, [n] the number of automatic
    references before it, [p] the type of its argument. *)
Definition field_specifier (start n : Z) (p : ptype) (f : field) : specifier :=
  let o := match f_options f with Some o => o | None => no_options end in
  Specifier (position_of n (f_position f)) (o_fill o) (meaning_align (o_align o)) (meaning_sign (o_sign o)) (o_alternate o)
    (o_zero o && match o_align o with None => true | Some _ => false end)
    (amount_number (o_width o)) (amount_position (width_ref_start n f) (o_width o))
    (amount_number (o_precision o)) (amount_position (precision_ref_start n f o) (o_precision o))
    (o_locale o)
    (match o_type o with Some c => letter_type c | None => default_type p end)
    (match o_type o with Some c => if upper c then CUpper else CLower | None => CLower end)
    (start + 1 + Z.of_nat (length (opt (f_position f) (fun d => d))) + match f_options f with Some _ => 1 | None => 0 end)
    (Z.of_nat (length (field_text f))).

(** Which options an argument type admits. *)
Definition letters_for (p : ptype) : list Z :=
  match p with
  | PCharacter | PIntegral => [99; 98; 66; 111; 100; 120; 88]      (* cbBodxX *)
  | PString => [115]                                              (* s *)
  | PPointer => [112]                                             (* p *)
  | PFloatingPoint => [97; 65; 101; 69; 102; 70; 103; 71]          (* aAeEfFgG *)
  | PBoolean => [99; 115; 98; 66; 111; 100; 120; 88]               (* csbBodxX *)
  | PUserDefined => []
  end.
Definition shown_as_number (t : ftype) : bool :=
  match t with TBinary | TOctal | TDecimal | THex | THexFloat | TScientific | TFixed | TGeneral => true | _ => false end.
Definition arg_type (params : list ptype) (n : Z) : option ptype := if n <? Z.of_nat (length params) then lookup params (Z.to_nat n) else None.
Definition integral_at (params : list ptype) (a : option Z) : Prop := match a with Some n => arg_type params n = Some PIntegral | None => True end.

Definition options_admitted (params : list ptype) (p : ptype) (f : field) (n : Z) (o : options) : Prop :=
  let t := match o_type o with Some c => letter_type c | None => default_type p end in
  opt_ok (fun c => c <> 123 /\ c <> 125 /\ 0 <= c < 128) (o_fill o) /\
  (o_sign o <> None -> shown_as_number t = true) /\
  (o_alternate o = true -> shown_as_number t = true /\ t <> TDecimal) /\
  (o_zero o = true -> o_align o = None -> shown_as_number t = true) /\
  (amount_number (o_width o) <> Some 0) /\
  integral_at params (amount_position (width_ref_start n f) (o_width o)) /\
  (o_precision o <> None -> p = PString \/ p = PFloatingPoint) /\
  integral_at params (amount_position (precision_ref_start n f o) (o_precision o)) /\
  (o_locale o = true -> p = PIntegral \/ p = PFloatingPoint \/ p = PBoolean) /\
  opt_ok (fun c => In c (letters_for p)) (o_type o).
(** User-defined types (without a parser of their own) admit no options. *)
Definition field_admitted (params : list ptype) (n : Z) (f : field) (p : ptype) (rest : list Z) : Prop :=
  arg_type params (position_of n (f_position f)) = Some p /\
  match f_options f, p with
  | None, _ => True
  | Some o, PUserDefined => o = no_options
  | Some o, _ => options_admitted params p f n o /\ no_fill_confusion o rest
  end.

(** * Format strings: the pieces of a text, from left to right.  [start] is the index in the text, [n]
    the number of automatic references so far; the specifiers of the fields are collected. *)
Definition field_ok (f : field) : Prop := opt_ok digits_ok (f_position f) /\ opt_ok options_ok (f_options f).
Inductive pieces (params : list ptype) : Z -> Z -> list Z -> list piece -> list specifier -> Prop :=
| pieces_nil start n : pieces params start n [] [] []
| pieces_literal start n c s ps ss : c <> 123 -> c <> 125 -> pieces params (start + 1) n s ps ss ->
    pieces params start n (c :: s) (Literal c :: ps) ss
| pieces_open start n s ps ss : pieces params (start + 2) n s ps ss -> pieces params start n (123 :: 123 :: s) (OpenBrace :: ps) ss
| pieces_close start n s ps ss : pieces params (start + 2) n s ps ss -> pieces params start n (125 :: 125 :: s) (CloseBrace :: ps) ss
| pieces_field start n f p s ps ss :
    field_ok f -> field_admitted params n f p s ->
    pieces params (start + Z.of_nat (length (field_text f))) (n + count_auto (field_refs f)) s ps ss ->
    pieces params start n (field_text f ++ s) (Replace f :: ps) (field_specifier start n p f :: ss).
(** References are all automatic or all explicit. *)
Definition all_refs (ps : list piece) : list (option (list Z)) := flat_map (fun p => match p with Replace f => field_refs f | _ => [] end) ps.
Definition uniform (rs : list (option (list Z))) : Prop := Forall (fun r => r = None) rs \/ Forall (fun r => r <> None) rs.
Definition format_string (params : list ptype) (s : list Z) (ps : list piece) (ss : list specifier) : Prop :=
  pieces params 0 0 s ps ss /\ uniform (all_refs ps) /\ (length ss <= 64)%nat.

(** * Substitution *)
(** The output of a format string: literals as they are, doubled braces once, and for each field the
    output [out] of its specifier, from left to right. *)
Inductive renders (out : specifier -> list Z -> Prop) : list piece -> list specifier -> list Z -> Prop :=
| renders_nil : renders out [] [] []
| renders_literal c ps ss s : renders out ps ss s -> renders out (Literal c :: ps) ss (c :: s)
| renders_open ps ss s : renders out ps ss s -> renders out (OpenBrace :: ps) ss (123 :: s)
| renders_close ps ss s : renders out ps ss s -> renders out (CloseBrace :: ps) ss (125 :: s)
| renders_field f sp x ps ss s : out sp x -> renders out ps ss s -> renders out (Replace f :: ps) (sp :: ss) (x ++ s).

(** Text with every brace doubled. *)
Definition doubled (s : list Z) : list Z := flat_map (fun c => if (c =? 123) || (c =? 125) then [c; c] else [c]) s.
