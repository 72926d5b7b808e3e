(** Specification vocabulary for C29-C32: the JSON grammar (RFC 8259, with the extensions and
    deviations of the library marked), and what a well-formed value is. *)
From Coq Require Import SpecFloat.
From Verif Require Import Common Unicode_Spec Format_Spec.
From Verif Require Import Unicode_Model Json_Model. (* only for the types [enc], [json], [features], [fp_text] *)

(** * String literals (RFC 8259, section 7) *)

Definition hex_digit (c v : Z) : Prop :=
  (48 <= c <= 57 /\ v = c - 48) \/ (65 <= c <= 70 /\ v = c - 55) \/ (97 <= c <= 102 /\ v = c - 87).
(** Four hexadecimal digits and their value. *)
Definition hex4 (w : list Z) (v : Z) : Prop :=
  exists a b c d a' b' c' d', w = [a; b; c; d] /\
    hex_digit a a' /\ hex_digit b b' /\ hex_digit c c' /\ hex_digit d d' /\
    v = a' * 4096 + b' * 256 + c' * 16 + d'.

(** The escape characters and what they stand for: quote, reverse solidus, solidus, b, f, n, r, t. *)
Definition escapes : list (Z * Z) :=
  [(34, 34); (92, 92); (47, 47); (98, 8); (102, 12); (110, 10); (114, 13); (116, 9)].

(** [literal w s]: the text [w] between the quotes denotes the string [s]. *)
Inductive literal : list Z -> list Z -> Prop :=
| lit_nil : literal [] []
| lit_plain c w s : 0x20 <= c -> c <> 34 -> c <> 92 -> literal w s -> literal (c :: w) (c :: s)
| lit_escape e c w s : In (e, c) escapes -> literal w s -> literal (92 :: e :: w) (c :: s)
| lit_unicode h v w s : hex4 h v -> scalar v -> literal w s ->
    literal ([92; 117] ++ h ++ w) (utf8 v ++ s)
| lit_surrogates h l hv lv v w s : hex4 h hv -> hex4 l lv -> 0x10000 <= v <= 0x10ffff ->
    hv = 0xd800 + (v - 0x10000) / 1024 -> lv = 0xdc00 + (v - 0x10000) mod 1024 -> literal w s ->
    literal ([92; 117] ++ h ++ [92; 117] ++ l ++ w) (utf8 v ++ s).

(** Well-formed UTF-8. *)
Definition utf8_text (s : list Z) : Prop := exists cs, Forall scalar cs /\ s = flat_map utf8 cs.

(** * Documents *)

Definition white (c : Z) : Prop := c = 9 \/ c = 10 \/ c = 11 (* deviation: vertical tab *) \/ c = 13 \/ c = 32.

(** White space and, if enabled, comments. *)
Inductive gap (o : features) : list Z -> Prop :=
| gap_nil : gap o []
| gap_white c g : white c -> gap o g -> gap o (c :: g)
| gap_line b g : allow_comments o = true -> ~ In 10 b -> gap o g -> gap o ([47; 47] ++ b ++ [10] ++ g)
| gap_block b g : allow_comments o = true -> (forall x y, b <> x ++ [42; 47] ++ y) -> gap o g ->
    gap o ([47; 42] ++ b ++ [42; 47] ++ g).
(** At the end of the document the last line comment need not be closed by a new line. *)
Inductive final_gap (o : features) : list Z -> Prop :=
| final_closed g : gap o g -> final_gap o g
| final_line g b : gap o g -> allow_comments o = true -> ~ In 10 b -> final_gap o (g ++ [47; 47] ++ b).
(** Deviation: when comments are enabled, a malformed comment start directly after a comma (a solidus
    and one character other than solidus and asterisk) is skipped. *)
Inductive junk (o : features) : list Z -> Prop :=
| junk_two c : allow_comments o = true -> c <> 47 -> c <> 42 -> junk o [47; c].

(** Numbers. *)
Definition decimal (w : list Z) : Prop :=
  w <> [] /\ Forall (digit_of 10 false) w /\ (length w = 1%nat \/ hd 0 w <> 48).
Inductive integer_text : list Z -> json -> Prop :=
| int_unsigned w : decimal w -> positional_value 10 w < 2 ^ 64 -> integer_text w (JUnsigned (positional_value 10 w))
| int_signed w : decimal w -> positional_value 10 w <= 2 ^ 63 -> integer_text (45 :: w) (JSigned (- positional_value 10 w)).
(** A number with a fraction or an exponent: at least one character stands between the point and the
    exponent; what else may stand there is left to the platform's conversion function [fp]. *)
Definition no_exponent (w : list Z) : Prop := ~ In 101 w /\ ~ In 69 w.
Definition is_exponent (w : list Z) : Prop := exists r, w = 101 :: r \/ w = 69 :: r.
Definition starts_like_integer (w : list Z) : Prop :=
  exists d r, w = d :: r /\ digit_of 10 false d /\ (d = 48 -> match r with c :: _ => ~ digit_of 10 false c | [] => True end).
Definition float_shape (w : list Z) : Prop :=
  (exists ip fr ex, w = ip ++ [46] ++ fr ++ ex /\ ~ In 46 ip /\ no_exponent ip /\ fr <> [] /\ no_exponent fr /\
     (ex = [] \/ is_exponent ex)) \/
  (exists ip ex, w = ip ++ ex /\ no_exponent ip /\ is_exponent ex /\ ~ In 46 w).
Definition unsigned_part (w : list Z) : list Z := match w with c :: r => if c =? 45 then r else w | [] => [] end.
(** The characters at which a literal ends: white space , / ] } *)
Definition stop (c : Z) : Prop := white c \/ c = 44 \/ c = 47 \/ c = 93 \/ c = 125.
Inductive token (fp : fp_text) : list Z -> json -> Prop :=
| tok_true : token fp [116; 114; 117; 101] (JBool true)
| tok_false : token fp [102; 97; 108; 115; 101] (JBool false)
| tok_null : token fp [110; 117; 108; 108] JNull
| tok_integer w j : integer_text w j -> token fp w j
| tok_float w f : starts_like_integer (unsigned_part w) -> float_shape (unsigned_part w) ->
    Forall (fun c => ~ stop c) w -> parse_fp fp w = Some f -> token fp w (JFloat f).

(** A map with the last binding of each key, in key order (bytes compared as unsigned). *)
Fixpoint key_lt (a b : list Z) : Prop :=
  match a, b with
  | [], _ :: _ => True
  | x :: a', y :: b' => x < y \/ (x = y /\ key_lt a' b')
  | _, [] => False
  end.
Fixpoint sorted_keys (m : list (list Z * json)) : Prop :=
  match m with
  | [] => True
  | (k, _) :: r => Forall (fun e => key_lt k (fst e)) r /\ sorted_keys r
  end.
Definition last_binding (ms : list (list Z * json)) (k : list Z) (v : json) : Prop :=
  exists a b, ms = a ++ (k, v) :: b /\ ~ In k (map fst b).
Definition map_of (ms m : list (list Z * json)) : Prop :=
  sorted_keys m /\ forall k v, In (k, v) m <-> last_binding ms k v.

(** A trailing comma, if enabled. *)
Inductive trailing (o : features) : list Z -> Prop :=
| t_none : trailing o []
| t_comma g : allow_trailing_comma o = true -> gap o g -> trailing o ([44] ++ g).

(** [value w j]: the text [w] denotes [j]. *)
Inductive value (fp : fp_text) (o : features) : list Z -> json -> Prop :=
| v_token w j : token fp w j -> value fp o w j
| v_string w s : utf8_text w -> literal w s -> value fp o ([34] ++ w ++ [34]) (JString s)
| v_array_empty g : gap o g -> value fp o ([91] ++ g ++ [93]) (JArray [])
| v_array w l : elements fp o w l -> value fp o ([91] ++ w ++ [93]) (JArray l)
| v_object_empty g : gap o g -> value fp o ([123] ++ g ++ [125]) (JObject [])
| v_object w ms m : members fp o w ms -> map_of ms m -> value fp o ([123] ++ w ++ [125]) (JObject m)
(** One or more elements. *)
with elements (fp : fp_text) (o : features) : list Z -> list json -> Prop :=
| e_last g w j g' t : gap o g -> value fp o w j -> gap o g' -> trailing o t ->
    elements fp o (g ++ w ++ g' ++ t) [j]
| e_more g w j g' r l : gap o g -> value fp o w j -> gap o g' -> elements fp o r l ->
    elements fp o (g ++ w ++ g' ++ [44] ++ r) (j :: l)
| e_more_junk g w j g' g'' x r l : gap o g -> value fp o w j -> gap o g' -> gap o g'' -> junk o x -> elements fp o r l ->
    elements fp o (g ++ w ++ g' ++ [44] ++ g'' ++ x ++ r) (j :: l)
(** One or more members: quoted key, white space (no comments), colon, value. *)
with members (fp : fp_text) (o : features) : list Z -> list (list Z * json) -> Prop :=
| m_last g w k j g' t : gap o g -> member fp o w k j -> gap o g' -> trailing o t ->
    members fp o (g ++ w ++ g' ++ t) [(k, j)]
| m_more g w k j g' r l : gap o g -> member fp o w k j -> gap o g' -> members fp o r l ->
    members fp o (g ++ w ++ g' ++ [44] ++ r) ((k, j) :: l)
| m_more_junk g w k j g' g'' x s r l : gap o g -> member fp o w k j -> gap o g' -> gap o g'' -> junk o x ->
    Forall white s -> hd 0 r = 34 -> members fp o r l ->
    members fp o (g ++ w ++ g' ++ [44] ++ g'' ++ x ++ s ++ r) ((k, j) :: l)
with member (fp : fp_text) (o : features) : list Z -> list Z -> json -> Prop :=
| mem key k s g w j : utf8_text key -> literal key k -> Forall white s -> gap o g -> value fp o w j ->
    member fp o ([34] ++ key ++ [34] ++ s ++ [58] ++ g ++ w) k j.

(** A document: a value surrounded by white space and comments; only objects and arrays unless other
    types are enabled. *)
Definition document (fp : fp_text) (o : features) (input : list Z) (j : json) : Prop :=
  exists g w g', input = g ++ w ++ g' /\ gap o g /\ value fp o w j /\ final_gap o g' /\
    (allow_any_type o = true \/ (exists m, j = JObject m) \/ (exists l, j = JArray l)).

(** The grammar of RFC 8259, without any option: white space only between tokens, no trailing comma. *)
Inductive rfc_value (fp : fp_text) : list Z -> json -> Prop :=
| r_token w j : token fp w j -> rfc_value fp w j
| r_string w s : utf8_text w -> literal w s -> rfc_value fp ([34] ++ w ++ [34]) (JString s)
| r_array_empty s : Forall white s -> rfc_value fp ([91] ++ s ++ [93]) (JArray [])
| r_array w l : rfc_elements fp w l -> rfc_value fp ([91] ++ w ++ [93]) (JArray l)
| r_object_empty s : Forall white s -> rfc_value fp ([123] ++ s ++ [125]) (JObject [])
| r_object w ms m : rfc_members fp w ms -> map_of ms m -> rfc_value fp ([123] ++ w ++ [125]) (JObject m)
with rfc_elements (fp : fp_text) : list Z -> list json -> Prop :=
| r_last s w j s' : Forall white s -> rfc_value fp w j -> Forall white s' -> rfc_elements fp (s ++ w ++ s') [j]
| r_more s w j s' r l : Forall white s -> rfc_value fp w j -> Forall white s' -> rfc_elements fp r l ->
    rfc_elements fp (s ++ w ++ s' ++ [44] ++ r) (j :: l)
with rfc_members (fp : fp_text) : list Z -> list (list Z * json) -> Prop :=
| r_last_member s w k j s' : Forall white s -> rfc_member fp w k j -> Forall white s' -> rfc_members fp (s ++ w ++ s') [(k, j)]
| r_more_members s w k j s' r l : Forall white s -> rfc_member fp w k j -> Forall white s' -> rfc_members fp r l ->
    rfc_members fp (s ++ w ++ s' ++ [44] ++ r) ((k, j) :: l)
with rfc_member (fp : fp_text) : list Z -> list Z -> json -> Prop :=
| r_mem key k s s' w j : utf8_text key -> literal key k -> Forall white s -> Forall white s' -> rfc_value fp w j ->
    rfc_member fp ([34] ++ key ++ [34] ++ s ++ [58] ++ s' ++ w) k j.
Definition strict_document (fp : fp_text) (input : list Z) (j : json) : Prop :=
  exists s w s', input = s ++ w ++ s' /\ Forall white s /\ rfc_value fp w j /\ Forall white s' /\
    ((exists m, j = JObject m) \/ (exists l, j = JArray l)).

(** [o'] enables everything [o] enables. *)
Definition at_most (o o' : features) : Prop :=
  (allow_comments o = true -> allow_comments o' = true) /\
  (allow_trailing_comma o = true -> allow_trailing_comma o' = true) /\
  (allow_any_type o = true -> allow_any_type o' = true).

(** * Values a Json instance may hold, without floating-point numbers *)
Fixpoint well_formed (j : json) : Prop :=
  match j with
  | JNull | JBool _ => True
  | JString s => utf8_text s
  | JObject m =>
      sorted_keys m /\
      (fix go (m : list (list Z * json)) : Prop :=
         match m with [] => True | (k, v) :: r => utf8_text k /\ well_formed v /\ go r end) m
  | JArray l => (fix go (l : list json) : Prop := match l with [] => True | v :: r => well_formed v /\ go r end) l
  | JSigned z => - 2 ^ 63 <= z < 2 ^ 63
  | JUnsigned z => 0 <= z < 2 ^ 64
  | JFloat _ => False
  end.

(** What is read back: integers that are not negative are read as unsigned. *)
Fixpoint read_back (j : json) : json :=
  match j with
  | JSigned z => if z <? 0 then JSigned z else JUnsigned z
  | JObject m => JObject (map (fun e => (fst e, read_back (snd e))) m)
  | JArray l => JArray (map read_back l)
  | _ => j
  end.

(** * Order *)

(** [P] holds of every number in [j] (integers: with their signedness). *)
Fixpoint all_numbers (ps pu : Z -> Prop) (pf : spec_float -> Prop) (j : json) : Prop :=
  match j with
  | JObject m =>
      (fix go (m : list (list Z * json)) : Prop := match m with [] => True | (_, v) :: r => all_numbers ps pu pf v /\ go r end) m
  | JArray l => (fix go (l : list json) : Prop := match l with [] => True | v :: r => all_numbers ps pu pf v /\ go r end) l
  | JSigned z => ps z
  | JUnsigned z => pu z
  | JFloat f => pf f
  | JNull | JString _ | JBool _ => True
  end.
Definition in_int64 (z : Z) : Prop := - 2 ^ 63 <= z < 2 ^ 63.
Definition in_uint64 (z : Z) : Prop := 0 <= z < 2 ^ 64.
Definition in_both (z : Z) : Prop := 0 <= z < 2 ^ 63.
Definition never {A} (_ : A) : Prop := False.

(** [lt] is a strict total order up to [eq], and [eq] is an equivalence, on the values in [S]. *)
Definition ordered (S : json -> Prop) (lt eq : json -> json -> bool) : Prop :=
  forall a b c, S a -> S b -> S c ->
    lt a a = false /\ (lt a b = true -> lt b c = true -> lt a c = true) /\
    (eq a b = true <-> lt a b = false /\ lt b a = false) /\
    eq a a = true /\ (eq a b = true -> eq b a = true) /\ (eq a b = true -> eq b c = true -> eq a c = true).
Definition strict_weak (S : json -> Prop) (lt : json -> json -> bool) : Prop :=
  forall a b c, S a -> S b -> S c ->
    lt a a = false /\ (lt a b = true -> lt b c = true -> lt a c = true) /\
    (lt a b = false -> lt b a = false -> lt b c = false -> lt c b = false -> lt a c = false /\ lt c a = false).
