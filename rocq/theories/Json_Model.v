(** Model of fly::Json (fly/types/json/json.cpp, json.hpp): string construction and escaping,
    serialization, comparison, hashing; and of fly::parser::JsonParser (fly/parser/json_parser.cpp).

    Strings are lists of bytes (0..255); [sg] says whether char is signed.  The text of a
    floating-point number and its value are related by functions of the platform (strtold or
    std::from_chars, and the formatter): they are parameters [fp], universally quantified in every
    theorem.  Not modelled: iterators, line and column counters and logging (no effect on results),
    allocation failure, stack exhaustion on deep nesting. *)
From Coq Require Import SpecFloat.
From Verif Require Import Common Unicode_Model Format_Model.

(** types.hpp:17-24, 42-50: the alternatives in the order of the variant.  std::map is the list of its
    entries in iteration order. *)
Inductive json :=
| JNull
| JString (s : list Z)
| JObject (m : list (list Z * json))
| JArray (l : list json)
| JBool (b : bool)
| JSigned (z : Z)
| JUnsigned (z : Z)
| JFloat (f : spec_float).

Record fp_text := FpText { parse_fp : list Z -> option spec_float; print_fp : spec_float -> list Z }.

(** std::string comparison: char_traits<char>::compare orders bytes as unsigned char. *)
Fixpoint key_compare (a b : list Z) : comparison :=
  match a, b with
  | [], [] => Eq
  | [], _ :: _ => Lt
  | _ :: _, [] => Gt
  | x :: a', y :: b' => match x ?= y with Eq => key_compare a' b' | c => c end
  end.

(** json.hpp:1837-1851 insert_or_assign, on the std::map: an existing entry's value is swapped for the
    new one. *)
Fixpoint insert_or_assign (key : list Z) (value : json) (m : list (list Z * json)) : list (list Z * json) :=
  match m with
  | [] => [(key, value)]
  | (k, v) :: r =>
      match key_compare key k with
      | Lt => (key, value) :: m
      | Eq => (k, value) :: r
      | Gt => (k, v) :: insert_or_assign key value r
      end
  end.

(** * Strings *)

(** json.cpp:826-916 validate_string and read_escaped_character: [it] is the unread part, the result
    what it becomes; [None]: JsonException.  The in-place erase/replace only rewrites what has
    been read. *)
Definition char_value (sg : bool) (u : Z) : Z := if sg then signed 8 u else u.
Definition simple_escape (c : Z) : option Z :=
  if (c =? 34) || (c =? 92) || (c =? 47) then Some c
  else if c =? 98 then Some 8
  else if c =? 102 then Some 12
  else if c =? 110 then Some 10
  else if c =? 114 then Some 13
  else if c =? 116 then Some 9
  else None.
Fixpoint validate_string (fuel : nat) (sg : bool) (it : list Z) : option (list Z) :=
  match fuel, it with
  | _, [] => Some []
  | O, _ => None
  | S fuel', ch :: r =>
      if ch =? 92 then
        match r with
        | [] => None
        | next :: r' =>
            match simple_escape next with
            | Some c => option_map (cons c) (validate_string fuel' sg r')
            | None =>
                if next =? 117 then
                  match unescape_codepoint (U8 sg) it with
                  | (Some s, it') => option_map (app s) (validate_string fuel' sg it')
                  | (None, _) => None
                  end
                else None
            end
        end
      else if (char_value sg ch >=? 0) && (char_value sg ch <? 32) then None
      else if ch =? 34 then None
      else option_map (cons ch) (validate_string fuel' sg r)
  end.

(** json.hpp:2006-2026 convert_to_string for std::string. *)
Definition convert_to_string (sg : bool) (value : list Z) : option (list Z) :=
  if validate (U8 sg) value then validate_string (length value) sg value else None.

(** json.cpp:918-958 write_escaped_character on the first unread character; [UB]: the optional
    returned by escape_codepoint is empty and is dereferenced. *)
Definition write_escaped_character (sg : bool) (it : list Z) : res (list Z * list Z) :=
  match it with
  | [] => UB
  | c :: r =>
      if c =? 34 then Ok ([92; 34], r)
      else if c =? 92 then Ok ([92; 92], r)
      else if c =? 8 then Ok ([92; 98], r)
      else if c =? 12 then Ok ([92; 102], r)
      else if c =? 10 then Ok ([92; 110], r)
      else if c =? 13 then Ok ([92; 114], r)
      else if c =? 9 then Ok ([92; 116], r)
      else match decode_codepoint (U8 sg) it with
           | (Some codepoint, it') => Ok (escape_codepoint false codepoint, it')
           | (None, _) => UB
           end
  end.
(** json.cpp:71-82 serialize_string *)
Fixpoint escape_string (fuel : nat) (sg : bool) (it : list Z) : res (list Z) :=
  match it, fuel with
  | [], _ => Ok []
  | _, O => UB
  | _, S fuel' =>
      let! (out, it') := write_escaped_character sg it in
      let! rest := escape_string fuel' sg it' in
      Ok (out ++ rest)
  end.
Definition serialize_string (sg : bool) (value : list Z) : res (list Z) :=
  let! body := escape_string (length value) sg value in Ok ([34] ++ body ++ [34]).

(** json.cpp:67-141 serialize.  "{:s}" and "{}" are the format fields of Format_Model (char_max only
    matters for the character presentation). *)
Definition bool_field : specifier :=
  Specifier 0 None ADefault SDefault false false None None None None false TString CLower 0 0.
Definition integer_field : specifier :=
  Specifier 0 None ADefault SDefault false false None None None None false TDecimal CLower 0 0.
Definition s_null : list Z := [110; 117; 108; 108].

Fixpoint serialize (fp : fp_text) (sg : bool) (j : json) : res (list Z) :=
  match j with
  | JNull => Ok s_null
  | JString s => serialize_string sg s
  | JObject m =>
      let! body :=
        (fix entries (m : list (list Z * json)) : res (list Z) :=
           match m with
           | [] => Ok []
           | (k, v) :: r =>
               let! key := serialize_string sg k in
               let! value := serialize fp sg v in
               let! rest := entries r in
               Ok (key ++ [58] ++ value ++ (match r with [] => [] | _ :: _ => [44] end) ++ rest)
           end) m in
      Ok ([123] ++ body ++ [125])
  | JArray l =>
      let! body :=
        (fix elements (l : list json) : res (list Z) :=
           match l with
           | [] => Ok []
           | v :: r =>
               let! value := serialize fp sg v in
               let! rest := elements r in
               Ok (value ++ (match r with [] => [] | _ :: _ => [44] end) ++ rest)
           end) l in
      Ok ([91] ++ body ++ [93])
  | JBool b => format_bool 127 bool_field 0 None b
  | JSigned z => format_integer 64 true 127 integer_field 0 z
  | JUnsigned z => format_integer 64 false 127 integer_field 0 z
  | JFloat f => Ok (print_fp fp f)
  end.

(** * The parser *)

(** json_parser.hpp:25-43: the features. *)
Record features := Features { allow_comments : bool; allow_trailing_comma : bool; allow_any_type : bool }.
Definition strict : features := Features false false false.

(** json_parser.hpp:106-113 *)
Inductive parse_state := Invalid | StopParsing | KeepParsing.

(** json_parser.cpp:465-479.  The stream is the list of bytes still to be read; the empty list is
    end-of-file. *)
Definition is_whitespace (c : Z) : bool := (c =? 9) || (c =? 10) || (c =? 11) || (c =? 13) || (c =? 32).

(** json_parser.cpp:351-357 *)
Fixpoint consume_whitespace (input : list Z) : list Z :=
  match input with
  | c :: r => if is_whitespace c then consume_whitespace r else input
  | [] => []
  end.

(** json_parser.cpp:376-379 *)
Fixpoint line_comment (input : list Z) : list Z :=
  match input with
  | [] => []
  | c :: r => if c =? 10 then r else line_comment r
  end.
(** json_parser.cpp:383-405 *)
Fixpoint block_comment (input : list Z) : parse_state * list Z :=
  match input with
  | [] => (Invalid, [])
  | c :: r =>
      match r with
      | d :: r' => if (c =? 42) && (d =? 47) then (KeepParsing, r') else block_comment r
      | [] => (Invalid, [])
      end
  end.

(** json_parser.cpp:360-413; [input] starts with the solidus that was peeked. *)
Definition consume_comment (o : features) (input : list Z) : parse_state * list Z :=
  if negb (allow_comments o) then (Invalid, input)
  else
    match tl input with
    | [] => (Invalid, [])
    | c :: r =>
        if c =? 47 then (KeepParsing, line_comment r)
        else if c =? 42 then block_comment r
        else (Invalid, r)
    end.

(** json_parser.cpp:333-348.  [None]: out of fuel, which the length of the input excludes
    (Json_Parser_Proofs.wsc_total). *)
Fixpoint whitespace_and_comments (fuel : nat) (o : features) (input : list Z) : option (parse_state * list Z) :=
  match consume_whitespace input with
  | c :: r =>
      if c =? 47 then
        match fuel with
        | O => None
        | S fuel' =>
            match consume_comment o (c :: r) with
            | (Invalid, rest) => Some (Invalid, rest)
            | (_, rest) => whitespace_and_comments fuel' o rest
            end
        end
      else Some (KeepParsing, c :: r)
  | [] => Some (KeepParsing, [])
  end.
Definition consume_whitespace_and_comments (o : features) (input : list Z) : parse_state * list Z :=
  match whitespace_and_comments (length input) o input with Some r => r | None => (Invalid, input) end.

(** json_parser.cpp:166-186 *)
Definition state_for_object_or_array (o : features) (end_token : Z) (input : list Z) : parse_state * list Z :=
  match consume_whitespace_and_comments o input with
  | (Invalid, rest) => (Invalid, rest)
  | (_, rest) =>
      match rest with
      | [] => (Invalid, [])
      | c :: r => if c =? end_token then (StopParsing, r) else (KeepParsing, rest)
      end
  end.

(** json_parser.cpp:270-281 *)
Definition consume_token (token : Z) (input : list Z) : parse_state * list Z :=
  match consume_whitespace input with
  | c :: r => if c =? token then (KeepParsing, r) else (Invalid, r)
  | [] => (Invalid, [])
  end.

(** json_parser.cpp:284-302.  An Invalid state from state_for_object_or_array is not propagated. *)
Definition consume_comma (o : features) (end_token : Z) (input : list Z) : parse_state * list Z :=
  match consume_token 44 input with
  | (Invalid, rest) => (Invalid, rest)
  | (_, rest) =>
      match state_for_object_or_array o end_token rest with
      | (StopParsing, rest') => if allow_trailing_comma o then (StopParsing, rest') else (Invalid, rest')
      | (_, rest') => (KeepParsing, rest')
      end
  end.

(** json_parser.cpp:189-217: the loop; [None]: end-of-file.  A reverse solidus takes the next symbol
    with it (at end-of-file the next iteration fails). *)
Fixpoint quoted (input : list Z) : option (list Z * list Z) :=
  match input with
  | [] => None
  | c :: r =>
      if c =? 34 then Some ([], r)
      else if c =? 92 then
        match r with
        | [] => None
        | d :: r' => match quoted r' with Some (v, rest) => Some (c :: d :: v, rest) | None => None end
        end
      else match quoted r with Some (v, rest) => Some (c :: v, rest) | None => None end
  end.
Definition parse_quoted_string (input : list Z) : option (list Z * list Z) :=
  match consume_token 34 input with (Invalid, _) => None | (_, rest) => quoted rest end.

(** json_parser.cpp:305-330 *)
Definition keep_value (c : Z) : bool :=
  negb ((c =? 44) || (c =? 47) || (c =? 93) || (c =? 125) || is_whitespace c).
Fixpoint consume_value (input : list Z) : list Z * list Z :=
  match input with
  | c :: r => if keep_value c then let '(v, rest) := consume_value r in (c :: v, rest) else ([], input)
  | [] => ([], [])
  end.

(** std::string::find(ch) *)
Fixpoint find_char (ch : Z) (s : list Z) : option nat :=
  match s with
  | [] => None
  | c :: r => if c =? ch then Some O else option_map S (find_char ch r)
  end.

(** json_parser.cpp:416-462 *)
Inductive number_type := NInvalid | NSigned | NUnsigned | NFloat.
Definition is_digit (c : Z) : bool := (48 <=? c) && (c <=? 57).
Definition opt_min (a b : option nat) : option nat :=
  match a, b with Some x, Some y => Some (Nat.min x y) | Some x, None => Some x | None, y => y end.
Definition validate_number (value : list Z) : number_type :=
  let is_signed := match value with c :: _ => c =? 45 | [] => false end in
  let signless := if is_signed then tl value else value in
  match signless with
  | [] => NInvalid
  | c :: r =>
      let is_octal := match r with c1 :: _ => (c =? 48) && is_digit c1 | [] => false end in
      if negb (is_digit c) || is_octal then NInvalid
      else
        let e := opt_min (find_char 101 signless) (find_char 69 signless) in
        match find_char 46 signless with
        | Some d =>
            let end_ := match e with Some e => e | None => length signless end in
            if (end_ <=? d + 1)%nat then NInvalid else NFloat
        | None =>
            match e with
            | Some _ => NFloat
            | None => if is_signed then NSigned else NUnsigned
            end
        end
  end.

Fixpoint string_eqb (a b : list Z) : bool :=
  match a, b with
  | [], [] => true
  | x :: a', y :: b' => (x =? y) && string_eqb a' b'
  | _, _ => false
  end.

(** json_parser.cpp:220-267, on the text read by consume_value. *)
Definition value_of_text (fp : fp_text) (value : list Z) : option json :=
  if string_eqb value s_true then Some (JBool true)
  else if string_eqb value s_false then Some (JBool false)
  else if string_eqb value s_null then Some JNull
  else
    match validate_number value with
    | NSigned => option_map JSigned (convert 64 true value)
    | NUnsigned => option_map JUnsigned (convert 64 false value)
    | NFloat => option_map JFloat (parse_fp fp value)
    | NInvalid => None
    end.

(** What a parsing function did: a value and the rest of the stream, or failure (nullopt returned or
    JsonException thrown: either way parse_internal returns nullopt). *)
Inductive outcome := Done (j : json) (rest : list Z) | Fail | OutOfFuel.

Definition nonempty {A} (l : list A) : bool := match l with [] => false | _ :: _ => true end.

(** json_parser.cpp:67-163 parse_json, parse_object, parse_array; the loops carry the value built so
    far.  [fuel] bounds nested calls and iterations together (Json_Props.parser_terminates). *)
Fixpoint parse_json (fuel : nat) (fp : fp_text) (sg : bool) (o : features) (input : list Z) {struct fuel} : outcome :=
  match fuel with
  | O => OutOfFuel
  | S fuel' =>
      match consume_whitespace_and_comments o input with
      | (Invalid, _) => Fail
      | (_, input1) =>
          let value :=
            let '(text, rest) := consume_value input1 in
            match value_of_text fp text with Some j => Done j rest | None => Fail end in
          match input1 with
          | c :: r =>
              if c =? 123 then parse_object fuel' fp sg o [] r
              else if c =? 91 then parse_array fuel' fp sg o [] r
              else if c =? 34 then
                match parse_quoted_string input1 with
                | Some (text, rest) => match convert_to_string sg text with Some s => Done (JString s) rest | None => Fail end
                | None => Fail
                end
              else value
          | [] => value
          end
      end
  end
with parse_object (fuel : nat) (fp : fp_text) (sg : bool) (o : features) (object : list (list Z * json)) (input : list Z) {struct fuel} : outcome :=
  match fuel with
  | O => OutOfFuel
  | S fuel' =>
      match state_for_object_or_array o 125 input with
      | (Invalid, _) => Fail
      | (StopParsing, rest) => Done (JObject object) rest
      | (KeepParsing, input1) =>
          match (if nonempty object then consume_comma o 125 input1 else (KeepParsing, input1)) with
          | (Invalid, _) => Fail
          | (StopParsing, rest) => Done (JObject object) rest
          | (KeepParsing, input2) =>
              match parse_quoted_string input2 with
              | None => Fail
              | Some (key, input3) =>
                  match consume_token 58 input3 with
                  | (Invalid, _) => Fail
                  | (_, input4) =>
                      match parse_json fuel' fp sg o input4 with
                      | Done value input5 =>
                          match convert_to_string sg key with
                          | Some key' => parse_object fuel' fp sg o (insert_or_assign key' value object) input5
                          | None => Fail
                          end
                      | Fail => Fail
                      | OutOfFuel => OutOfFuel
                      end
                  end
              end
          end
      end
  end
with parse_array (fuel : nat) (fp : fp_text) (sg : bool) (o : features) (array : list json) (input : list Z) {struct fuel} : outcome :=
  match fuel with
  | O => OutOfFuel
  | S fuel' =>
      match state_for_object_or_array o 93 input with
      | (Invalid, _) => Fail
      | (StopParsing, rest) => Done (JArray array) rest
      | (KeepParsing, input1) =>
          match (if nonempty array then consume_comma o 93 input1 else (KeepParsing, input1)) with
          | (Invalid, _) => Fail
          | (StopParsing, rest) => Done (JArray array) rest
          | (KeepParsing, input2) =>
              match parse_json fuel' fp sg o input2 with
              | Done value input3 => parse_array fuel' fp sg o (array ++ [value]) input3
              | Fail => Fail
              | OutOfFuel => OutOfFuel
              end
          end
      end
  end.

(** json_parser.cpp:31-64 parse_internal; [None]: out of fuel, [Some None]: nullopt. *)
Definition is_container (j : json) : bool := match j with JObject _ | JArray _ => true | _ => false end.
Definition parse_internal (fuel : nat) (fp : fp_text) (sg : bool) (o : features) (input : list Z) : option (option json) :=
  match parse_json fuel fp sg o input with
  | OutOfFuel => None
  | Fail => Some None
  | Done j rest =>
      match consume_whitespace_and_comments o rest with
      | (Invalid, _) => Some None
      | (_, _ :: _) => Some None
      | (_, []) => if negb (is_container j) && negb (allow_any_type o) then Some None else Some (Some j)
      end
  end.
Definition parse (fp : fp_text) (sg : bool) (o : features) (input : list Z) : option json :=
  match parse_internal (2 * length input + 2) fp sg o input with Some r => r | None => None end.

(** * Comparison and hash *)

(** long double: x87 extended precision ([prec] = 64, [emax] = 16384), or IEEE double / quadruple. *)
Record fp_format := FpFormat { prec : Z; emax : Z }.
Definition x87 : fp_format := FpFormat 64 16384.
(** static_cast<long double>(integer) *)
Definition float_of_int (ff : fp_format) (z : Z) : spec_float := binary_normalize (prec ff) (emax ff) z 0 false.
(** std::numeric_limits<long double>::epsilon() = 2^(1 - prec) *)
Definition epsilon (ff : fp_format) : spec_float := binary_normalize (prec ff) (emax ff) 1 (1 - prec ff) false.
Definition float_near (ff : fp_format) (a b : spec_float) : bool :=
  SFleb (SFabs (SFsub (prec ff) (emax ff) a b)) (epsilon ff).

(** json.cpp:732-763 operator==; maps and vectors compare element-wise (std::equal with operator== of
    pairs), sizes first. *)
Fixpoint json_eq (ff : fp_format) (a b : json) {struct a} : bool :=
  match a, b with
  | JNull, JNull => true
  | JString s, JString t => string_eqb s t
  | JObject m, JObject m' =>
      (fix go (m m' : list (list Z * json)) : bool :=
         match m, m' with
         | [], [] => true
         | (k, v) :: r, (k', v') :: r' => string_eqb k k' && json_eq ff v v' && go r r'
         | _, _ => false
         end) m m'
  | JArray l, JArray l' =>
      (fix go (l l' : list json) : bool :=
         match l, l' with
         | [], [] => true
         | v :: r, v' :: r' => json_eq ff v v' && go r r'
         | _, _ => false
         end) l l'
  | JBool x, JBool y => Bool.eqb x y
  | JSigned x, JSigned y => x =? y
  | JUnsigned x, JUnsigned y => x =? y
  | JSigned x, JUnsigned y => x =? signed 64 y
  | JUnsigned x, JSigned y => x =? u64 y
  | JFloat f, JSigned y | JFloat f, JUnsigned y => float_near ff f (float_of_int ff y)
  | JSigned x, JFloat f | JUnsigned x, JFloat f => float_near ff (float_of_int ff x) f
  | JFloat f, JFloat g => float_near ff f g
  | _, _ => false
  end.

(** json.cpp:772-805 operator<; maps and vectors are compared lexicographically, pairs by key and then
    by value. *)
Definition index (j : json) : Z :=
  match j with
  | JNull => 0 | JString _ => 1 | JObject _ => 2 | JArray _ => 3 | JBool _ => 4
  | JSigned _ => 5 | JUnsigned _ => 6 | JFloat _ => 7
  end.
Fixpoint json_lt (ff : fp_format) (a b : json) {struct a} : bool :=
  match a, b with
  | JNull, JNull => false
  | JString s, JString t => match key_compare s t with Lt => true | _ => false end
  | JObject m, JObject m' =>
      (fix go (m m' : list (list Z * json)) : bool :=
         match m, m' with
         | _, [] => false
         | [], _ :: _ => true
         | (k, v) :: r, (k', v') :: r' =>
             match key_compare k k' with
             | Lt => true
             | Gt => false
             | Eq => json_lt ff v v' || (negb (json_gt ff v v') && go r r')
             end
         end) m m'
  | JArray l, JArray l' =>
      (fix go (l l' : list json) : bool :=
         match l, l' with
         | _, [] => false
         | [], _ :: _ => true
         | v :: r, v' :: r' => json_lt ff v v' || (negb (json_gt ff v v') && go r r')
         end) l l'
  | JBool x, JBool y => negb x && y
  | JSigned x, JSigned y => x <? y
  | JUnsigned x, JUnsigned y => x <? y
  | JSigned x, JUnsigned y => x <? signed 64 y
  | JUnsigned x, JSigned y => x <? u64 y
  | JFloat f, JSigned y | JFloat f, JUnsigned y => SFltb f (float_of_int ff y)
  | JSigned x, JFloat f | JUnsigned x, JFloat f => SFltb (float_of_int ff x) f
  | JFloat f, JFloat g => SFltb f g
  | _, _ => index a <? index b
  end
(** [json_gt a b] is operator<(b, a): the same definition with the roles exchanged, so that both
    recursive calls are structural (json_gt_lt in Json_Order_Proofs). *)
with json_gt (ff : fp_format) (a b : json) {struct a} : bool :=
  match a, b with
  | JNull, JNull => false
  | JString s, JString t => match key_compare t s with Lt => true | _ => false end
  | JObject m, JObject m' =>
      (fix go (m m' : list (list Z * json)) : bool :=
         match m, m' with
         | [], _ => false
         | _ :: _, [] => true
         | (k, v) :: r, (k', v') :: r' =>
             match key_compare k' k with
             | Lt => true
             | Gt => false
             | Eq => json_gt ff v v' || (negb (json_lt ff v v') && go r r')
             end
         end) m m'
  | JArray l, JArray l' =>
      (fix go (l l' : list json) : bool :=
         match l, l' with
         | [], _ => false
         | _ :: _, [] => true
         | v :: r, v' :: r' => json_gt ff v v' || (negb (json_lt ff v v') && go r r')
         end) l l'
  | JBool x, JBool y => negb y && x
  | JSigned x, JSigned y => y <? x
  | JUnsigned x, JUnsigned y => y <? x
  | JSigned x, JUnsigned y => y <? u64 x
  | JUnsigned x, JSigned y => y <? signed 64 x
  | JFloat f, JSigned y | JFloat f, JUnsigned y => SFltb (float_of_int ff y) f
  | JSigned x, JFloat f | JUnsigned x, JFloat f => SFltb f (float_of_int ff x)
  | JFloat f, JFloat g => SFltb g f
  | _, _ => index b <? index a
  end.

(** json.hpp:2217-2223 hash_combine, on std::size_t *)
Definition hash_combine (value1 value2 : Z) : Z :=
  Z.lxor value1 (u64 (value2 + 0x9e3779b9 + u64 (Z.shiftl value1 6) + Z.shiftr value1 2)).
(** The std::hash specializations of the platform. *)
Record hashes := Hashes { h_string : list Z -> Z; h_bool : bool -> Z; h_signed : Z -> Z; h_unsigned : Z -> Z; h_float : spec_float -> Z }.
(** json.hpp:2152-2206 std::hash<fly::Json> *)
Fixpoint json_hash (h : hashes) (j : json) : Z :=
  match j with
  | JNull => hash_combine 0 0
  | JString s => hash_combine 1 (h_string h s)
  | JObject m =>
      (fix go (m : list (list Z * json)) (result : Z) : Z :=
         match m with
         | [] => result
         | (k, v) :: r => go r (hash_combine (hash_combine result (h_string h k)) (json_hash h v))
         end) m (hash_combine 2 (Z.of_nat (length m)))
  | JArray l =>
      (fix go (l : list json) (result : Z) : Z :=
         match l with [] => result | v :: r => go r (hash_combine result (json_hash h v)) end)
        l (hash_combine 3 (Z.of_nat (length l)))
  | JBool b => hash_combine 4 (h_bool h b)
  | JSigned z => hash_combine 5 (h_signed h z)
  | JUnsigned z => hash_combine 6 (h_unsigned h z)
  | JFloat f => hash_combine 7 (h_float h f)
  end.
