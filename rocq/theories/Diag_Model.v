(** Model of the parsers with their stream positions and the warnings they log: fly::parser::Parser
    (fly/parser/parser.hpp:64-270, parser.cpp:91-101, 133-142), JsonParser (fly/parser/json_parser.cpp)
    and IniParser (fly/parser/ini_parser.cpp).  Json_Model and Ini_Model leave positions and logging
    out; Diag_Props proves that their results are the results of this model. *)
From Verif Require Import Common Unicode_Model Strings_Model Json_Model Ini_Model.

(** * Parser *)

(** The warnings: what JLOG is given (json_parser.cpp:41, 53, 58, 265, 276, 297, 364, 408).  [MException]
    carries the string the Json class refused; its text, and the rendering of the others, is not
    modelled (see Join/Format for rendering). *)
Inductive message :=
| MUnexpected (parsed expected : Z)
| MExtraneous (symbol : Z)
| MNotContainer
| MTrailingComma
| MConvert (text : list Z)
| MComment
| MCommentStart (symbol : Z)
| MException (text : list Z).
Record warning (M : Type) := Warning { w_line : Z; w_column : Z; w_message : M }.
Arguments Warning {M}. Arguments w_line {M}. Arguments w_column {M}. Arguments w_message {M}.

(** parser.hpp:176-179: the stream and the counters (std::uint32_t), and the log so far, newest first. *)
Record stream (M : Type) := Stream { s_rest : list Z; s_line : Z; s_column : Z; s_log : list (warning M) }.
Arguments Stream {M}. Arguments s_rest {M}. Arguments s_line {M}. Arguments s_column {M}. Arguments s_log {M}.

(** std::char_traits<char>::eof() *)
Definition s_eof : Z := -1.

Section parser.
  Context {M : Type}.

  (** parser.cpp:91-101 parse_stream *)
  Definition start_stream (input : list Z) : stream M := Stream input 1 0 [].

  (** parser.hpp:234-238 peek *)
  Definition peek (s : stream M) : Z := match s_rest s with [] => s_eof | c :: _ => c end.

  (** parser.hpp:241-258 get *)
  Definition get (s : stream M) : Z * stream M :=
    let symbol := peek s in
    (symbol,
     if symbol =? 10 then Stream (tl (s_rest s)) (u32 (s_line s + 1)) 1 (s_log s)
     else Stream (tl (s_rest s)) (s_line s) (u32 (s_column s + 1)) (s_log s)).

  (** parser.hpp:261-264 discard *)
  Definition discard (s : stream M) : stream M := snd (get s).

  (** parser.hpp:267-270 eof *)
  Definition at_end (s : stream M) : bool := peek s =? s_eof.

  (** JLOG, ILOG: json_parser.cpp:8-9, ini_parser.cpp:10 (which prints the line only). *)
  Definition log (m : M) (s : stream M) : stream M :=
    Stream (s_rest s) (s_line s) (s_column s) (Warning (s_line s) (s_column s) m :: s_log s).
End parser.

(** * JsonParser *)

Definition jstream := stream message.

(** json_parser.cpp:351-357 consume_whitespace; every iteration takes a symbol. *)
Fixpoint skip_whitespace (fuel : nat) (s : jstream) : jstream :=
  match fuel with
  | O => s
  | S fuel' => if is_whitespace (peek s) then skip_whitespace fuel' (discard s) else s
  end.
Definition j_consume_whitespace (s : jstream) : jstream := skip_whitespace (length (s_rest s)) s.

(** json_parser.cpp:376-379 *)
Fixpoint j_line_comment (fuel : nat) (s : jstream) : jstream :=
  let '(token, s1) := get s in
  if (token =? s_eof) || (token =? 10) then s1
  else match fuel with O => s1 | S fuel' => j_line_comment fuel' s1 end.

(** json_parser.cpp:383-405 *)
Fixpoint j_block_comment (fuel : nat) (s : jstream) : parse_state * jstream :=
  let '(token, s1) := get s in
  if (token =? 42) && (peek s1 =? 47) then (KeepParsing, discard s1)
  else if token =? s_eof then (Invalid, s1)
  else match fuel with O => (Invalid, s1) | S fuel' => j_block_comment fuel' s1 end.

(** json_parser.cpp:360-413 consume_comment *)
Definition j_consume_comment (o : features) (s : jstream) : parse_state * jstream :=
  if negb (allow_comments o) then (Invalid, log MComment s)
  else
    let s1 := discard s in
    let '(token, s2) := get s1 in
    if token =? 47 then (KeepParsing, j_line_comment (length (s_rest s2)) s2)
    else if token =? 42 then j_block_comment (length (s_rest s2)) s2
    else (Invalid, log (MCommentStart token) s2).

(** json_parser.cpp:333-348 consume_whitespace_and_comments *)
Fixpoint j_whitespace_and_comments (fuel : nat) (o : features) (s : jstream) : parse_state * jstream :=
  let s1 := j_consume_whitespace s in
  if peek s1 =? 47 then
    match fuel with
    | O => (Invalid, s1)
    | S fuel' =>
        match j_consume_comment o s1 with
        | (Invalid, s2) => (Invalid, s2)
        | (_, s2) => j_whitespace_and_comments fuel' o s2
        end
    end
  else (KeepParsing, s1).
Definition j_skip (o : features) (s : jstream) : parse_state * jstream :=
  j_whitespace_and_comments (length (s_rest s)) o s.

(** json_parser.cpp:166-186 state_for_object_or_array *)
Definition j_state (o : features) (end_token : Z) (s : jstream) : parse_state * jstream :=
  match j_skip o s with
  | (Invalid, s1) => (Invalid, s1)
  | (_, s1) =>
      if peek s1 =? end_token then (StopParsing, discard s1)
      else if peek s1 =? s_eof then (Invalid, s1)
      else (KeepParsing, s1)
  end.

(** json_parser.cpp:270-281 consume_token *)
Definition j_consume_token (token : Z) (s : jstream) : parse_state * jstream :=
  let '(parsed, s1) := get (j_consume_whitespace s) in
  if negb (parsed =? token) then (Invalid, log (MUnexpected parsed token) s1) else (KeepParsing, s1).

(** json_parser.cpp:284-302 consume_comma *)
Definition j_consume_comma (o : features) (end_token : Z) (s : jstream) : parse_state * jstream :=
  match j_consume_token 44 s with
  | (Invalid, s1) => (Invalid, s1)
  | (_, s1) =>
      match j_state o end_token s1 with
      | (StopParsing, s2) => if allow_trailing_comma o then (StopParsing, s2) else (Invalid, log MTrailingComma s2)
      | (_, s2) => (KeepParsing, s2)
      end
  end.

(** json_parser.cpp:199-216, the loop; at end-of-file after a reverse solidus the symbol is read
    again. *)
Fixpoint j_quoted (fuel : nat) (s : jstream) : option (list Z) * jstream :=
  let '(token, s1) := get s in
  if token =? 34 then (Some [], s1)
  else
    match fuel with
    | O => (None, s1)
    | S fuel' =>
        if token =? 92 then
          let '(escaped, s2) := get s1 in
          let '(value, s3) := j_quoted fuel' s2 in
          (option_map (fun v => token :: escaped :: v) value, s3)
        else if token =? s_eof then (None, s1)
        else let '(value, s2) := j_quoted fuel' s1 in (option_map (fun v => token :: v) value, s2)
    end.

(** json_parser.cpp:189-217 parse_quoted_string *)
Definition j_parse_quoted_string (s : jstream) : option (list Z) * jstream :=
  match j_consume_token 34 s with
  | (Invalid, s1) => (None, s1)
  | (_, s1) => j_quoted (length (s_rest s1)) s1
  end.

(** json_parser.cpp:305-330 consume_value *)
Fixpoint j_consume_value (fuel : nat) (s : jstream) : list Z * jstream :=
  match fuel with
  | O => ([], s)
  | S fuel' =>
      if negb (peek s =? s_eof) && keep_value (peek s) then
        let '(c, s1) := get s in let '(v, s2) := j_consume_value fuel' s1 in (c :: v, s2)
      else ([], s)
  end.

(** How a parsing function returns: a value, nullopt, or a JsonException for the string. *)
Inductive result := RValue (j : json) | RNone | RThrow (text : list Z) | RFuel.

(** json_parser.cpp:220-267 parse_value *)
Definition j_parse_value (fp : fp_text) (s : jstream) : result * jstream :=
  let '(text, s1) := j_consume_value (length (s_rest s)) s in
  match value_of_text fp text with
  | Some j => (RValue j, s1)
  | None => (RNone, log (MConvert text) s1)
  end.

(** json_parser.cpp:67-163 parse_json, parse_object, parse_array *)
Fixpoint j_parse_json (fuel : nat) (fp : fp_text) (sg : bool) (o : features) (s : jstream) {struct fuel} : result * jstream :=
  match fuel with
  | O => (RFuel, s)
  | S fuel' =>
      match j_skip o s with
      | (Invalid, s1) => (RNone, s1)
      | (_, s1) =>
          if peek s1 =? 123 then j_parse_object fuel' fp sg o [] (discard s1)
          else if peek s1 =? 91 then j_parse_array fuel' fp sg o [] (discard s1)
          else if peek s1 =? 34 then
            match j_parse_quoted_string s1 with
            | (Some text, s2) =>
                match convert_to_string sg text with Some v => (RValue (JString v), s2) | None => (RThrow text, s2) end
            | (None, s2) => (RNone, s2)
            end
          else j_parse_value fp s1
      end
  end
with j_parse_object (fuel : nat) (fp : fp_text) (sg : bool) (o : features) (object : list (list Z * json)) (s : jstream) {struct fuel} : result * jstream :=
  match fuel with
  | O => (RFuel, s)
  | S fuel' =>
      match j_state o 125 s with
      | (Invalid, s1) => (RNone, s1)
      | (StopParsing, s1) => (RValue (JObject object), s1)
      | (KeepParsing, s1) =>
          match (if nonempty object then j_consume_comma o 125 s1 else (KeepParsing, s1)) with
          | (Invalid, s2) => (RNone, s2)
          | (StopParsing, s2) => (RValue (JObject object), s2)
          | (KeepParsing, s2) =>
              match j_parse_quoted_string s2 with
              | (None, s3) => (RNone, s3)
              | (Some key, s3) =>
                  match j_consume_token 58 s3 with
                  | (Invalid, s4) => (RNone, s4)
                  | (_, s4) =>
                      match j_parse_json fuel' fp sg o s4 with
                      | (RValue value, s5) =>
                          match convert_to_string sg key with
                          | Some key' => j_parse_object fuel' fp sg o (insert_or_assign key' value object) s5
                          | None => (RThrow key, s5)
                          end
                      | failed => failed
                      end
                  end
              end
          end
      end
  end
with j_parse_array (fuel : nat) (fp : fp_text) (sg : bool) (o : features) (array : list json) (s : jstream) {struct fuel} : result * jstream :=
  match fuel with
  | O => (RFuel, s)
  | S fuel' =>
      match j_state o 93 s with
      | (Invalid, s1) => (RNone, s1)
      | (StopParsing, s1) => (RValue (JArray array), s1)
      | (KeepParsing, s1) =>
          match (if nonempty array then j_consume_comma o 93 s1 else (KeepParsing, s1)) with
          | (Invalid, s2) => (RNone, s2)
          | (StopParsing, s2) => (RValue (JArray array), s2)
          | (KeepParsing, s2) =>
              match j_parse_json fuel' fp sg o s2 with
              | (RValue value, s3) => j_parse_array fuel' fp sg o (array ++ [value]) s3
              | failed => failed
              end
          end
      end
  end.

(** json_parser.cpp:31-64 parse_internal *)
Definition j_parse_internal (fuel : nat) (fp : fp_text) (sg : bool) (o : features) (s : jstream) : option json * jstream :=
  match j_parse_json fuel fp sg o s with
  | (RThrow text, s1) => (None, log (MException text) s1)
  | (RFuel, s1) => (None, s1)
  | (json, s1) =>
      match j_skip o s1 with
      | (Invalid, s2) => (None, s2)
      | (_, s2) =>
          match json with
          | RValue j =>
              if negb (at_end s2) then (None, log (MExtraneous (peek s2)) s2)
              else if negb (is_container j) && negb (allow_any_type o) then (None, log MNotContainer s2)
              else (Some j, s2)
          | _ => (None, s2)
          end
      end
  end.

(** The value returned for a text, and the warnings logged, oldest first. *)
Definition parse_with_log (fp : fp_text) (sg : bool) (o : features) (input : list Z) : option json * list (warning message) :=
  let '(r, s) := j_parse_internal (2 * length input + 2) fp sg o (start_stream input) in (r, rev (s_log s)).

(** What parse_stream (parser.cpp:91-101) leaves of the stream unread. *)
Definition parse_leftover (fp : fp_text) (sg : bool) (o : features) (input : list Z) : list Z :=
  s_rest (snd (j_parse_internal (2 * length input + 2) fp sg o (start_stream input))).

(** * IniParser *)

(** What ILOG is given (ini_parser.cpp:45, 59, 72, 112, 137, 151, 175). *)
Inductive ini_message :=
| IException
| INoSection
| ISectionQuoted
| INameQuoted
| INotPair
| IImbalanced (start end_ : Z).
Definition istream := stream ini_message.

(** ini_parser.cpp:89-102 getline *)
Fixpoint i_take_line (fuel : nat) (s : istream) : list Z * istream :=
  if at_end s then ([], s)
  else
    let '(ch, s1) := get s in
    if ch =? 10 then ([], s1)
    else match fuel with O => ([ch], s1) | S fuel' => let '(data, s2) := i_take_line fuel' s1 in (ch :: data, s2) end.
Definition i_getline (s : istream) : option (list Z) * istream :=
  let '(data, s1) := i_take_line (length (s_rest s)) s in
  (if negb (at_end s1) || nonempty data then Some data else None, s1).

(** ini_parser.cpp:163-180 trim_value *)
Definition i_trim_value (str : list Z) (start end_ : Z) (s : istream) : trim_result * list Z * istream :=
  let '(r, str') := trim_value str start end_ in
  (r, str', match r with Imbalanced => log (IImbalanced start end_) s | _ => s end).

(** ini_parser.cpp:105-117 on_section *)
Definition i_on_section (section : list Z) (s : istream) : option (list Z) * istream :=
  let section := trim section in
  match i_trim_value section 39 39 s with
  | (Untrimmed, section, s1) =>
      match i_trim_value section 34 34 s1 with
      | (Untrimmed, section, s2) => (Some section, s2)
      | (_, _, s2) => (None, log ISectionQuoted s2)
      end
  | (_, _, s1) => (None, log ISectionQuoted s1)
  end.

(** ini_parser.cpp:120-154 on_name_value_pair *)
Definition i_on_name_value_pair (name_value : list Z) (s : istream) : option (list Z * list Z) * istream :=
  match split name_value 61 2 with
  | Ok [name; value] =>
      let name := trim name in
      let value := trim value in
      match i_trim_value name 39 39 s with
      | (Untrimmed, name, s1) =>
          match i_trim_value name 34 34 s1 with
          | (Untrimmed, name, s2) =>
              match i_trim_value value 39 39 s2 with
              | (Imbalanced, _, s3) => (None, s3)
              | (_, value, s3) =>
                  match i_trim_value value 34 34 s3 with
                  | (Imbalanced, _, s4) => (None, s4)
                  | (_, value, s4) => (Some (name, value), s4)
                  end
              end
          | (_, _, s2) => (None, log INameQuoted s2)
          end
      | (_, _, s1) => (None, log INameQuoted s1)
      end
  | _ => (None, log INotPair s)
  end.

(** ini_parser.cpp:13-85 parse_internal *)
Fixpoint i_loop (fuel : nat) (sg : bool) (values : list (list Z * json)) (current : list Z) (s : istream) : option json * istream :=
  match i_getline s with
  | (None, s1) => (match values with [] => None | _ :: _ => Some (JObject values) end, s1)
  | (Some data, s1) =>
      match fuel with
      | O => (None, s1)
      | S fuel' =>
          let data := trim data in
          match data with
          | [] => i_loop fuel' sg values current s1
          | c :: _ =>
              if c =? 59 then i_loop fuel' sg values current s1
              else
                match i_trim_value data 91 93 s1 with
                | (Imbalanced, _, s2) => (None, s2)
                | (Trimmed, data, s2) =>
                    match i_on_section data s2 with
                    | (Some section, s3) =>
                        match convert_to_string sg section with
                        | Some key => i_loop fuel' sg (insert_or_assign key (JObject []) values) key s3
                        | None => (None, log IException s3)
                        end
                    | (None, s3) => (None, s3)
                    end
                | (Untrimmed, data, s2) =>
                    match values with
                    | [] => (None, log INoSection s2)
                    | _ :: _ =>
                        match i_on_name_value_pair data s2 with
                        | (Some (name, value), s3) =>
                            match convert_to_string sg value, convert_to_string sg name with
                            | Some v, Some k => i_loop fuel' sg (insert_in_section current k (JString v) values) current s3
                            | _, _ => (None, log IException s3)
                            end
                        | (None, s3) => (None, s3)
                        end
                    end
                end
          end
      end
  end.
Definition ini_with_log (sg : bool) (input : list Z) : option json * list (warning ini_message) :=
  let '(r, s) := i_loop (S (length input)) sg [] [] (start_stream input) in (r, rev (s_log s)).
