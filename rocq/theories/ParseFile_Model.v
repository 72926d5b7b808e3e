(** Model of the encoding detection of fly::parser::Parser (fly/parser/parser.cpp, parser.hpp).
    Not modelled: opening the file (parse_file returns nullopt when it cannot be opened), errors of the
    device while reading, line and column counters. *)
From Verif Require Import Common BitStream_Model Unicode_Model Json_Model Ini_Model.

(** std::istream over a file: the contents, what is still to be read, eofbit and failbit. *)
Record istream := Istream { contents : list Z; unread : list Z; eofbit : bool; failbit : bool }.
Definition open_stream (file : list Z) : istream := Istream file file false false.
Definition good (s : istream) : bool := negb (eofbit s) && negb (failbit s).
(** explicit operator bool *)
Definition usable (s : istream) : bool := negb (failbit s).
(** [istream.unformatted] peek: eof (-1) at the end (sets eofbit) or when the stream is not good (the
    sentry sets failbit). *)
Definition stream_peek (s : istream) : Z * istream :=
  if good s then
    match unread s with
    | c :: _ => (c, s)
    | [] => (-1, Istream (contents s) [] true false)
    end
  else (-1, Istream (contents s) (unread s) (eofbit s) true).
Definition stream_get (s : istream) : Z * istream :=
  if good s then
    match unread s with
    | c :: r => (c, Istream (contents s) r false false)
    | [] => (-1, Istream (contents s) [] true true)
    end
  else (-1, Istream (contents s) (unread s) (eofbit s) true).
(** read(data, n): what was extracted (its length is gcount()). *)
Definition stream_read (n : nat) (s : istream) : list Z * istream :=
  if good s then
    if (n <=? length (unread s))%nat then (firstn n (unread s), Istream (contents s) (skipn n (unread s)) false false)
    else (unread s, Istream (contents s) [] true true)
  else ([], Istream (contents s) (unread s) (eofbit s) true).
(** clear(); seekg(0) *)
Definition clear_and_rewind (s : istream) : istream := Istream (contents s) (contents s) false false.

(** parser.cpp:10-23 *)
Definition s_utf8_bom : list Z := [0xef; 0xbb; 0xbf].
Definition s_utf16_be_bom : list Z := [0xfe; 0xff].
Definition s_utf16_le_bom : list Z := [0xff; 0xfe].
Definition s_utf32_be_bom : list Z := [0x00; 0x00; 0xfe; 0xff].
Definition s_utf32_le_bom : list Z := [0xff; 0xfe; 0x00; 0x00].

(** parser.cpp:25-43 check_bom.  The comparison is between values of type char: -1 becomes '\xff'. *)
Definition check_bom (bom : list Z) (s : istream) : bool * istream :=
  let '(c, s) := stream_peek s in
  if u8 c =? hd 0 bom then
    let '(data, s) := stream_read (length bom) s in
    if usable s && ((length data =? length bom)%nat && string_eqb data bom) then (true, s)
    else (false, clear_and_rewind s)
  else (false, s).

(** parser.cpp:104-130 parse_byte_order_mark *)
Inductive encoding := EUTF8 | EUTF16BigEndian | EUTF16LittleEndian | EUTF32BigEndian | EUTF32LittleEndian.
Definition parse_byte_order_mark (s : istream) : encoding * istream :=
  let '(b, s) := check_bom s_utf8_bom s in if b : bool then (EUTF8, s) else
  let '(b, s) := check_bom s_utf32_be_bom s in if b : bool then (EUTF32BigEndian, s) else
  let '(b, s) := check_bom s_utf32_le_bom s in if b : bool then (EUTF32LittleEndian, s) else
  let '(b, s) := check_bom s_utf16_be_bom s in if b : bool then (EUTF16BigEndian, s) else
  let '(b, s) := check_bom s_utf16_le_bom s in if b : bool then (EUTF16LittleEndian, s) else
  (EUTF8, s).

(** parser.hpp:201-229 ensure_utf8, [n] = sizeof(char_type) (2 or 4): the inner loop, [k] bytes to go *)
Fixpoint read_unit (n k : nat) (s : istream) (character : Z) : Z * istream :=
  match k with
  | O => (character, s)
  | S k' =>
      if usable s then
        let '(c, s) := stream_get s in
        read_unit n k' s (Z.lor character (wrap (8 * Z.of_nat n) (Z.shiftl (Z.land c 0xff) (8 * Z.of_nat k'))))
      else (character, s)
  end.
(** The outer loop; every iteration but the last takes [n] characters. *)
Fixpoint read_units (fuel n : nat) (little : bool) (s : istream) : list Z :=
  match fuel with
  | O => []
  | S fuel' =>
      if usable s then
        let '(character, s) := read_unit n n s 0 in
        if usable s then (if little then endian_swap n character else character) :: read_units fuel' n little s
        else read_units fuel' n little s
      else []
  end.
Definition ensure_utf8 (sg : bool) (e : enc) (n : nat) (little : bool) (s : istream) : option (list Z) :=
  Unicode_Model.convert e (U8 sg) (read_units (length (unread s) + 2) n little s).

(** parser.cpp:47-85 parse_file, up to the call of parse_internal: the UTF-8 stream it gets, if any.
    parse_stream and parse_string (parser.hpp:181-197) hand over the stream buffer, that is, the unread
    characters, whatever the stream state. *)
Definition file_text (sg : bool) (file : list Z) : option (list Z) :=
  let '(e, s) := parse_byte_order_mark (open_stream file) in
  match e with
  | EUTF8 => Some (unread s)
  | EUTF16BigEndian => ensure_utf8 sg U16 2 false s
  | EUTF16LittleEndian => ensure_utf8 sg U16 2 true s
  | EUTF32BigEndian => ensure_utf8 sg U32 4 false s
  | EUTF32LittleEndian => ensure_utf8 sg U32 4 true s
  end.
Definition parse_json_file (fp : fp_text) (sg : bool) (o : features) (file : list Z) : option json :=
  match file_text sg file with Some t => parse fp sg o t | None => None end.
Definition parse_ini_file (sg : bool) (file : list Z) : option json :=
  match file_text sg file with Some t => parse_ini sg t | None => None end.
(** parser.hpp:181-197 parse_string for strings of UTF-16 and UTF-32 ([e]); std::string is passed as is. *)
Definition parse_json_string (fp : fp_text) (sg : bool) (o : features) (e : enc) (s : list Z) : option json :=
  match Unicode_Model.convert e (U8 sg) s with Some t => parse fp sg o t | None => None end.
