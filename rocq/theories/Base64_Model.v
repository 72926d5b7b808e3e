(** Model of fly::coders::Base64Coder (fly/coders/base64) and of Encoder::encode_string /
    Decoder::decode_string (fly/coders/coder.cpp) around it.

    A [char] is modelled by its byte value 0..255; [schar] gives the value of the (signed) char.  The
    working buffers hold [3 * k] decoded and [4 * k] encoded chars; the code fixes k = 65536
    (base64_coder.hpp:48-49). *)
From Verif Require Import Common.

(** Value of a signed 8-bit char (char is signed on every platform the project targets: the table
    below could not be initialised with -1 otherwise). *)
Definition schar (b : Z) : Z := signed 8 b.

(** base64_coder.cpp:11-21 s_base64_symbols. *)
Definition s_base64_symbols : list Z :=
  [65;66;67;68;69;70;71;72;73;74;75;76;77; 78;79;80;81;82;83;84;85;86;87;88;89;90;
   97;98;99;100;101;102;103;104;105;106;107;108;109; 110;111;112;113;114;115;116;117;118;119;120;121;122;
   48;49;50;51;52;53;54;55;56;57; 43;47].

(** base64_coder.cpp:25-38 s_base64_codes (128..255 are all -1). *)
Definition s_base64_codes : list Z :=
  [-1; -1; -1; -1; -1; -1; -1; -1; -1; -1; -1; -1; -1; -1; -1; -1; -1; -1; -1; -1; -1; -1;
   -1; -1; -1; -1; -1; -1; -1; -1; -1; -1; -1; -1; -1; -1; -1; -1; -1; -1; -1; -1; -1; 62;
   -1; -1; -1; 63; 52; 53; 54; 55; 56; 57; 58; 59; 60; 61; -1; -1; -1; -2; -1; -1; -1; 0;
   1;  2;  3;  4;  5;  6;  7;  8;  9;  10; 11; 12; 13; 14; 15; 16; 17; 18; 19; 20; 21; 22;
   23; 24; 25; -1; -1; -1; -1; -1; -1; 26; 27; 28; 29; 30; 31; 32; 33; 34; 35; 36; 37; 38;
   39; 40; 41; 42; 43; 44; 45; 46; 47; 48; 49; 50; 51; -1; -1; -1; -1; -1] ++ repeat (-1) 128.

(** std::array::operator[] with a std::size_t index: undefined past the end. *)
Definition at_index (l : list Z) (i : Z) : res Z :=
  if (0 <=? i) && (i <? Z.of_nat (length l)) then Ok (nth (Z.to_nat i) l 0) else UB.

(** base64_coder.cpp:49-69 encode_chunk. *)
Definition encode_chunk (ch0 ch1 ch2 : Z) : res (list Z) :=
  let c0 := schar ch0 in let c1 := schar ch1 in let c2 := schar ch2 in
  let! e0 := at_index s_base64_symbols (Z.shiftr (Z.land c0 0xfc) 2) in
  let! e1 := at_index s_base64_symbols
               (Z.lor (Z.shiftl (Z.land c0 0x03) 4) (Z.shiftr (Z.land c1 0xf0) 4)) in
  let! e2 := at_index s_base64_symbols
               (Z.lor (Z.shiftl (Z.land c1 0x0f) 2) (Z.shiftr (Z.land c2 0xc0) 6)) in
  let! e3 := at_index s_base64_symbols (Z.land c2 0x3f) in
  Ok [e0; e1; e2; e3].

(** s_base64_codes[static_cast<std::size_t>(c)]: a negative char becomes a huge std::size_t. *)
Definition code_of (c : Z) : res Z := at_index s_base64_codes (u64 (schar c)).

(** base64_coder.cpp:83-122 decode_chunk: the four codes and the three bytes stored. *)
Definition decode_chunk (e0 e1 e2 e3 : Z) : res ((Z * Z * Z * Z) * list Z) :=
  let! code0 := code_of e0 in
  let! code1 := code_of e1 in
  let! code2 := code_of e2 in
  let! code3 := code_of e3 in
  let d0 := u8 (Z.lor (Z.shiftl code0 2) (Z.land (Z.shiftr code1 4) 0x03)) in
  let d1 := u8 (Z.lor (Z.shiftl (Z.land code1 0x0f) 4) (Z.shiftr (Z.land code2 0xfc) 2)) in
  let d2 := u8 (Z.lor (Z.shiftl (Z.land code2 0x03) 6) code3) in
  Ok ((code0, code1, code2, code3), [d0; d1; d2]).

(** decode_chunk<std::true_type>: 103-117, number of bytes or 0. *)
Definition chunk_bytes (c : Z * Z * Z * Z) : Z :=
  let '(code0, code1, code2, code3) := c in
  if (code0 =? -1) || (code1 =? -1) || (code2 =? -1) || (code3 =? -1) then 0
  else if (code0 =? -2) || (code1 =? -2) || ((code2 =? -2) && negb (code3 =? -2)) then 0
  else if code2 =? -2 then 1 else if code3 =? -2 then 2 else 3.

(** decode_chunk<std::false_type>: 120. *)
Definition chunk_valid (c : Z * Z * Z * Z) : bool :=
  let '(code0, code1, code2, code3) := c in
  Z.land (Z.lor (Z.lor (Z.lor code0 code1) code2) code3) 0x80 =? 0.

(** base64_coder.cpp:136-141: [n] full chunks from the front of the buffer. *)
Fixpoint encode_full (n : nat) (buf : list Z) : res (list Z) :=
  match n with
  | O => Ok []
  | S n' =>
      match buf with
      | a :: b :: c :: r =>
          let! e := encode_chunk a b c in let! es := encode_full n' r in Ok (e ++ es)
      | _ => UB
      end
  end.

(** base64_coder.cpp:143-157, one iteration of encode_internal on the [bytes] just read.  [strict]
    says whether the memset at 150 running past the end of m_decoded counts as undefined behaviour
    (it does in C++; with [strict = false] the excess is taken to fall harmlessly into the next
    member, m_encoded, already written out).  [stale] is whatever the buffer held before. *)
Definition encode_block (strict : bool) (k : nat) (stale : Z) (blk : list Z) : res (list Z) :=
  let bytes := length blk in
  let! full := encode_full (bytes / 3) blk in
  let remainder := (bytes mod 3)%nat in
  if (0 <? remainder)%nat then
    let decoding := skipn (3 * (bytes / 3)) blk in
    let end_ := (3 * (bytes / 3) + remainder)%nat in
    if strict && (3 * k <? end_ + end_)%nat then UB
    else
      let chunk := decoding ++ repeat 0 (Nat.min end_ (3 - remainder)) ++ repeat stale 3 in
      let! e := encode_chunk (nth 0 chunk 0) (nth 1 chunk 0) (nth 2 chunk 0) in
      Ok (full ++ firstn (remainder + 1) e ++ repeat 61 (3 - remainder))
  else Ok full.

(** std::istream::read(buf, n): bytes read, remaining input, and whether the stream is still good
    (a short read sets eofbit and failbit). *)
Definition stream_read (n : nat) (s : list Z) : list Z * list Z * bool :=
  (firstn n s, skipn n s, negb (length s <? n)%nat).

(** base64_coder.cpp:127-162 encode_internal as called by Encoder::encode_string
    (coder.cpp:53-74) on an unbounded ostringstream: the encoded string.  [UB] also stands for
    running out of [fuel]; encode_string supplies enough, which is proved. *)
Fixpoint encode_loop (fuel : nat) (strict : bool) (k : nat) (stale : Z) (s : list Z) : res (list Z) :=
  match fuel with
  | O => UB
  | S fuel' =>
      let '(blk, rest, good) := stream_read (3 * k) s in
      let! out := encode_block strict k stale blk in
      if good then let! more := encode_loop fuel' strict k stale rest in Ok (out ++ more)
      else Ok out
  end.
Definition encode_string (strict : bool) (k : nat) (stale : Z) (s : list Z) : res (list Z) :=
  encode_loop (S (length s)) strict k stale s.

(** base64_coder.cpp:193-204, the loop over full chunks.  Returns (decoded bytes, rest of the
    encoded buffer, whether all were valid). *)
Fixpoint decode_full (n : nat) (buf : list Z) : res (list Z * list Z * bool) :=
  match n with
  | O => Ok ([], buf, true)
  | S n' =>
      match buf with
      | a :: b :: c :: d :: r =>
          let! (codes, ds) := decode_chunk a b c d in
          if chunk_valid codes then
            let! (out, rest, ok) := decode_full n' r in Ok (ds ++ out, rest, ok)
          else Ok ([], buf, false)
      | _ => UB
      end
  end.

(** base64_coder.cpp:165-223 decode_internal as called by decode_string (coder.cpp:112-134).
    [acc] is the ostringstream's content, [good] its state.  Result: None = failure. *)
Fixpoint decode_loop (fuel : nat) (k : nat) (acc : list Z) (good : bool) (s : list Z)
  : res (option (list Z)) :=
  match fuel with
  | O => UB
  | S fuel' =>
      let '(buf, rest, sgood) := stream_read (4 * k) s in
      let eof := negb sgood in
      let bytes := length buf in
      if negb (bytes mod 4 =? 0)%nat then Ok None
      else if (bytes =? 0)%nat then Ok (if eof && good then Some acc else None)
      else
        let! (out, tail, ok) := decode_full (bytes / 4 - (if eof then 1 else 0)) buf in
        let good1 := good && ok in
        if eof then
          match tail with
          | a :: b :: c :: d :: _ =>
              let! (codes, ds) := decode_chunk a b c d in
              let n := chunk_bytes codes in
              if n =? 0 then Ok None
              else Ok (if good1 then Some (acc ++ out ++ firstn (Z.to_nat n) ds) else None)
          | _ => UB
          end
        else decode_loop fuel' k (if good1 then acc ++ out else acc) good1 rest
  end.
Definition decode_string (k : nat) (s : list Z) : res (option (list Z)) :=
  decode_loop (S (length s)) k [] true s.

(** base64_coder.hpp:48-49: 64 << 10 chunks. *)
Definition chunks : nat := Z.to_nat 65536.
