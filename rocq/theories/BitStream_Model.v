(** Model of fly::BitStreamWriter / fly::BitStreamReader (fly/types/bit_stream) and of the endian
    helpers they use (fly/types/numeric).  All words are [Z]; every unsigned wrap is explicit. *)
From Verif Require Import Common.

(** * Memory images and endianness *)

(** Object representation of an [n]-byte unsigned integer, lowest address first, on a
    little-endian host.  (C++ object representation; used by the reinterpret_casts in
    bit_stream_writer.hpp:131-135 and bit_stream_reader.hpp:241-246.) *)
Fixpoint le_bytes (n : nat) (v : Z) : list Z :=
  match n with O => [] | S n' => (v mod 256) :: le_bytes n' (v / 256) end.
Fixpoint le_value (l : list Z) : Z :=
  match l with [] => 0 | b :: r => b + 256 * le_value r end.

(** Object representation on a host of the given endianness ([true] = big endian). *)
Definition mem_store (host_big : bool) (n : nat) (v : Z) : list Z :=
  if host_big then rev (le_bytes n v) else le_bytes n v.
Definition mem_load (host_big : bool) (l : list Z) : Z :=
  le_value (if host_big then rev l else l).

(** fly/types/numeric/detail/byte_swap.hpp:64-113 (the shift-and-mask definitions; on Linux and
    macOS lines 24-54 call compiler builtins documented to compute the same function). *)
Definition byte_swap16 (v : Z) : Z :=
  Z.lor (Z.shiftr (Z.land v 0xff00) 8) (Z.shiftl (Z.land v 0x00ff) 8).
Definition byte_swap32 (v : Z) : Z :=
  Z.lor (Z.lor (Z.lor
    (Z.shiftr (Z.land v 0xff000000) 24) (Z.shiftr (Z.land v 0x00ff0000) 8))
    (Z.shiftl (Z.land v 0x0000ff00) 8)) (Z.shiftl (Z.land v 0x000000ff) 24).
Definition byte_swap64 (v : Z) : Z :=
  Z.lor (Z.lor (Z.lor (Z.lor (Z.lor (Z.lor (Z.lor
    (Z.shiftr (Z.land v 0xff00000000000000) 56)
    (Z.shiftr (Z.land v 0x00ff000000000000) 40))
    (Z.shiftr (Z.land v 0x0000ff0000000000) 24))
    (Z.shiftr (Z.land v 0x000000ff00000000) 8))
    (Z.shiftl (Z.land v 0x00000000ff000000) 8))
    (Z.shiftl (Z.land v 0x0000000000ff0000) 24))
    (Z.shiftl (Z.land v 0x000000000000ff00) 40))
    (Z.shiftl (Z.land v 0x00000000000000ff) 56).

(** fly/types/numeric/endian.hpp:21-40 endian_swap, [n] = sizeof(T) in {1,2,4,8}.
    (Sizes other than these do not satisfy the EndianInteger concept.) *)
Definition endian_swap (n : nat) (v : Z) : Z :=
  match n with
  | 1%nat => v
  | 2%nat => byte_swap16 v
  | 4%nat => byte_swap32 v
  | 8%nat => byte_swap64 v
  | _ => v
  end.

(** The same function for a signed T: the argument is cast to the unsigned type and the result is
    cast back (endian.hpp:29, 33, 37). *)
Definition endian_swap_signed (n : nat) (v : Z) : Z :=
  signed (8 * Z.of_nat n) (endian_swap n (wrap (8 * Z.of_nat n) v)).

(** fly/types/numeric/endian.hpp:53-64 endian_swap_if_non_native<std::endian::big>. *)
Definition to_big_endian (host_big : bool) (n : nat) (v : Z) : Z :=
  if host_big then v else endian_swap n v.

(** * Output stream (std::ostream over a seekable std::streambuf).
    [os_data] stored bytes, [os_pos] put position, [os_good] the ostream state consulted by
    [if (m_stream)], [os_cap] the number of bytes the device can hold ([None] = unbounded, as for
    std::stringbuf).  sputn goes straight to the streambuf: a short write does not touch the
    ostream state (that is how std::basic_streambuf::sputn behaves). *)
Record ostream := { os_data : list Z; os_pos : nat; os_good : bool; os_cap : option nat }.

Definition overwrite (data : list Z) (pos : nat) (bs : list Z) : list Z :=
  firstn pos data ++ bs ++ skipn (pos + length bs) data.

Definition sputn (o : ostream) (bs : list Z) : ostream :=
  let bs' := match os_cap o with
             | None => bs
             | Some c => firstn (c - os_pos o) bs
             end in
  {| os_data := overwrite (os_data o) (os_pos o) bs';
     os_pos := os_pos o + length bs'; os_good := os_good o; os_cap := os_cap o |}.

Definition seek0 (o : ostream) : ostream :=
  {| os_data := os_data o; os_pos := 0; os_good := os_good o; os_cap := os_cap o |}.

(** * Constants: fly/types/bit_stream/detail/constants.hpp:9-24 *)
Definition s_magic : Z := 0x1a.
Definition s_magic_mask : Z := 0x1f.
Definition s_magic_shift : Z := 3.
Definition s_remainder_mask : Z := 0x07.
Definition s_remainder_shift : Z := 0.
Definition s_bits_per_word : Z := 16.
Definition s_bits_per_byte : Z := 8.
Definition s_msb_position : Z := 64.

(** fly/types/bit_stream/detail/bit_stream.hpp:70-77 bit_mask<DataType>(bits), [w] = digits of
    DataType.  The shift is performed on the promoted type (at least 32 bits). *)
Definition bit_mask (w bits : Z) : res Z :=
  if bits =? 0 then Ok 0 else shr (Z.max w 32) (2 ^ w - 1) (w - bits).

(** * Writer *)

(** BitStream members (detail/bit_stream.hpp:63-66) and the writer's stream reference
    (bit_stream_writer.hpp:96). *)
Record writer := { w_out : ostream; w_buffer : Z; w_position : Z }.

(** bit_stream_writer.hpp:127-137 flush(buffer, bytes); [n] = sizeof(DataType). *)
Definition flush (host_big : bool) (o : ostream) (n : nat) (buffer : Z) (bytes : Z) : ostream :=
  if os_good o then
    sputn o (firstn (Z.to_nat bytes) (mem_store host_big n (to_big_endian host_big n buffer)))
  else o.

(** bit_stream_writer.cpp:49-56 flush_header(remainder). *)
Definition flush_header (host_big : bool) (o : ostream) (remainder : Z) : ostream :=
  let header := u8 (Z.lor (Z.shiftl s_magic s_magic_shift)
                          (Z.shiftl remainder s_remainder_shift)) in
  flush host_big (seek0 o) 1 header 1.

(** bit_stream_writer.cpp:59-65 flush_buffer(). *)
Definition flush_buffer (host_big : bool) (w : writer) : writer :=
  {| w_out := flush host_big (w_out w) 8 (w_buffer w) 8;
     w_buffer := 0; w_position := s_msb_position |}.

(** bit_stream_writer.cpp:9-14 constructor. *)
Definition writer_new (host_big : bool) (o : ostream) : writer :=
  {| w_out := flush_header host_big o 0; w_buffer := 0; w_position := s_msb_position |}.

(** bit_stream_writer.hpp:100-123 write_bits<DataType>(bits, size), [width] = digits of DataType. *)
Definition write_bits (host_big : bool) (w : writer) (width bits size : Z) : res writer :=
  let! st :=
    (if size >? w_position w then
       let rshift := u8 (size - w_position w) in
       let! hi := shr 64 bits rshift in
       let w1 := flush_buffer host_big
                   {| w_out := w_out w; w_buffer := Z.lor (w_buffer w) hi;
                      w_position := w_position w |} in
       let! m := bit_mask width rshift in
       Ok (w1, Z.land bits m, rshift)
     else Ok (w, bits, size)) in
  let '(w1, bits1, size1) := st in
  let lshift := u8 (w_position w1 - size1) in
  let! lo := shl 64 bits1 lshift in
  Ok {| w_out := w_out w1; w_buffer := Z.lor (w_buffer w1) lo; w_position := lshift |}.

(** bit_stream_writer.cpp:17-26. *)
Definition write_word (hb : bool) (w : writer) (word : Z) : res writer :=
  write_bits hb w 16 word s_bits_per_word.
Definition write_byte (hb : bool) (w : writer) (byte : Z) : res writer :=
  write_bits hb w 8 byte s_bits_per_byte.

(** bit_stream_writer.cpp:29-46 finish(): returns the stream state it reports. *)
Definition finish (host_big : bool) (w : writer) : writer * bool :=
  let bits_in_buffer := u8 (s_msb_position - w_position w) in
  let w' :=
    if bits_in_buffer >? 0 then
      let bits_to_flush := u8 (bits_in_buffer + w_position w mod s_bits_per_byte) in
      let o1 := flush host_big (w_out w) 8 (w_buffer w) (bits_to_flush / s_bits_per_byte) in
      let remainder := u8 (bits_to_flush - bits_in_buffer) in
      {| w_out := flush_header host_big o1 remainder; w_buffer := 0;
         w_position := s_msb_position |}
    else w in
  (w', os_good (w_out w')).

(** * Reader *)

(** std::istream over a std::streambuf: unread bytes and the state consulted by [if (m_stream)]. *)
Record istream := { is_rest : list Z; is_good : bool }.

Record reader := { r_in : istream; r_buffer : Z; r_position : Z; r_header : Z; r_remainder : Z }.

(** bit_stream_reader.hpp:236-250 fill(buffer, bytes), [n] = sizeof(DataType), with the buffer
    initialised to 0 by both callers.  Returns (buffer, stream, bytes read). *)
Definition fill (host_big : bool) (s : istream) (n : nat) (bytes : Z) : Z * istream * Z :=
  if is_good s then
    let got := firstn (Z.to_nat bytes) (is_rest s) in
    let image := got ++ repeat 0 (n - length got) in
    (to_big_endian host_big n (mem_load host_big image),
     {| is_rest := skipn (Z.to_nat bytes) (is_rest s); is_good := is_good s |},
     u8 (Z.of_nat (length got)))
  else (0, s, 0).

(** sgetc() == EOF on the streambuf. *)
Definition at_eof (s : istream) : bool := match is_rest s with [] => true | _ => false end.

(** bit_stream_reader.cpp:9-28 constructor.  [Ok] always; the header is parsed with shifts of an
    8-bit value promoted to int. *)
Definition reader_new (host_big : bool) (s : istream) : reader :=
  let '(header, s1, bytes_read) := fill host_big s 1 1 in
  let '(magic, remainder) :=
    if bytes_read =? 1 then
      (Z.land (Z.shiftr header s_magic_shift) s_magic_mask,
       Z.land (Z.shiftr header s_remainder_shift) s_remainder_mask)
    else (0, 0) in
  let s2 := if magic =? s_magic then s1
            else {| is_rest := is_rest s1; is_good := false |} in
  {| r_in := s2; r_buffer := 0; r_position := 0; r_header := header; r_remainder := remainder |}.

(** bit_stream_reader.cpp:60-87 refill_buffer(). *)
Definition refill_buffer (host_big : bool) (r : reader) : res reader :=
  let bits_to_fill := u8 (s_msb_position - r_position r) in
  let '(buffer, s1, bytes_read) := fill host_big (r_in r) 8 (bits_to_fill / s_bits_per_byte) in
  if bytes_read >? 0 then
    let bits_read := u8 (bytes_read * s_bits_per_byte) in
    let position1 := u8 (r_position r + bits_read) in
    let! b1 := shl 64 (r_buffer r) (bits_read - 1) in
    let! b2 := shl 64 b1 1 in
    let! add := shr 64 buffer (s_msb_position - bits_read) in
    let b3 := Z.lor b2 add in
    if at_eof s1 then
      let! b4 := shr 64 b3 (r_remainder r) in
      Ok {| r_in := s1; r_buffer := b4; r_position := u8 (position1 - r_remainder r);
            r_header := r_header r; r_remainder := r_remainder r |}
    else
      Ok {| r_in := s1; r_buffer := b3; r_position := position1;
            r_header := r_header r; r_remainder := r_remainder r |}
  else
    Ok {| r_in := s1; r_buffer := r_buffer r; r_position := r_position r;
          r_header := r_header r; r_remainder := r_remainder r |}.

(** bit_stream_reader.hpp:176-227 peek_bits<DataType>(bits, size), [width] = digits of DataType
    (8, 16 or 32: static_assert at 191).  Returns (bits, peeked, reader).  Left shifts of 8/16-bit
    values happen on the promoted 32-bit type and are truncated on assignment. *)
Definition peek_bits (host_big : bool) (r : reader) (width size : Z) : res (Z * Z * reader) :=
  let! st :=
    (if size >? r_position r then
       let peeked := r_position r in
       let lshift := u8 (size - r_position r) in
       let! m := bit_mask width (r_position r) in
       let bits0 := Z.land (wrap width (r_buffer r)) m in
       let! bits1 := shl (Z.max width 32) bits0 (lshift - 1) in
       let! bits2 := shl (Z.max width 32) (wrap width bits1) 1 in
       let! r1 := refill_buffer host_big r in
       let size1 := Z.min lshift (u8 (r_position r1 - peeked)) in
       Ok (r1, wrap width bits2, peeked, u8 (lshift - size1), size1)
     else Ok (r, 0, 0, 0, size)) in
  let '(r1, bits, peeked, lshift, size1) := st in
  let rshift := u8 (r_position r1 - peeked - size1) in
  let! sh := shr 64 (r_buffer r1) rshift in
  let! m := bit_mask width size1 in
  let! add := shl (Z.max width 32) (Z.land (wrap width sh) m) lshift in
  Ok (wrap width (Z.lor bits add), u8 (peeked + size1), r1).

(** bit_stream_reader.hpp:230-233 discard_bits(size). *)
Definition discard_bits (r : reader) (size : Z) : reader :=
  {| r_in := r_in r; r_buffer := r_buffer r; r_position := u8 (r_position r - size);
     r_header := r_header r; r_remainder := r_remainder r |}.

(** bit_stream_reader.hpp:147-173 read_bits<DataType>(bits, size).  Returns (bits, count, reader). *)
Definition read_bits (host_big : bool) (r : reader) (width size : Z) : res (Z * Z * reader) :=
  if width =? 64 then
    let size_high := u8 (size / 2) in
    let size_low := u8 (size - size_high) in
    let! (bits_high, n_high, r1) := peek_bits host_big r 32 size_high in
    let r2 := discard_bits r1 n_high in
    let! (bits_low, n_low, r3) := peek_bits host_big r2 32 size_low in
    let r4 := discard_bits r3 n_low in
    let! hi := shl 64 bits_high size_low in
    Ok (Z.lor hi bits_low, u8 (n_high + n_low), r4)
  else
    let! (bits, n, r1) := peek_bits host_big r width size in
    Ok (bits, n, discard_bits r1 n).

(** bit_stream_reader.cpp:31-40. *)
Definition read_word (hb : bool) (r : reader) : res (Z * bool * reader) :=
  let! (bits, n, r1) := read_bits hb r 16 s_bits_per_word in
  Ok (bits, n =? s_bits_per_word, r1).
Definition read_byte (hb : bool) (r : reader) : res (Z * bool * reader) :=
  let! (bits, n, r1) := read_bits hb r 8 s_bits_per_byte in
  Ok (bits, n =? s_bits_per_byte, r1).

(** bit_stream_reader.cpp:43-51 fully_consumed(). *)
Definition fully_consumed (r : reader) : bool :=
  if r_position r =? 0 then at_eof (r_in r) else false.
