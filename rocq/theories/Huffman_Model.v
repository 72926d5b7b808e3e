(** Model of fly::coders::HuffmanEncoder and HuffmanDecoder (fly/coders/huffman), on top of the bit
    stream model.

    Symbols are byte values.  Code arrays are lists (m_huffman_codes[0 .. m_huffman_codes_size)).
    Running out of fuel is folded into [UB]; the theorems prove [Ok], hence termination. *)
From Coq Require Import Permutation.
From Verif Require Import Common BitStream_Model BitStream_Spec BitStream_Props.

(** types.hpp:28-68 HuffmanNode: a leaf has null children.  The node pool m_huffman_tree
    (2 * 256 nodes) and the pointers into it are represented by an inductive tree: every node is the
    child of at most one other node, and m_huffman_tree[0] = std::move( *node) (huffman_encoder.cpp:
    107-108) moves the root only. *)
Inductive tree :=
| Leaf (symbol frequency : Z)
| Node (frequency : Z) (l r : tree).

Definition freq (t : tree) : Z := match t with Leaf _ f => f | Node f _ _ => f end.

(** types.cpp:38-44 become_intermediate (frequency_type is std::uint64_t). *)
Definition become_intermediate (l r : tree) : tree := Node (u64 (freq l + freq r)) l r.

(** huffman_encoder.cpp:68-90: occurrences of each symbol, and a leaf for each one present, in
    increasing symbol order. *)
Definition count (chunk : list Z) (s : Z) : Z := Z.of_nat (count_occ Z.eq_dec chunk s).
Definition leaves (chunk : list Z) : list tree :=
  map (fun s => Leaf s (count chunk s))
      (filter (fun s => 0 <? count chunk s) (map Z.of_nat (seq 0 256))).

(** huffman_encoder.cpp:92-108.  std::priority_queue with HuffmanNodeComparator (types.cpp:51-54):
    top() is some element of least frequency; which one among equals is left open (it depends on the
    heap implementation).  The queue is a multiset, represented by a list up to permutation. *)
Definition pops (q : list tree) (t : tree) (q' : list tree) : Prop :=
  Permutation q (t :: q') /\
  Forall (fun u => freq t <= freq u) q'.
Inductive combine : list tree -> tree -> Prop :=
| combine_root t : combine [t] t
| combine_step q l q1 r q2 t :
    pops q l q1 -> pops q1 r q2 ->
    combine (become_intermediate l r :: q2) t ->
    combine q t.
Definition create_tree (chunk : list Z) (t : tree) : Prop := combine (leaves chunk) t.

(** types.hpp:85-141 HuffmanCode. *)
Record code := { c_symbol : Z; c_code : Z; c_length : Z }.
(** types.cpp:87-95 operator<. *)
Definition code_lt (x y : code) : bool :=
  if c_length x =? c_length y then c_symbol x <? c_symbol y else c_length x <? c_length y.

(** huffman_encoder.cpp:170-180 insert_code: shift greater codes up, from the end. The argument is
    the array reversed. *)
Fixpoint insert_rev (c : code) (rcodes : list code) : list code :=
  match rcodes with
  | [] => [c]
  | x :: r => if code_lt c x then x :: insert_rev c r else c :: rcodes
  end.
Definition insert_code (c : code) (codes : list code) : list code :=
  rev (insert_rev c (rev codes)).

(** huffman_encoder.cpp:112-155, the traversal.  The explicit stacks visit the right subtree first
    (it is pushed last); path.size() is the depth.  The provisional codes gathered on the way are
    overwritten by convert_to_canonical_form; they are kept here as 0. *)
Fixpoint visit (depth : Z) (t : tree) (codes : list code) : list code :=
  match t with
  | Leaf s _ => insert_code {| c_symbol := s; c_code := 0; c_length := u8 depth |} codes
  | Node _ l r => visit (depth + 1) l (visit (depth + 1) r codes)
  end.

(** huffman_encoder.cpp:181-183 compute_kraft. *)
Definition compute_kraft (max len : Z) : res Z :=
  let! k := shl 32 1 (max - len) in Ok (u16 k).

Definition set_length (c : code) (len : Z) : code :=
  {| c_symbol := c_symbol c; c_code := c_code c; c_length := len |}.

(** huffman_encoder.cpp:190-196. *)
Fixpoint clip_lengths (max : Z) (codes : list code) (kraft : Z) : res (list code * Z) :=
  match codes with
  | [] => Ok ([], kraft)
  | c :: r =>
      let len := Z.min (c_length c) max in
      let! k := compute_kraft max len in
      let! (r', kraft') := clip_lengths max r (u16 (kraft + k)) in
      Ok (set_length c len :: r', kraft')
  end.

(** huffman_encoder.cpp:204-208. *)
Fixpoint lengthen (fuel : nat) (max len kraft : Z) : res (Z * Z) :=
  if len <? max then
    match fuel with
    | O => UB
    | S fuel' =>
        let len' := u8 (len + 1) in
        let! k := compute_kraft max len' in
        lengthen fuel' max len' (u16 (kraft - k))
    end
  else Ok (len, kraft).
(** huffman_encoder.cpp:200-209; the codes come reversed (largest first). *)
Fixpoint lengthen_all (max allowed : Z) (rcodes : list code) (kraft : Z) : res (list code * Z) :=
  match rcodes with
  | [] => Ok ([], kraft)
  | c :: r =>
      if kraft >? allowed then
        let! (len, kraft') := lengthen (Z.to_nat max) max (c_length c) kraft in
        let! (r', kraft'') := lengthen_all max allowed r kraft' in
        Ok (set_length c len :: r', kraft'')
      else Ok (rcodes, kraft)
  end.

(** huffman_encoder.cpp:218-222. *)
Fixpoint shorten (fuel : nat) (max allowed len kraft : Z) : res (Z * Z) :=
  let! k := compute_kraft max len in
  let candidate := u16 (kraft + k) in
  if candidate <=? allowed then
    match fuel with
    | O => UB
    | S fuel' => shorten fuel' max allowed (u8 (len - 1)) candidate
    end
  else Ok (len, kraft).
(** huffman_encoder.cpp:213-223. *)
Fixpoint shorten_all (max allowed : Z) (codes : list code) (kraft : Z) : res (list code) :=
  match codes with
  | [] => Ok []
  | c :: r =>
      let! (len, kraft') := shorten (Z.to_nat max) max allowed (c_length c) kraft in
      let! r' := shorten_all max allowed r kraft' in
      Ok (set_length c len :: r')
  end.

(** huffman_encoder.cpp:183-228 limit_code_lengths. *)
Definition limit_code_lengths (max : Z) (codes : list code) : res (list code) :=
  let! top := shl 32 1 max in
  let allowed := u16 (top - 1) in
  let! (codes1, kraft1) := clip_lengths max codes 0 in
  let! (rcodes2, kraft2) := lengthen_all max allowed (rev codes1) kraft1 in
  shorten_all max allowed (rev rcodes2) kraft2.

(** huffman_encoder.cpp:239-247: codes after [prev]. *)
Fixpoint canonical_from (prev : code) (codes : list code) : res (list code) :=
  match codes with
  | [] => Ok []
  | c :: r =>
      let! v := shl 32 (u16 (c_code prev + 1)) (c_length c - c_length prev) in
      let c' := {| c_symbol := c_symbol c; c_code := u16 v; c_length := c_length c |} in
      let! r' := canonical_from c' r in
      Ok (c' :: r')
  end.
(** huffman_encoder.cpp:231-253 convert_to_canonical_form. *)
Definition convert_to_canonical_form (codes : list code) : res (list code) :=
  match codes with
  | [] => Ok []
  | [c] => Ok [{| c_symbol := c_symbol c; c_code := 0; c_length := 1 |}]
  | c :: r =>
      let c' := {| c_symbol := c_symbol c; c_code := 0; c_length := c_length c |} in
      let! r' := canonical_from c' r in Ok (c' :: r')
  end.

(** huffman_encoder.cpp:115-167 create_codes. *)
Definition create_codes (max : Z) (t : tree) : res (list code) :=
  let codes := visit 0 t [] in
  let longest := fold_right Z.max 0 (map c_length codes) in
  let! codes' := (if longest >? max then limit_code_lengths max codes else Ok codes) in
  convert_to_canonical_form codes'.

(** The calls made on the BitStreamWriter, in order, as (type width, value, size). *)
Definition byte_field (v : Z) : field := {| f_width := 8; f_value := u8 v; f_size := s_bits_per_byte |}.
Definition word_field (v : Z) : field := {| f_width := 16; f_value := u16 v; f_size := s_bits_per_word |}.

(** huffman_encoder.cpp:251-261 encode_header, [kb] = configured chunk size in KiB (the 32-bit
    m_chunk_size is kb << 10, coder_config.cpp:6-12). *)
Definition encode_header (kb max : Z) : list field :=
  [byte_field 1; word_field (Z.shiftr (u32 (Z.shiftl kb 10)) 10); byte_field max].

(** huffman_encoder.cpp:264-281: number of codes of each length, up to the greatest length. *)
Fixpoint incr (counts : list Z) (i : nat) : list Z :=
  match counts, i with
  | c :: r, O => u16 (c + 1) :: r
  | c :: r, S i' => c :: incr r i'
  | [], _ => []
  end.
Fixpoint length_counts (codes : list code) (counts : list Z) : list Z :=
  match codes with
  | [] => counts
  | c :: r =>
      let n := Z.to_nat (c_length c) in
      let counts1 := if (length counts <=? n)%nat then counts ++ repeat 0 (n + 1 - length counts) else counts in
      length_counts r (incr counts1 n)
  end.
(** huffman_encoder.cpp:269-301 encode_codes. *)
Definition encode_codes (codes : list code) : list field :=
  let counts := length_counts codes [0] in
  byte_field (Z.of_nat (length counts)) :: map word_field counts ++
  map (fun c => byte_field (c_symbol c)) codes.

(** huffman_encoder.cpp:304-321 encode_symbols; a symbol without code finds the default
    HuffmanCode. *)
Definition code_of_symbol (codes : list code) (s : Z) : code :=
  match find (fun c => c_symbol c =? s) codes with
  | Some c => c
  | None => {| c_symbol := 0; c_code := 0; c_length := 0 |}
  end.
Definition encode_symbols (codes : list code) (chunk : list Z) : list field :=
  map (fun s => let c := code_of_symbol codes s in
                {| f_width := 16; f_value := c_code c; f_size := c_length c |}) chunk.

(** One iteration of the loop at huffman_encoder.cpp:46-53, given the tree. *)
Definition encode_one (max : Z) (t : tree) (chunk : list Z) : res (list field) :=
  let! codes := create_codes max t in
  Ok (encode_codes codes ++ encode_symbols codes chunk).

(** huffman_encoder.cpp:46-53, 59-66: the whole loop; [size] = m_chunk_size.  A read after the
    stream hit its end (or of zero bytes) yields nothing and ends the loop. *)
Inductive encode_chunks (size : nat) (max : Z) : list Z -> res (list field) -> Prop :=
| chunks_done input : firstn size input = [] -> encode_chunks size max input (Ok [])
| chunks_more input t rest :
    firstn size input <> [] ->
    create_tree (firstn size input) t ->
    encode_chunks size max (skipn size input) rest ->
    encode_chunks size max input
      (let! fs := encode_one max t (firstn size input) in let! fs' := rest in Ok (fs ++ fs')).

(** huffman_encoder.cpp:33-56 encode_binary under BinaryEncoder::encode_internal (coder.cpp:105-109)
    and Encoder::encode_string (coder.cpp:53-74).  Result: [Ok None] = failure reported. *)
Definition encode_string (hb : bool) (kb max : Z) (input : list Z) (result : res (option (list Z))) : Prop :=
  if max >=? 16 then result = Ok None
  else exists body, encode_chunks (Z.to_nat (u32 (Z.shiftl kb 10))) max input body /\
    result = (let! fs := body in
              let! (file, ok) := produce hb (encode_header kb max ++ fs) in
              Ok (if ok then Some file else None)).

(** * Decoder *)

(** huffman_decoder.cpp:92-131 decode_header_version1 after 60-83 decode_header: None = failure,
    otherwise (chunk size, maximum code length). *)
Definition decode_header (hb : bool) (r : reader) : res (option (Z * Z) * reader) :=
  let! (version, ok, r1) := read_byte hb r in
  if negb ok then Ok (None, r1) else
  if negb (version =? 1) then Ok (None, r1) else
  let! (kb, ok2, r2) := read_word hb r1 in
  if negb ok2 then Ok (None, r2) else
  if kb =? 0 then Ok (None, r2) else
  let! (max, ok3, r3) := read_byte hb r2 in
  if negb ok3 then Ok (None, r3) else
  if (max =? 0) || (max >=? 16) then Ok (None, r3) else
  Ok (Some (u32 (Z.shiftl kb 10), max), r3).

(** huffman_decoder.cpp:156-166: [n] length counts. *)
Fixpoint decode_counts (hb : bool) (n : nat) (r : reader) : res (option (list Z) * reader) :=
  match n with
  | O => Ok (Some [], r)
  | S n' =>
      let! (c, ok, r1) := read_word hb r in
      if negb ok then Ok (None, r1) else
      let! (cs, r2) := decode_counts hb n' r1 in
      Ok (match cs with Some l => Some (c :: l) | None => None end, r2)
  end.

(** huffman_decoder.cpp:171-204: [n] symbols of one length. [codes] is m_huffman_codes, last code
    first. *)
Fixpoint decode_length (hb : bool) (n : nat) (len : Z) (codes : list code) (r : reader)
  : res (option (list code) * reader) :=
  match n with
  | O => Ok (Some codes, r)
  | S n' =>
      let! (symbol, ok, r1) := read_byte hb r in
      if negb ok then Ok (None, r1) else
      let! v := match codes with
                | [] => Ok 0
                | last :: _ => let! v := shl 32 (c_code last + 1) (u8 (len - c_length last)) in Ok (u16 v)
                end in
      if (length codes =? 256)%nat then Ok (None, r1) else
      decode_length hb n' len ({| c_symbol := symbol; c_code := v; c_length := len |} :: codes) r1
  end.
(** huffman_decoder.cpp:169-205. *)
Fixpoint decode_lengths (hb : bool) (counts : list Z) (len : Z) (codes : list code) (r : reader)
  : res (option (list code) * reader) :=
  match counts with
  | [] => Ok (Some codes, r)
  | c :: rest =>
      let! (cs, r1) := decode_length hb (Z.to_nat c) len codes r in
      match cs with
      | Some codes' => decode_lengths hb rest (len + 1) codes' r1
      | None => Ok (None, r1)
      end
  end.

(** The prefix table: (symbol, length) entries; make_unique value-initialises them to zero. *)
Definition table := list (Z * Z).
Definition store (tb : table) (i : Z) (e : Z * Z) : res table :=
  if (0 <=? i) && (i <? Z.of_nat (length tb))
  then Ok (firstn (Z.to_nat i) tb ++ e :: skipn (S (Z.to_nat i)) tb) else UB.

(** huffman_decoder.cpp:219-224: indices base + j for j < n. *)
Fixpoint fill_entries (n : nat) (base : Z) (e : Z * Z) (tb : table) : res table :=
  match n with
  | O => Ok tb
  | S n' => let! tb' := fill_entries n' base e tb in store tb' (u16 (base + Z.of_nat n')) e
  end.
(** huffman_decoder.cpp:212-226 convert_to_prefix_table. *)
Fixpoint convert_to_prefix_table (longest : Z) (codes : list code) (tb : table) : res table :=
  match codes with
  | [] => Ok tb
  | c :: r =>
      let shift := u8 (longest - c_length c) in
      let! n := shl 32 1 shift in
      let! base := shl 32 (c_code c) shift in
      let! tb' := fill_entries (Z.to_nat n) base (c_symbol c, c_length c) tb in
      convert_to_prefix_table longest r tb'
  end.

(** huffman_decoder.cpp:134-209 decode_codes: None = failure, otherwise (longest, codes, table). *)
Definition decode_codes (hb : bool) (max : Z) (tb : table) (r : reader)
  : res (option (Z * list code * table) * reader) :=
  let! (counts_size, ok, r1) := read_byte hb r in
  if negb ok then Ok (None, r1) else
  if (counts_size =? 0) || (counts_size >? max + 1) then Ok (None, r1) else
  let longest := u8 (counts_size - 1) in
  let! (counts, r2) := decode_counts hb (Z.to_nat counts_size) r1 in
  match counts with
  | None => Ok (None, r2)
  | Some counts =>
      let! (codes, r3) := decode_lengths hb counts 0 [] r2 in
      match codes with
      | None => Ok (None, r3)
      | Some rcodes =>
          let! tb' := convert_to_prefix_table longest (rev rcodes) tb in
          Ok (Some (longest, rev rcodes, tb'), r3)
      end
  end.

(** huffman_decoder.cpp:229-254 decode_symbols: the symbols decoded, at most [n] = chunk size. *)
Fixpoint decode_symbols (hb : bool) (n : nat) (longest : Z) (tb : table) (r : reader)
  : res (list Z * reader) :=
  match n with
  | O => Ok ([], r)
  | S n' =>
      let! (prefix, got, r1) := peek_bits hb r 16 longest in
      if got =? 0 then Ok ([], r1) else
      if prefix <? Z.of_nat (length tb) then
        let '(sym, len) := nth (Z.to_nat prefix) tb (0, 0) in
        let! (out, r2) := decode_symbols hb n' longest tb (discard_bits r1 len) in
        Ok (sym :: out, r2)
      else UB
  end.

(** huffman_decoder.cpp:34-67 decode_binary, the loop; [acc] = bytes written to the (unbounded)
    output stream. *)
Fixpoint decode_loop (fuel : nat) (hb : bool) (size max : Z) (tb : table) (acc : list Z) (r : reader)
  : res (option (list Z)) :=
  if fully_consumed r then Ok (Some acc) else
  match fuel with
  | O => UB
  | S fuel' =>
      let! (codes, r1) := decode_codes hb max tb r in
      match codes with
      | None => Ok None
      | Some (longest, _, tb') =>
          let! (out, r2) := decode_symbols hb (Z.to_nat size) longest tb' r1 in
          if (Z.of_nat (length out) =? size) || fully_consumed r2
          then decode_loop fuel' hb size max tb' (acc ++ out) r2
          else Ok None
      end
  end.

(** BinaryDecoder::decode_internal (coder.cpp:163-167) and Decoder::decode_string (112-134).  Each
    iteration of the loop reads at least one byte, so as many iterations as bits are enough. *)
Definition decode_string (hb : bool) (file : list Z) : res (option (list Z)) :=
  let! (hdr, r) := decode_header hb (open_reader hb file) in
  match hdr with
  | None => Ok None
  | Some (size, max) =>
      decode_loop (8 * length file) hb size max (repeat (0, 0) (Z.to_nat (2 ^ max))) [] r
  end.
