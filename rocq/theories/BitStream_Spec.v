(** Specification vocabulary for the bit stream properties (C01-C05): what a bit stream file is and
    what a history of API calls should do, without reference to the implementation's buffers. *)
From Verif Require Import Common.

(** Bits of a byte / of the low [n] bits of a number, most significant first. *)
Fixpoint spec_bits (n : nat) (v : Z) : list bool :=
  match n with
  | O => []
  | S k => Z.odd (v / 2 ^ Z.of_nat k) :: spec_bits k v
  end.

(** The unsigned number a bit string denotes, most significant bit first. *)
Definition spec_value (l : list bool) : Z :=
  fold_left (fun acc (b : bool) => 2 * acc + (if b then 1 else 0)) l 0.

Definition spec_file_bits (bytes : list Z) : list bool := flat_map (spec_bits 8) bytes.

(** A finished bit stream file holding exactly the bit string [payload]: a header byte carrying the
    magic 0x1a in its five high bits and the number of padding bits in its three low bits, then the
    payload packed MSB first and padded with that many (fewer than 8) zero bits. *)
Definition file_holds (file : list Z) (payload : list bool) : Prop :=
  exists (pad : nat) (body : list Z),
    (pad < 8)%nat /\ file = (26 * 8 + Z.of_nat pad) :: body /\
    Forall (fun b => 0 <= b < 256) body /\
    spec_file_bits body = payload ++ repeat false pad.

(** One call of write_bits / write_word / write_byte: the argument type's width, the value and the
    requested number of bits. *)
Record field := { f_width : Z; f_value : Z; f_size : Z }.

Definition api_width (w : Z) : Prop := w = 8 \/ w = 16 \/ w = 32 \/ w = 64.

(** A field whose value fits in the requested number of bits. *)
Definition field_ok (f : field) : Prop :=
  api_width (f_width f) /\ 0 < f_size f <= f_width f /\ 0 <= f_value f < 2 ^ f_size f.

(** The bit string a sequence of fields stands for. *)
Definition payload_of (fs : list field) : list bool :=
  flat_map (fun f => spec_bits (Z.to_nat (f_size f)) (f_value f)) fs.

(** Histories the writer supports: no 64-bit field begins right where a non-empty multiple of 64
    bits has been written (see [two_full_words_refuted] for what happens otherwise). *)
Fixpoint no_full_word_after_full_buffer (before : Z) (fs : list field) : Prop :=
  match fs with
  | [] => True
  | f :: r =>
      ~ (f_size f = 64 /\ 0 < before /\ before mod 64 = 0) /\
      no_full_word_after_full_buffer (before + f_size f) r
  end.

(** What a reader delivers when asked for [size] bits and [unread] remain: the bits that exist,
    left-aligned in a [size]-bit number, and how many there were. *)
Definition spec_read (unread : list bool) (size : nat) : Z * Z :=
  let got := firstn size unread in
  (spec_value (got ++ repeat false (size - length got)), Z.of_nat (length got)).

(** The payload a reader finds in arbitrary bytes: nothing without the magic, otherwise every bit
    after the header except the advertised padding. *)
Definition file_payload (file : list Z) : list bool :=
  match file with
  | h :: body =>
      if h / 8 =? 26 then
        firstn (8 * length body - Z.to_nat (h mod 8)) (spec_file_bits body)
      else []
  | [] => []
  end.

(** Calls a client may make on a reader. *)
Inductive op :=
| OpRead (width size : Z)      (* read_bits<uintN_t>(bits, size) *)
| OpPeek (width size : Z)      (* peek_bits<uintN_t>(bits, size), N < 64 *)
| OpDiscard (size : Z).        (* discard_bits(size) *)

(** Ideal reader: the unread bits, and how many of them were peeked and not yet dropped. *)
Definition ideal := (list bool * Z)%type.

Definition ideal_step (st : ideal) (o : op) : ideal * option (Z * Z) :=
  let '(unread, peeked) := st in
  match o with
  | OpRead _ size => ((skipn (Z.to_nat size) unread, 0), Some (spec_read unread (Z.to_nat size)))
  | OpPeek _ size =>
      let r := spec_read unread (Z.to_nat size) in ((unread, snd r), Some r)
  | OpDiscard n => ((skipn (Z.to_nat n) unread, peeked - n), None)
  end.

Fixpoint ideal_run (st : ideal) (ops : list op) : ideal * list (option (Z * Z)) :=
  match ops with
  | [] => (st, [])
  | o :: r => let '(st1, out) := ideal_step st o in
              let '(st2, outs) := ideal_run st1 r in (st2, out :: outs)
  end.

(** Calls the documentation allows, minus the ones shown undefined in BitStream_Props: a 32-bit
    request when nothing is unread (and the two 64-bit forms that contain one). *)
Definition op_legal (st : ideal) (o : op) : Prop :=
  let '(unread, peeked) := st in
  match o with
  | OpRead w size =>
      api_width w /\ 0 < size <= w /\ (w = 64 -> 1 < size) /\
      ~ (w = 32 /\ size = 32 /\ unread = []) /\
      ~ (w = 64 /\ size = 64 /\ (length unread <= 32)%nat) /\
      ~ (w = 64 /\ size = 63 /\ (length unread <= 31)%nat)
  | OpPeek w size =>
      (w = 8 \/ w = 16 \/ w = 32) /\ 0 < size <= w /\ ~ (w = 32 /\ size = 32 /\ unread = [])
  | OpDiscard n => 0 <= n <= peeked
  end.

Fixpoint ops_legal (st : ideal) (ops : list op) : Prop :=
  match ops with
  | [] => True
  | o :: r => op_legal st o /\ ops_legal (fst (ideal_step st o)) r
  end.

(** Values written with write_byte and write_word. *)
Inductive unit_ := UByte (v : Z) | UWord (v : Z).
Definition unit_ok (u : unit_) : Prop := match u with UByte v => 0 <= v < 2 ^ 8 | UWord v => 0 <= v < 2 ^ 16 end.
Definition unit_value (u : unit_) : Z := match u with UByte v | UWord v => v end.
Definition unit_bits (u : unit_) : list bool := match u with UByte v => spec_bits 8 v | UWord v => spec_bits 16 v end.
