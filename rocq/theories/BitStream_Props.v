(** Properties C01-C05 of the bit stream classes. *)
From Verif Require Import Common Bits BitStream_Model Endian_Proofs BitStream_Spec BitStream_Proofs.

(** * Client programs (the only code below that is not from the library) *)

(** Construct a writer on an empty std::stringstream, write every field, finish: the resulting
    bytes and finish()'s result. *)
Fixpoint write_all (hb : bool) (w : writer) (fs : list field) : res writer :=
  match fs with
  | [] => Ok w
  | f :: r => let! w1 := write_bits hb w (f_width f) (f_value f) (f_size f) in write_all hb w1 r
  end.
Definition empty_stream : ostream := {| os_data := []; os_pos := 0; os_good := true; os_cap := None |}.
Definition produce (hb : bool) (fs : list field) : res (list Z * bool) :=
  let! w := write_all hb (writer_new hb empty_stream) fs in
  let '(w', ok) := finish hb w in Ok (os_data (w_out w'), ok).

Definition reader_step (hb : bool) (r : reader) (o : op) : res (reader * option (Z * Z)) :=
  match o with
  | OpRead w size => let! (v, n, r1) := read_bits hb r w size in Ok (r1, Some (v, n))
  | OpPeek w size => let! (v, n, r1) := peek_bits hb r w size in Ok (r1, Some (v, n))
  | OpDiscard n => Ok (discard_bits r n, None)
  end.
Fixpoint reader_run (hb : bool) (r : reader) (ops : list op) : res (reader * list (option (Z * Z))) :=
  match ops with
  | [] => Ok (r, [])
  | o :: rest => let! (r1, out) := reader_step hb r o in
                 let! (r2, outs) := reader_run hb r1 rest in Ok (r2, out :: outs)
  end.
Definition open_reader (hb : bool) (file : list Z) : reader :=
  reader_new hb {| is_rest := file; is_good := true |}.

(** * Writer: C02 / C03 *)
Lemma writer_new_inv hb : winv (writer_new hb empty_stream) [] /\
  wbits (writer_new hb empty_stream) [] = [] /\
  os_data (w_out (writer_new hb empty_stream)) = [208].
Proof.
  assert (E : os_data (w_out (writer_new hb empty_stream)) = [208]) by (destruct hb; reflexivity).
  split; [|split; [destruct hb; reflexivity|assumption]].
  constructor; try (destruct hb; cbn; (reflexivity || lia || now constructor)).
  exists 208. assumption.
Qed.

Lemma write_all_ok hb : forall fs w body before,
  winv w body -> (exists rest, os_data (w_out w) = 208 :: rest) ->
  Z.of_nat (length (wbits w body)) = before ->
  Forall field_ok fs -> no_full_word_after_full_buffer before fs ->
  exists w' body', write_all hb w fs = Ok w' /\ winv w' body' /\
    (exists rest, os_data (w_out w') = 208 :: rest) /\
    wbits w' body' = wbits w body ++ payload_of fs.
Proof.
  induction fs as [|f fs IH]; intros w body before I Hh Hb HF HN.
  - exists w, body. cbn. rewrite app_nil_r. auto.
  - inversion_clear HF as [|? ? [Hw [Hs Hv]] HF']. cbn [no_full_word_after_full_buffer] in HN.
    destruct HN as [HN HN'].
    pose proof (wbits_length _ _ I) as HL. pose proof (wi_len _ _ I). pose proof (wi_pos _ _ I).
    destruct (write_bits_ok hb w body (f_width f) (f_value f) (f_size f) I Hw) as (w1 & b1 & E & I1 & B1 & _);
      [lia|assumption|intros [? ?]; apply HN; dlia|lia|].
    assert (Hh1 : exists rest, os_data (w_out w1) = 208 :: rest).
    { destruct Hh as [rest Hrest]. destruct (wi_h _ _ I1) as [h1 Hh1].
      revert E. unfold write_bits.
      assert (Hfl : forall o n v k, os_data o = 208 :: rest -> os_pos o = length (os_data o) ->
         os_cap o = None -> exists r', os_data (flush hb o n v k) = 208 :: r').
      { intros o n v k Ho Hop Hoc. unfold flush, sputn. destruct (os_good o); [|eauto].
        cbn [os_data]. rewrite Hoc, Hop, overwrite_end, Ho. cbn [app]. eauto. }
      destruct (f_size f >? w_position w); cbn [bind].
      - destruct (shr _ _ _); [|discriminate]. cbn [bind]. destruct (bit_mask _ _); [|discriminate]. cbn [bind].
        destruct (shl _ _ _); [|discriminate]. cbn [bind]. intros E; inversion E; subst; cbn [w_out].
        unfold flush_buffer; cbn [w_out]. apply Hfl; [assumption|apply (wi_end _ _ I)|apply (wi_cap _ _ I)].
      - destruct (shl _ _ _); [|discriminate]. cbn [bind]. intros E; inversion E; subst; cbn [w_out]. eauto. }
    assert (Hlen1 : Z.of_nat (length (wbits w1 b1)) = before + f_size f).
    { rewrite B1, app_length, bits_msb_length. lia. }
    destruct (IH w1 b1 (before + f_size f) I1 Hh1 Hlen1 HF' HN') as (w2 & b2 & E2 & I2 & Hh2 & B2).
    exists w2, b2. cbn [write_all]. rewrite E. cbn [bind]. split; [exact E2|]. split; [exact I2|].
    split; [exact Hh2|]. rewrite B2, B1, <- app_assoc. f_equal. cbn [payload_of flat_map].
    rewrite spec_bits_eq. reflexivity.
Qed.

(** C02: whatever the sequence of fields, the finished file is the documented layout of exactly
    those bits, on hosts of either endianness, and finish() reports success. *)
Theorem bitstream_file_layout : forall hb fs,
  Forall field_ok fs -> no_full_word_after_full_buffer 0 fs ->
  exists file, produce hb fs = Ok (file, true) /\ file_holds file (payload_of fs).
Proof.
  intros hb fs HF HN. destruct (writer_new_inv hb) as (I & B & H).
  destruct (write_all_ok hb fs _ [] 0 I) as (w & body & E & I' & [rest Hr] & B'); try assumption.
  { eauto. } { rewrite B. reflexivity. }
  destruct (wi_h _ _ I') as [h Hh].
  assert (Hh208 : os_data (w_out w) = 208 :: body) by congruence.
  destruct (finish_ok hb w body I') as [_ HF2].
  destruct (HF2 208 Hh208 eq_refl) as (pad & body' & Hpad & EF & HB' & Hbits).
  unfold produce. rewrite E. cbn [bind]. rewrite EF. cbn [w_out os_data].
  eexists. split; [reflexivity|]. exists pad, body'. split; [assumption|].
  split; [reflexivity|]. split; [assumption|].
  rewrite spec_file_bits_eq, Hbits, B', B. reflexivity.
Qed.

(** The layout determines the file: there is one file per payload (so in particular the file does
    not depend on how the payload was split into calls, or on the host). *)
Theorem bitstream_file_unique : forall f1 f2 payload,
  file_holds f1 payload -> file_holds f2 payload -> f1 = f2.
Proof.
  intros f1 f2 payload (p1 & b1 & L1 & E1 & F1 & B1) (p2 & b2 & L2 & E2 & F2 & B2).
  rewrite spec_file_bits_eq in B1, B2.
  pose proof (f_equal (@length bool) B1) as N1. pose proof (f_equal (@length bool) B2) as N2.
  rewrite bytes_bits_length, app_length, repeat_length in N1, N2.
  assert (p1 = p2) by lia. subst p2. rewrite <- B2 in B1.
  assert (b1 = b2); [|congruence].
  clear - B1 F1 F2. revert b2 B1 F2. induction F1 as [|x b1 Hx F1 IH]; intros b2 B1 F2.
  - destruct b2 as [|y b2]; [reflexivity|]. apply (f_equal (@length bool)) in B1.
    rewrite !bytes_bits_length in B1. cbn in B1. lia.
  - destruct b2 as [|y b2].
    + apply (f_equal (@length bool)) in B1. rewrite !bytes_bits_length in B1. cbn in B1. lia.
    + change (bits_msb 8 x ++ bytes_bits b1 = bits_msb 8 y ++ bytes_bits b2) in B1.
      inversion_clear F2.
      assert (bits_msb 8 x = bits_msb 8 y /\ bytes_bits b1 = bytes_bits b2) as [E1 E2].
      { pose proof (f_equal (firstn 8) B1) as P. pose proof (f_equal (skipn 8) B1) as Q.
        exact (conj P Q). }
      f_equal; [|now apply IH]. apply (bits_msb_inj 8); [exact Hx|assumption|assumption].
Qed.

(** The layout determines the payload. *)
Theorem bitstream_payload_unique : forall file p1 p2,
  file_holds file p1 -> file_holds file p2 -> p1 = p2.
Proof.
  intros file p1 p2 (a1 & b1 & L1 & E1 & F1 & B1) (a2 & b2 & L2 & E2 & F2 & B2).
  assert (H : 26 * 8 + Z.of_nat a1 = 26 * 8 + Z.of_nat a2 /\ b1 = b2) by (split; congruence).
  destruct H as [Ha ->]. assert (a1 = a2) by lia. subst a2.
  rewrite B1 in B2. now apply app_inv_tail in B2.
Qed.

(** C03, the part that holds: a field whose value fits its size contributes exactly its bits, after
    all earlier bits and before all later ones.  (Special case of the layout, stated on its own.) *)
Theorem bitstream_write_exact_partial : forall hb pre f post,
  Forall field_ok (pre ++ f :: post) -> no_full_word_after_full_buffer 0 (pre ++ f :: post) ->
  exists file, produce hb (pre ++ f :: post) = Ok (file, true) /\
    file_holds file (payload_of pre ++ spec_bits (Z.to_nat (f_size f)) (f_value f) ++ payload_of post).
Proof.
  intros hb pre f post HF HN. destruct (bitstream_file_layout hb _ HF HN) as (file & E & H).
  exists file. split; [exact E|]. unfold payload_of in H. rewrite flat_map_app in H. exact H.
Qed.

(** C03 refuted (1): the documentation says the low [size] bits are written, but a value with
    higher bits set corrupts bits written before it. *)
Definition low_bits (f : field) : field :=
  {| f_width := f_width f; f_value := f_value f mod 2 ^ f_size f; f_size := f_size f |}.
Theorem bitstream_high_bits_refuted :
  exists f1 f2 file, field_ok f1 /\ api_width (f_width f2) /\ 0 < f_size f2 <= f_width f2 /\
    0 <= f_value f2 < 2 ^ f_width f2 /\
    forall hb, produce hb [f1; f2] = Ok (file, true) /\
    ~ file_holds file (payload_of [f1; low_bits f2]).
Proof.
  exists {| f_width := 8; f_value := 0; f_size := 4 |}, {| f_width := 8; f_value := 0x1f; f_size := 4 |}, [208; 31].
  split; [unfold field_ok, api_width; cbn; lia|]. split; [unfold api_width; cbn; lia|].
  split; [cbn; lia|]. split; [cbn; lia|].
  intros hb. split; [destruct hb; reflexivity|].
  intros H. assert (H2 : file_holds [208; 31] (payload_of [{| f_width := 8; f_value := 31; f_size := 8 |}])).
  { exists 0%nat, [31]. repeat split; [lia|repeat constructor; lia]. }
  pose proof (bitstream_payload_unique _ _ _ H H2) as E. discriminate E.
Qed.

(** C03/C01 refuted (2): two consecutive full 64-bit fields execute a 64-bit shift of a 64-bit
    value, which is undefined behaviour. *)
Theorem bitstream_two_full_words_refuted : forall hb a b,
  0 <= a < 2 ^ 64 -> 0 <= b < 2 ^ 64 ->
  produce hb [{| f_width := 64; f_value := a; f_size := 64 |};
              {| f_width := 64; f_value := b; f_size := 64 |}] = UB.
Proof.
  intros hb a b Ha Hb. unfold produce. destruct (writer_new_inv hb) as (I & B & H). cbn [write_all f_width f_value f_size].
  unfold write_bits at 1. unfold writer_new, s_msb_position; cbn [w_position w_buffer w_out].
  change (64 >? 64) with false. cbn [bind w_position]. change (u8 (64 - 64)) with 0.
  rewrite shl_ok by lia. cbn [bind]. unfold write_bits; cbn [w_position].
  change (64 >? 0) with true. cbn [bind]. change (u8 (64 - 0)) with 64.
  reflexivity.
Qed.

(** The exact safety condition: with fitting fields the writer is defined iff no full word follows a
    full buffer. *)
Theorem bitstream_writer_defined_iff : forall hb fs,
  Forall field_ok fs ->
  (produce hb fs <> UB <-> no_full_word_after_full_buffer 0 fs).
Proof.
  intros hb fs HF. split.
  2:{ intros HN. destruct (bitstream_file_layout hb fs HF HN) as (f & E & _). congruence. }
  intros HD. destruct (writer_new_inv hb) as (I & B & H).
  assert (HD' : write_all hb (writer_new hb empty_stream) fs <> UB).
  { intros E. apply HD. unfold produce. now rewrite E. }
  assert (HL : Z.of_nat (length (wbits (writer_new hb empty_stream) [])) = 0) by now rewrite B.
  assert (HGen : forall n w body, 0 <= n -> winv w body -> write_all hb w fs <> UB ->
    Z.of_nat (length (wbits w body)) = n -> n = 0 \/ w_position w < 64 ->
    no_full_word_after_full_buffer n fs).
  2:{ apply (HGen 0 _ [] ltac:(lia) I HD' HL). left; reflexivity. }
  clear HD B H I HD' HL.
  induction HF as [|f fs [Hw [Hs Hv]] HF IH]; intros n w body Hn I HD HL HP; [exact Logic.I|].
  cbn [no_full_word_after_full_buffer].
  pose proof (wbits_length _ _ I) as HL'. pose proof (wi_len _ _ I). pose proof (wi_pos _ _ I).
  destruct (Z.eq_dec (f_size f) 64) as [E64|N64].
  - destruct (Z.eq_dec (w_position w) 0) as [E0|N0].
    + exfalso. apply HD. cbn [write_all]. unfold write_bits. rewrite E64, E0.
      change (64 >? 0) with true. cbn [bind]. reflexivity.
    + split; [intros [_ [? ?]]; dlia|].
      destruct (write_bits_ok hb w body (f_width f) (f_value f) (f_size f) I Hw) as (w1 & b1 & E & I1 & B1 & P1); [lia|assumption|lia|lia|].
      apply (IH (n + f_size f) w1 b1); [lia|assumption| |rewrite B1, app_length, bits_msb_length; lia|right; apply P1; lia].
      cbn [write_all] in HD. rewrite E in HD. exact HD.
  - split; [lia|].
    destruct (write_bits_ok hb w body (f_width f) (f_value f) (f_size f) I Hw) as (w1 & b1 & E & I1 & B1 & P1); [lia|assumption|lia|lia|].
    apply (IH (n + f_size f) w1 b1); [lia|assumption| |rewrite B1, app_length, bits_msb_length; lia|right; apply P1; lia].
    cbn [write_all] in HD. rewrite E in HD. exact HD.
Qed.

(** Size-0 writes (allowed by "size: number of bits") are undefined on a fresh writer. *)
Theorem bitstream_zero_bits_refuted : forall hb v, 0 <= v < 256 ->
  produce hb [{| f_width := 8; f_value := v; f_size := 0 |}] = UB.
Proof. intros. reflexivity. Qed.

(** finish() reports success although the device rejected the data (short streambuf writes are not
    reflected in the ostream state): here a device with room for the header only. *)
Definition one_byte_device : ostream :=
  {| os_data := []; os_pos := 0; os_good := true; os_cap := Some 1%nat |}.
Theorem bitstream_finish_reports_failure_refuted : forall hb,
  (let! w0 := write_byte hb (writer_new hb one_byte_device) 0xab in
   let '(w, ok) := finish hb w0 in Ok (os_data (w_out w), ok)) = Ok ([208], true) /\
  ~ file_holds [208] (payload_of [{| f_width := 8; f_value := 0xab; f_size := 8 |}]).
Proof.
  intros hb. split; [destruct hb; reflexivity|]. intros (pad & body & _ & E & _ & B).
  inversion E; subst. discriminate B.
Qed.

(** Writing after finish() overwrites the first bytes of the file instead of appending. *)
Theorem bitstream_write_after_finish_refuted : forall hb,
  (let! w := write_all hb (writer_new hb empty_stream)
               [{| f_width := 8; f_value := 0x11; f_size := 8 |}; {| f_width := 8; f_value := 0x22; f_size := 8 |}] in
   let '(w1, _) := finish hb w in
   let! w2 := write_byte hb w1 0x33 in
   let '(w3, ok) := finish hb w2 in Ok (os_data (w_out w3), ok)) = Ok ([208; 0x33; 0x22], true).
Proof. intros []; reflexivity. Qed.

(** finish() may be called twice: the second call changes nothing. *)
Theorem bitstream_finish_idempotent : forall hb w w' ok,
  0 <= w_position w <= 64 -> finish hb w = (w', ok) -> finish hb w' = (w', ok).
Proof.
  intros hb w w' ok Hw E.
  assert (Hp : w_position w' = 64).
  { unfold finish in E. unfold s_msb_position in E. rewrite u8_small in E by lia.
    destruct (Z.gtb_spec (64 - w_position w) 0); inversion E; subst; cbn; lia. }
  unfold finish at 1. rewrite Hp. cbn.
  unfold finish in E. inversion E; subst. reflexivity.
Qed.

(** * Reader: C01 / C04 / C05 *)
Lemma open_reader_ok hb file :
  Forall (fun b => 0 <= b < 256) file ->
  rinv (open_reader hb file) /\ rbits (open_reader hb file) = file_payload file /\
  r_position (open_reader hb file) = 0.
Proof.
  intros HF. unfold open_reader, reader_new.
  destruct file as [|h body].
  - destruct hb; (split; [constructor; vm_compute; first [constructor; fail|intuition discriminate]|split; reflexivity]).
  - rewrite fill_ok; [|unfold swap_size; lia|lia|assumption|reflexivity].
    change (Z.to_nat 1) with 1%nat. cbn [is_rest firstn skipn length Z.of_nat Pos.of_succ_nat Z.eqb Pos.eqb].
    replace (bval (bytes_bits [h]) * 2 ^ (8 * Z.of_nat (1 - 1))) with h.
    2:{ change (bytes_bits [h]) with (bits_msb 8 h ++ []). rewrite app_nil_r, bval_bits_msb.
        inversion HF; subst. change (2 ^ Z.of_nat 8) with 256. rewrite Z.mod_small by assumption.
        change (2 ^ (8 * Z.of_nat (1 - 1))) with 1. lia. }
    inversion_clear HF as [|? ? Hh HB].
    unfold s_magic_shift, s_magic_mask, s_remainder_shift, s_remainder_mask.
    rewrite Z.shiftr_0_r. rewrite Z.shiftr_div_pow2 by lia.
    change 31 with (2 ^ 5 - 1). change 7 with (2 ^ 3 - 1). rewrite !land_mask by lia.
    change (2 ^ 5) with 32. change (2 ^ 3) with 8.
    rewrite (Z.mod_small (h / 8) 32) by dlia. unfold s_magic.
    cbn [file_payload]. destruct (Z.eqb_spec (h / 8) 26).
    + split; [constructor; cbn; try assumption; dlia|]. split; [|reflexivity].
      unfold rbits, stream_bits; cbn. now rewrite spec_file_bits_eq.
    + split; [constructor; cbn; try assumption; dlia|]. split; reflexivity.
Qed.

Lemma reader_step_ok hb r o peeked :
  rinv r -> peeked <= r_position r -> op_legal (rbits r, peeked) o ->
  exists r', reader_step hb r o = Ok (r', snd (ideal_step (rbits r, peeked) o)) /\
    rinv r' /\ rbits r' = fst (fst (ideal_step (rbits r, peeked) o)) /\
    snd (fst (ideal_step (rbits r, peeked) o)) <= r_position r'.
Proof.
  intros I Hp HL. destruct o as [w s|w s|n]; cbn [op_legal] in HL; cbn [reader_step ideal_step fst snd].
  - destruct HL as (Hw & Hs & H1 & N1 & N2 & N3).
    destruct (read_bits_ok hb r w s I) as (r1 & E & I1 & R1 & P1); try assumption; [lia|lia|].
    rewrite E. cbn [bind]. exists r1. rewrite read_value_spec. split; [reflexivity|].
    split; [assumption|]. split; [assumption|]. apply (ri_pos _ I1).
  - destruct HL as (Hw & Hs & N1).
    destruct (peek_ok hb r w s I Hw) as (r1 & E & I1 & R1 & P1 & _); [lia| |lia|].
    { intros [? ?]. apply N1. repeat split; try assumption. lia. }
    rewrite E. cbn [bind]. exists r1. rewrite read_value_spec. cbn [snd]. auto.
  - destruct (discard_ok r n I) as [I1 R1]; [lia|]. eexists. split; [reflexivity|].
    split; [assumption|]. split; [assumption|]. unfold discard_bits; cbn [r_position].
    pose proof (ri_pos _ I). rewrite u8_small by lia. lia.
Qed.

(** C04 (and C05): on ARBITRARY bytes and for ANY legal history of reads, peeks and discards, the
    reader has no undefined behaviour and returns exactly what the ideal reader of that file's
    payload returns. *)
Theorem bitstream_reader_exact_partial : forall hb file ops,
  Forall (fun b => 0 <= b < 256) file -> ops_legal (file_payload file, 0) ops ->
  exists r, reader_run hb (open_reader hb file) ops =
              Ok (r, snd (ideal_run (file_payload file, 0) ops)).
Proof.
  intros hb file ops HF HL. destruct (open_reader_ok hb file HF) as (I & R & P).
  rewrite <- R in *. assert (Hp : 0 <= r_position (open_reader hb file)) by lia. clear R P HF.
  revert I HL Hp. generalize (open_reader hb file) as r. generalize 0 as peeked.
  induction ops as [|o ops IH]; intros peeked r I HL Hp.
  - eexists. reflexivity.
  - destruct HL as [Ho HL].
    destruct (reader_step_ok hb r o peeked I Hp Ho) as (r1 & E & I1 & R1 & P1).
    cbn [reader_run ideal_run]. rewrite E. cbn [bind].
    destruct (ideal_step (rbits r, peeked) o) as [[left1 pk1] out] eqn:ES. cbn [fst snd] in *.
    rewrite <- R1 in *.
    destruct (IH pk1 r1 I1 HL P1) as (r2 & E2). rewrite E2. cbn [bind].
    exists r2. destruct (ideal_run _ _) as [st2 outs]. reflexivity.
Qed.

(** C04, end of stream: after any legal history on a file with a valid header, fully_consumed() holds
    exactly when no payload bit is left. *)
Theorem bitstream_fully_consumed_iff : forall hb h body ops r out,
  Forall (fun b => 0 <= b < 256) (h :: body) -> h / 8 = 26 ->
  ops_legal (file_payload (h :: body), 0) ops ->
  reader_run hb (open_reader hb (h :: body)) ops = Ok (r, out) ->
  (fully_consumed r = true <-> fst (fst (ideal_run (file_payload (h :: body), 0) ops)) = []).
Proof.
  intros hb h body ops r out HF Hh HL HE.
  destruct (open_reader_ok hb _ HF) as (I & R & P).
  assert (HG : is_good (r_in (open_reader hb (h :: body))) = true).
  { unfold open_reader, reader_new. rewrite fill_ok; [|unfold swap_size; lia|lia|assumption|reflexivity].
    change (Z.to_nat 1) with 1%nat. cbn [is_rest firstn skipn length Z.of_nat Pos.of_succ_nat Z.eqb Pos.eqb].
    replace (bval (bytes_bits [h]) * 2 ^ (8 * Z.of_nat (1 - 1))) with h.
    2:{ change (bytes_bits [h]) with (bits_msb 8 h ++ []). rewrite app_nil_r, bval_bits_msb.
        inversion HF; subst. change (2 ^ Z.of_nat 8) with 256. rewrite Z.mod_small by assumption.
        change (2 ^ (8 * Z.of_nat (1 - 1))) with 1. lia. }
    inversion_clear HF as [|? ? Hb HB]. unfold s_magic_shift, s_magic_mask.
    rewrite Z.shiftr_div_pow2 by lia. change 31 with (2 ^ 5 - 1). rewrite land_mask by lia.
    change (2 ^ 5) with 32. change (2 ^ 3) with 8. rewrite Hh. reflexivity. }
  rewrite <- R in *. assert (Hp : 0 <= r_position (open_reader hb (h :: body))) by lia.
  clear R P HF Hh.
  assert (Good : forall r0 o r1 x, reader_step hb r0 o = Ok (r1, x) -> is_good (r_in r0) = true -> is_good (r_in r1) = true).
  { assert (GR : forall r0 r1, refill_buffer hb r0 = Ok r1 -> is_good (r_in r0) = true -> is_good (r_in r1) = true).
    { intros r0 r1. unfold refill_buffer, fill. intros E Hg. rewrite Hg in E.
      destruct (_ >? 0); [|inversion E; reflexivity].
      do 3 inv_bind E. destruct (at_eof _); [inv_bind E|]; inversion E; reflexivity. }
    assert (GP : forall r0 w s v n r1, peek_bits hb r0 w s = Ok (v, n, r1) -> is_good (r_in r0) = true -> is_good (r_in r1) = true).
    { intros r0 w s v n r1. unfold peek_bits. intros E Hg.
      inv_bind E. destruct a as [[[[ra ba] pa] la] sa]. do 3 inv_bind E. inversion E; subst.
      destruct (s >? r_position r0).
      - do 4 inv_bind Hb. inversion Hb; subst. eapply GR; eassumption.
      - inversion Hb; subst. assumption. }
    intros r0 o r1 x E Hg. destruct o as [w s|w s|n]; cbn [reader_step] in E.
    - inv_bind E. destruct a as [[v n] q]. inversion E; subst. clear E. unfold read_bits in Hb. destruct (w =? 64).
      + inv_bind Hb. destruct a as [[v1 n1] q1]. inv_bind Hb. destruct a as [[v2 n2] q2]. inv_bind Hb.
        inversion Hb; subst. cbn [discard_bits r_in].
        eapply GP; [eassumption|]. cbn [discard_bits r_in]. eapply GP; eassumption.
      + inv_bind Hb. destruct a as [[v1 n1] q1]. inversion Hb; subst. cbn [discard_bits r_in]. eapply GP; eassumption.
    - inv_bind E. destruct a as [[v n] q]. inversion E; subst. eapply GP; eassumption.
    - inversion E; subst. exact Hg. }
  revert I HL Hp HG HE. generalize (open_reader hb (h :: body)) as r0. generalize 0 as peeked.
  revert out. induction ops as [|o ops IH]; intros out peeked r0 I HL Hp HG HE.
  - cbn in HE. inversion HE; subst. cbn [ideal_run fst].
    unfold fully_consumed, rbits, stream_bits. rewrite HG. pose proof (ri_pos _ I) as Hp0. pose proof (ri_rem _ I).
    destruct (Z.eqb_spec (r_position r) 0) as [E|N].
    + rewrite E. cbn [Z.to_nat bits_msb seq rev map app]. unfold at_eof.
      destruct (is_rest (r_in r)) as [|b rest]; [split; reflexivity|].
      split; [discriminate|]. intros EE. apply (f_equal (@length bool)) in EE.
      rewrite firstn_length, bytes_bits_length in EE. cbn [length] in EE. lia.
    + split; [discriminate|]. intros EE. apply (f_equal (@length bool)) in EE.
      rewrite app_length, bits_msb_length in EE. cbn [length] in EE. lia.
  - destruct HL as [Ho HL].
    destruct (reader_step_ok hb r0 o peeked I Hp Ho) as (r1 & E & I1 & R1 & P1).
    cbn [reader_run] in HE. rewrite E in HE. cbn [bind] in HE.
    destruct (reader_run hb r1 ops) as [[r2 outs]|] eqn:E2; [|discriminate]. cbn [bind] in HE.
    inversion HE; subst. cbn [ideal_run].
    destruct (ideal_step (rbits r0, peeked) o) as [[left1 pk1] out1] eqn:ES. cbn [fst snd] in *.
    rewrite <- R1 in *.
    specialize (IH outs pk1 r1 I1 HL P1 (Good _ _ _ _ E HG) E2).
    destruct (ideal_run (rbits r1, pk1) ops) as [st2 outs2]. exact IH.
Qed.

(** C04 refuted: a 32-bit read (or peek) at the end of any stream shifts a 32-bit value by 32. *)
Theorem bitstream_read_at_end_refuted : forall hb file,
  Forall (fun b => 0 <= b < 256) file -> file_payload file = [] ->
  reader_run hb (open_reader hb file) [OpRead 32 32] = UB /\
  reader_run hb (open_reader hb file) [OpPeek 32 32] = UB /\
  reader_run hb (open_reader hb file) [OpRead 64 64] = UB.
Proof.
  intros hb file HF HP. destruct (open_reader_ok hb file HF) as (I & R & P). rewrite HP in R.
  set (r := open_reader hb file) in *.
  assert (E : peek_bits hb r 32 32 = UB).
  { unfold peek_bits. rewrite P. change (32 >? 0) with true. cbn iota.
    rewrite u8_small by lia. change (32 - 0) with 32. rewrite bit_mask_ok by lia. cbn [bind].
    rewrite shl_ok by lia. cbn [bind]. rewrite shl_ok by lia. cbn [bind].
    destruct (refill_ok hb r I) as (r1 & E & I1 & HR & Hmono & _). rewrite E. cbn [bind].
    rewrite R in HR. unfold rbits in HR. apply app_eq_nil in HR. destruct HR as [HR _].
    apply (f_equal (@length bool)) in HR. rewrite bits_msb_length in HR. cbn [length] in HR.
    pose proof (ri_pos _ I1). assert (r_position r1 = 0) as -> by lia.
    change (u8 (0 - 0)) with 0. change (u8 (32 - 0)) with 32. change (Z.min 32 0) with 0.
    change (u8 (32 - 0)) with 32. change (u8 (0 - 0 - 0)) with 0.
    change (Z.min 32 (u8 (0 - 0))) with 0. change (u8 (0 - 0 - 0)) with 0. rewrite shr_ok by lia. cbn [bind]. rewrite bit_mask_ok by lia. cbn [bind]. reflexivity. }
  split; [|split]; cbn [reader_run reader_step]; unfold read_bits.
  - cbn [Z.eqb Pos.eqb]. rewrite E. reflexivity.
  - rewrite E. reflexivity.
  - cbn [Z.eqb Pos.eqb]. change (u8 (64 / 2)) with 32. rewrite E. reflexivity.
Qed.

(** C05 refuted: discarding more than is buffered is not diagnosed: the position wraps around and the
    next peek of a single bit shifts out of range. *)
Theorem bitstream_over_discard_refuted : forall hb,
  reader_run hb (open_reader hb [208; 0xff]) [OpRead 8 8; OpDiscard 1; OpPeek 8 1] = UB.
Proof. intros []; reflexivity. Qed.

(** Specification of read-back. *)
Definition reads_of (fs : list field) : list op := map (fun f => OpRead (f_width f) (f_size f)) fs.
Definition values_of (fs : list field) : list (option (Z * Z)) := map (fun f => Some (f_value f, f_size f)) fs.

Lemma file_payload_holds file payload : file_holds file payload -> file_payload file = payload.
Proof.
  intros (pad & body & Hp & -> & HF & HB). cbn [file_payload].
  replace ((26 * 8 + Z.of_nat pad) / 8) with 26 by dlia.
  replace ((26 * 8 + Z.of_nat pad) mod 8) with (Z.of_nat pad) by dlia. rewrite Z.eqb_refl, Nat2Z.id.
  pose proof (f_equal (@length bool) HB) as L. rewrite spec_file_bits_eq, bytes_bits_length, app_length, repeat_length in L.
  rewrite HB. rewrite firstn_app. replace (8 * length body - pad - length payload)%nat with 0%nat by lia.
  cbn [firstn]. rewrite app_nil_r. apply firstn_all2. lia.
Qed.

Lemma spec_read_field f rest : field_ok f ->
  spec_read (spec_bits (Z.to_nat (f_size f)) (f_value f) ++ rest) (Z.to_nat (f_size f)) = (f_value f, f_size f).
Proof.
  intros (Hw & Hs & Hv). rewrite read_value_spec. unfold read_value. rewrite spec_bits_eq.
  rewrite app_length, bits_msb_length. f_equal; [|lia].
  replace (Z.to_nat (f_size f) - _)%nat with 0%nat by lia. cbn [repeat]. rewrite app_nil_r.
  rewrite firstn_app, bits_msb_length, Nat.sub_diag. cbn [firstn]. rewrite app_nil_r.
  rewrite firstn_all2 by (rewrite bits_msb_length; lia). rewrite bval_bits_msb, Z2Nat.id by lia.
  apply Z.mod_small. assumption.
Qed.

Lemma reads_legal fs : Forall field_ok fs -> Forall (fun f => f_width f = 64 -> 1 < f_size f) fs ->
  ops_legal (payload_of fs, 0) (reads_of fs) /\
  ideal_run (payload_of fs, 0) (reads_of fs) = (([], 0), values_of fs).
Proof.
  induction 1 as [|f fs Hf HF IH]; intros HW; [split; [exact I|reflexivity]|].
  inversion_clear HW as [|? ? H1 HW']. specialize (IH HW').
  pose proof Hf as (Hw & Hs & Hv).
  assert (Hskip : skipn (Z.to_nat (f_size f)) (payload_of (f :: fs)) = payload_of fs).
  { cbn [payload_of flat_map]. rewrite spec_bits_eq, skipn_app, bits_msb_length, Nat.sub_diag.
    rewrite skipn_all2 by (rewrite bits_msb_length; lia). reflexivity. }
  assert (Hlen : (Z.to_nat (f_size f) <= length (payload_of (f :: fs)))%nat).
  { cbn [payload_of flat_map]. rewrite spec_bits_eq, app_length, bits_msb_length. lia. }
  cbn [reads_of map values_of]. split.
  - cbn [ops_legal op_legal]. cbn [ideal_step fst]. rewrite Hskip. split; [|apply IH].
    repeat split; try assumption; try lia.
    intros (_ & _ & E). rewrite E in Hlen. cbn in Hlen. lia.
  - cbn [ideal_run ideal_step]. rewrite Hskip. fold (reads_of fs). destruct IH as [_ ->].
    f_equal. f_equal. f_equal. exact (spec_read_field f (payload_of fs) Hf).
Qed.

(** C01: everything written is read back, in order, with full counts, and then the stream is fully
    consumed -- for every sequence of fitting fields (64-bit reads of a single bit excepted: see
    [bitstream_reader_exact_partial]) avoiding the undefined two-full-words case. *)
Theorem bitstream_roundtrip_partial : forall hb_w hb_r fs,
  Forall field_ok fs -> Forall (fun f => f_width f = 64 -> 1 < f_size f) fs ->
  no_full_word_after_full_buffer 0 fs ->
  exists file r, produce hb_w fs = Ok (file, true) /\
    reader_run hb_r (open_reader hb_r file) (reads_of fs) = Ok (r, values_of fs) /\
    fully_consumed r = true.
Proof.
  intros hb_w hb_r fs HF HW HN.
  destruct (bitstream_file_layout hb_w fs HF HN) as (file & E & HH).
  pose proof (file_payload_holds _ _ HH) as HP.
  destruct HH as (pad & body & Hp & -> & HB & _).
  assert (HF256 : Forall (fun b => 0 <= b < 256) ((26 * 8 + Z.of_nat pad) :: body)) by (constructor; [lia|assumption]).
  destruct (reads_legal fs HF HW) as [HL HR]. rewrite <- HP in HL, HR.
  destruct (bitstream_reader_exact_partial hb_r _ (reads_of fs) HF256 HL) as (r & ER).
  exists ((26 * 8 + Z.of_nat pad) :: body), r. rewrite ER, HR. repeat split; [assumption|].
  apply (proj2 (bitstream_fully_consumed_iff hb_r _ _ _ _ _ HF256 ltac:(dlia) HL ER)).
  rewrite HR. reflexivity.
Qed.

(** C05: peeking has no observable effect: a legal history with an extra peek inserted anywhere
    yields the same results for all the other calls. *)
Theorem bitstream_peek_transparent : forall hb file ops w s ops2,
  Forall (fun b => 0 <= b < 256) file ->
  ops_legal (file_payload file, 0) (ops ++ OpPeek w s :: OpRead w s :: ops2) ->
  exists r1 r2 out1 v n out2,
    reader_run hb (open_reader hb file) (ops ++ OpPeek w s :: OpRead w s :: ops2) =
      Ok (r1, out1 ++ Some (v, n) :: Some (v, n) :: out2) /\
    reader_run hb (open_reader hb file) (ops ++ OpRead w s :: ops2) =
      Ok (r2, out1 ++ Some (v, n) :: out2) /\ length out1 = length ops.
Proof.
  intros hb file ops w s ops2 HF HL.
  assert (HL2 : ops_legal (file_payload file, 0) (ops ++ OpRead w s :: ops2)).
  { revert HL. generalize (file_payload file, 0) as st. induction ops as [|o ops IH]; intros st HL.
    - cbn [app ops_legal] in *. destruct st as [left pk]. cbn [ideal_step fst op_legal] in *. tauto.
    - cbn [app ops_legal] in *. destruct HL as [Ho HL]. split; [exact Ho|]. apply IH. exact HL. }
  destruct (bitstream_reader_exact_partial hb file _ HF HL) as (r1 & E1).
  destruct (bitstream_reader_exact_partial hb file _ HF HL2) as (r2 & E2).
  assert (HI : forall st, exists out1 v n out2,
     snd (ideal_run st (ops ++ OpPeek w s :: OpRead w s :: ops2)) = out1 ++ Some (v, n) :: Some (v, n) :: out2 /\
     snd (ideal_run st (ops ++ OpRead w s :: ops2)) = out1 ++ Some (v, n) :: out2 /\ length out1 = length ops).
  { clear. induction ops as [|o ops IH]; intros [left pk].
    - cbn [app ideal_run ideal_step].
      destruct (spec_read left (Z.to_nat s)) as [v n].
      destruct (ideal_run (skipn (Z.to_nat s) left, 0) ops2) as [st outs]. cbn [snd].
      exists [], v, n, outs. repeat split.
    - cbn [app ideal_run]. destruct (ideal_step (left, pk) o) as [st1 o1].
      destruct (IH st1) as (out1 & v & n & out2 & A & B & C).
      destruct (ideal_run st1 (ops ++ OpPeek w s :: _)); destruct (ideal_run st1 (ops ++ OpRead w s :: _)).
      cbn [snd] in *. subst. exists (o1 :: out1), v, n, out2. repeat split. cbn. now rewrite C. }
  destruct (HI (file_payload file, 0)) as (out1 & v & n & out2 & A & B & C).
  rewrite A in E1. rewrite B in E2. exists r1, r2, out1, v, n, out2. auto.
Qed.

(** ** write_byte, write_word, read_byte, read_word *)
Definition write_unit (hb : bool) (w : writer) (u : unit_) : res writer :=
  match u with UByte v => write_byte hb w v | UWord v => write_word hb w v end.
Fixpoint write_units (hb : bool) (w : writer) (us : list unit_) : res writer :=
  match us with [] => Ok w | u :: r => let! w1 := write_unit hb w u in write_units hb w1 r end.
Definition produce_units (hb : bool) (us : list unit_) : res (list Z * bool) :=
  let! w := write_units hb (writer_new hb empty_stream) us in
  let '(w', ok) := finish hb w in Ok (os_data (w_out w'), ok).
(** Read a value of the kind of [u]: the value, and what read_byte / read_word returned. *)
Definition read_unit (hb : bool) (r : reader) (u : unit_) : res (Z * bool * reader) :=
  match u with UByte _ => read_byte hb r | UWord _ => read_word hb r end.
Fixpoint read_units (hb : bool) (r : reader) (us : list unit_) : res (reader * list (Z * bool)) :=
  match us with
  | [] => Ok (r, [])
  | u :: rest => let! (v, ok, r1) := read_unit hb r u in
                 let! (r2, outs) := read_units hb r1 rest in Ok (r2, (v, ok) :: outs)
  end.

Definition unit_field (u : unit_) : field :=
  match u with UByte v => {| f_width := 8; f_value := v; f_size := 8 |} | UWord v => {| f_width := 16; f_value := v; f_size := 16 |} end.
Lemma write_units_all hb : forall us w, write_units hb w us = write_all hb w (map unit_field us).
Proof.
  induction us as [|u us IH]; intros w; [reflexivity|]. cbn [write_units map write_all].
  replace (write_unit hb w u) with (write_bits hb w (f_width (unit_field u)) (f_value (unit_field u)) (f_size (unit_field u))) by (destruct u; reflexivity).
  destruct (write_bits hb w _ _ _); [|reflexivity]. cbn [bind]. apply IH.
Qed.
Lemma units_ok us : Forall unit_ok us -> Forall field_ok (map unit_field us).
Proof.
  induction 1 as [|u us Hu _ IH]; [constructor|]. cbn [map]. constructor; [|assumption].
  destruct u; unfold field_ok, api_width; cbn [unit_field f_width f_size f_value]; cbn [unit_ok] in Hu; lia.
Qed.
Lemma units_no_full : forall us before, no_full_word_after_full_buffer before (map unit_field us).
Proof. induction us as [|u us IH]; intros before; cbn [map no_full_word_after_full_buffer]; [exact I|]. split; [|apply IH]. destruct u; cbn; lia. Qed.
Lemma units_payload us : payload_of (map unit_field us) = flat_map unit_bits us.
Proof. induction us as [|u us IH]; [reflexivity|]. cbn [map flat_map payload_of]. fold (payload_of (map unit_field us)). rewrite IH. destruct u; reflexivity. Qed.
Lemma read_units_run hb : forall us r r' , reader_run hb r (reads_of (map unit_field us)) = Ok (r', values_of (map unit_field us)) ->
  read_units hb r us = Ok (r', map (fun u => (unit_value u, true)) us).
Proof.
  induction us as [|u us IH]; intros r r' H; cbn [map reads_of values_of reader_run] in H; [injection H as <-; reflexivity|].
  cbn [read_units map]. cbn [reader_step] in H.
  assert (E : exists r1, read_bits hb r (f_width (unit_field u)) (f_size (unit_field u)) = Ok (f_value (unit_field u), f_size (unit_field u), r1) /\
    reader_run hb r1 (reads_of (map unit_field us)) = Ok (r', values_of (map unit_field us))).
  { destruct (read_bits hb r (f_width (unit_field u)) (f_size (unit_field u))) as [[[v n] r1]|]; [|discriminate].
    cbn [bind] in H. fold (reads_of (map unit_field us)) in H.
    destruct (reader_run hb r1 (reads_of (map unit_field us))) as [[r2 outs]|] eqn:ER; [|discriminate]. cbn [bind] in H.
    exists r1. injection H as -> -> -> ->. auto. }
  destruct E as (r1 & E1 & E2). apply IH in E2.
  destruct u; cbn [unit_field f_width f_size f_value] in E1; cbn [read_unit]; unfold read_byte, read_word, s_bits_per_byte, s_bits_per_word;
    rewrite E1; cbn [bind]; rewrite E2; reflexivity.
Qed.

(** Bytes and words: the file is the documented layout of their bits, everything is read back and
    reported as read. *)
Theorem bitstream_units_exact : forall hb_w hb_r us, Forall unit_ok us ->
  exists file r, produce_units hb_w us = Ok (file, true) /\ file_holds file (flat_map unit_bits us) /\
    read_units hb_r (open_reader hb_r file) us = Ok (r, map (fun u => (unit_value u, true)) us) /\ fully_consumed r = true.
Proof.
  intros hb_w hb_r us HU. pose proof (units_ok us HU) as HF.
  assert (HW : Forall (fun f => f_width f = 64 -> 1 < f_size f) (map unit_field us)).
  { rewrite Forall_map, Forall_forall. intros u _. destruct u; cbn; lia. }
  destruct (bitstream_roundtrip_partial hb_w hb_r (map unit_field us) HF HW (units_no_full us 0)) as (file & r & E & ER & EC).
  destruct (bitstream_file_layout hb_w (map unit_field us) HF (units_no_full us 0)) as (file' & E' & HH).
  assert (file' = file) by congruence. subst file'. exists file, r. rewrite units_payload in HH.
  split; [unfold produce_units; rewrite write_units_all; exact E|]. split; [assumption|]. split; [now apply read_units_run|assumption].
Qed.

(** At the end of the stream read_byte and read_word report failure. *)
Theorem bitstream_units_end : forall hb_w hb_r us u, Forall unit_ok us ->
  exists file r, produce_units hb_w us = Ok (file, true) /\ read_units hb_r (open_reader hb_r file) us = Ok (r, map (fun u => (unit_value u, true)) us) /\
    exists v r', read_unit hb_r r u = Ok (v, false, r').
Proof.
  intros hb_w hb_r us u HU. pose proof (units_ok us HU) as HF.
  assert (HW : Forall (fun f => f_width f = 64 -> 1 < f_size f) (map unit_field us)).
  { rewrite Forall_map, Forall_forall. intros x _. destruct x; cbn; lia. }
  destruct (bitstream_file_layout hb_w (map unit_field us) HF (units_no_full us 0)) as (file & E & HH).
  pose proof (file_payload_holds _ _ HH) as HP. destruct HH as (pad & body & Hp & -> & HB & _).
  assert (HF256 : Forall (fun b => 0 <= b < 256) ((26 * 8 + Z.of_nat pad) :: body)) by (constructor; [lia|assumption]).
  destruct (reads_legal _ HF HW) as [HL HR]. rewrite <- HP in HL, HR.
  set (fs := map unit_field us) in *. set (o := OpRead (f_width (unit_field u)) (f_size (unit_field u))).
  assert (HL2 : ops_legal (file_payload ((26 * 8 + Z.of_nat pad) :: body), 0) (reads_of fs ++ [o]) /\
    ideal_run (file_payload ((26 * 8 + Z.of_nat pad) :: body), 0) (reads_of fs ++ [o]) = (([], 0), values_of fs ++ [Some (0, 0)])).
  { revert HL HR. generalize (file_payload ((26 * 8 + Z.of_nat pad) :: body), 0) as st. generalize (values_of fs) as vs. generalize (reads_of fs) as ops. subst o. clear.
    induction ops as [|o ops IH]; intros vs st HL HR; cbn [app ideal_run ops_legal] in *.
    - injection HR as -> <-. destruct u; cbn [unit_field f_width f_size]; cbn; unfold api_width; split; try reflexivity; (split; [|exact I]); repeat split; try lia; intros; try lia; tauto.
    - destruct HL as [Ho HL]. destruct (ideal_step st o) as [st1 o1] eqn:ES. cbn [fst] in *.
      destruct (ideal_run st1 ops) as [st2 outs] eqn:EI. injection HR as -> <-. destruct (IH outs st1 HL EI) as [H1 H2]. split; [auto|]. rewrite H2. reflexivity. }
  destruct HL2 as [HL2 HR2].
  destruct (bitstream_reader_exact_partial hb_r _ _ HF256 HL) as (r & ER). rewrite HR in ER. cbn [snd] in ER.
  destruct (bitstream_reader_exact_partial hb_r _ _ HF256 HL2) as (r2 & ER2). rewrite HR2 in ER2. cbn [snd] in ER2.
  exists ((26 * 8 + Z.of_nat pad) :: body), r. split; [unfold produce_units; rewrite write_units_all; exact E|]. split; [now apply read_units_run|].
  assert (HS : forall ops r0 r3 vs v, reader_run hb_r r0 ops = Ok (r, vs) -> reader_run hb_r r0 (ops ++ [o]) = Ok (r3, vs ++ [v]) ->
    reader_step hb_r r o = Ok (r3, v)).
  { clear. induction ops as [|o1 ops IH]; intros r0 r3 vs v H1 H2; cbn [app reader_run] in *.
    - injection H1 as <- <-. destruct (reader_step hb_r r0 o) as [[r4 out]|]; [|discriminate]. cbn [bind] in H2. injection H2 as <- <-. reflexivity.
    - destruct (reader_step hb_r r0 o1) as [[r4 out]|]; [|discriminate]. cbn [bind] in *.
      destruct (reader_run hb_r r4 ops) as [[r5 outs]|] eqn:E1; [|discriminate]. cbn [bind] in H1. injection H1 as -> <-.
      destruct (reader_run hb_r r4 (ops ++ [o])) as [[r6 outs2]|] eqn:E2; [|discriminate]. cbn [bind] in H2. injection H2 as -> ->.
      exact (IH _ _ _ _ E1 E2). }
  specialize (HS _ _ _ _ _ ER ER2). subst o. cbn [reader_step] in HS.
  destruct (read_bits hb_r r (f_width (unit_field u)) (f_size (unit_field u))) as [[[v n] r1]|] eqn:EB; [|discriminate]. cbn [bind] in HS. injection HS as <- -> ->.
  exists 0, r1. destruct u; cbn [unit_field f_width f_size] in EB; cbn [read_unit]; unfold read_byte, read_word, s_bits_per_byte, s_bits_per_word;
    rewrite EB; reflexivity.
Qed.

(** * Non-vacuity *)
Example units_sample : Forall unit_ok [UByte 255; UWord 65535; UByte 0] /\
  produce_units false [UByte 255; UWord 65535; UByte 1] = Ok ([208; 255; 255; 255; 1], true).
Proof. split; [repeat constructor; cbn; lia|vm_compute; reflexivity]. Qed.

Definition sample_fields : list field :=
  [ {| f_width := 8; f_value := 5; f_size := 3 |};
    {| f_width := 64; f_value := 0xfedcba9876543210; f_size := 64 |};
    {| f_width := 16; f_value := 1023; f_size := 11 |};
    {| f_width := 32; f_value := 0xdeadbeef; f_size := 32 |} ].
Example sample_fields_ok : Forall field_ok sample_fields /\
  Forall (fun f => f_width f = 64 -> 1 < f_size f) sample_fields /\
  no_full_word_after_full_buffer 0 sample_fields.
Proof.
  split; [|split].
  - repeat constructor; cbn; unfold api_width; lia.
  - repeat constructor; cbn; lia.
  - cbn. lia.
Qed.
Example sample_file : produce false sample_fields =
  Ok ([26 * 8 + 2; 191; 219; 151; 83; 14; 202; 134; 66; 15; 255; 122; 182; 251; 188], true).
Proof. vm_compute. reflexivity. Qed.
Example sample_bad_file_legal :
  ops_legal (file_payload [26 * 8 + 5; 0xff], 0) [OpPeek 16 7; OpDiscard 2; OpRead 8 8].
Proof. vm_compute. repeat split; try lia; try congruence; intuition congruence. Qed.
