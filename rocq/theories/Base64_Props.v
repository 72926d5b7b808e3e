(** Properties C06-C08: Base64Coder::encode_string / decode_string. *)
From Coq Require Import Strings.String.
From Verif Require Import Common Bits BitStream_Spec BitStream_Proofs Base64_Model Base64_Spec Base64_Proofs.

#[local] Open Scope list_scope.

(** The real buffer size.  Kept opaque: nothing below may compute with it. *)
Lemma chunks_pos : (0 < chunks)%nat.
Proof. unfold chunks. lia. Qed.
Lemma chunks_3 : (3 * chunks = Z.to_nat 196608)%nat.
Proof. unfold chunks. lia. Qed.
Lemma chunks_4 : (4 * chunks = Z.to_nat 262144)%nat.
Proof. unfold chunks. lia. Qed.

(** * C06 *)

(** Whenever the memset stays inside its array, encode_string succeeds and yields the RFC 4648 text,
    whatever the buffers held before. *)
Theorem base64_encode_rfc4648_partial : forall stale s,
  octet stale -> Forall octet s ->
  ~ (length s mod 3 <> 0 /\ Z.to_nat 196608 < 2 * (length s mod (Z.to_nat 196608)))%nat ->
  encode_string true chunks stale s = Ok (base64 s).
Proof.
  intros stale s Hst HF HO. unfold encode_string.
  apply encode_loop_ok; [apply chunks_pos|assumption|lia|assumption|].
  intros _. unfold overruns. rewrite chunks_3. exact HO.
Qed.

(** With the out-of-bounds part of the memset taken as harmless, for every input. *)
Theorem base64_encode_rfc4648_lenient : forall stale s,
  octet stale -> Forall octet s -> encode_string false chunks stale s = Ok (base64 s).
Proof.
  intros stale s Hst HF. unfold encode_string.
  apply encode_loop_ok; [apply chunks_pos|assumption|lia|assumption|discriminate].
Qed.

(** The result does not depend on the buffer size at all. *)
Theorem base64_encode_chunking_irrelevant : forall k k' stale stale' s,
  (0 < k)%nat -> (0 < k')%nat -> octet stale -> octet stale' -> Forall octet s ->
  encode_string false k stale s = encode_string false k' stale' s.
Proof.
  intros k k' st st' s Hk Hk' Hst Hst' HF. unfold encode_string.
  rewrite !encode_loop_ok by (assumption || lia || discriminate). reflexivity.
Qed.

Theorem base64_encoded_length : forall s, length (base64 s) = (4 * ((length s + 2) / 3))%nat.
Proof. exact base64_length. Qed.

(** C06 as stated is false: for every input whose final, partly filled block is longer than half the
    buffer, the memset at base64_coder.cpp:150 writes past the end of m_decoded. *)
Lemma encode_loop_overrun k stale : (0 < k)%nat -> octet stale -> forall fuel s,
  (length s < fuel)%nat -> Forall octet s -> overruns k (length s) ->
  encode_loop fuel true k stale s = UB.
Proof.
  intros Hk Hst. induction fuel as [|fuel IH]; intros s Hf HF HO; [lia|].
  cbn [encode_loop stream_read].
  destruct (Nat.ltb_spec (length s) (3 * k)) as [Hlt|Hge]; cbn [negb].
  - rewrite firstn_all2 by lia. destruct HO as [HM HO]. rewrite Nat.mod_small in HO by lia.
    unfold encode_block. rewrite encode_full_ok by assumption. cbn [bind].
    pose proof (Nat.div_mod (length s) 3 ltac:(lia)) as D.
    destruct (Nat.ltb_spec 0 (length s mod 3)); [|lia].
    rewrite <- D. cbn [andb]. destruct (Nat.ltb_spec (3 * k) (length s + length s)); [reflexivity|lia].
  - assert (HL1 : length (firstn (3 * k) s) = (3 * k)%nat) by (apply firstn_length_le; lia).
    assert (HM : ((3 * k) mod 3 = 0)%nat) by (rewrite Nat.mul_comm; apply Nat.mod_mul; lia).
    rewrite encode_block_ok; [|now apply Forall_firstn|assumption|rewrite HL1; intros _; left; exact HM].
    cbn [bind]. rewrite IH; [reflexivity|rewrite skipn_length; lia|now apply Forall_skipn|].
    rewrite skipn_length. unfold overruns in *.
    set (m := (length s - 3 * k)%nat) in *. replace (length s) with (m + 1 * (3 * k))%nat in HO by lia.
    rewrite Nat.mod_add in HO by lia. destruct HO as [H1 H2]. split; [|assumption].
    replace (m + 1 * (3 * k))%nat with (m + k * 3)%nat in H1 by lia. now rewrite Nat.mod_add in H1 by lia.
Qed.
Theorem base64_encode_overrun_refuted : forall stale s,
  octet stale -> Forall octet s ->
  (length s mod 3 <> 0 /\ Z.to_nat 196608 < 2 * (length s mod (Z.to_nat 196608)))%nat ->
  encode_string true chunks stale s = UB.
Proof.
  intros stale s Hst HF HO. unfold encode_string.
  apply encode_loop_overrun; [apply chunks_pos|assumption|lia|assumption|].
  unfold overruns. rewrite chunks_3. exact HO.
Qed.
(** such an input: 98306 zero bytes *)
Example base64_encode_overrun_example :
  encode_string true chunks 0 (repeat 0 (Z.to_nat 98306)) = UB.
Proof.
  apply base64_encode_overrun_refuted; [unfold octet; lia| |].
  - apply Forall_forall. intros x Hx. apply repeat_spec in Hx. subst. unfold octet. lia.
  - rewrite repeat_length. split.
    + intros H. apply (f_equal Z.of_nat) in H. rewrite Nat2Z.inj_mod, Z2Nat.id in H by lia. discriminate.
    + rewrite Nat.mod_small by lia. lia.
Qed.
(** "Hello, world" and friends, through the model with small buffers *)
Example base64_encode_example :
  encode_string true 4 7 (string_bytes "Hello"%string) = Ok (string_bytes "SGVsbG8="%string) /\
  encode_string true 4 7 (string_bytes "light work."%string) = UB /\
  encode_string false 4 7 (string_bytes "light work."%string) = Ok (string_bytes "bGlnaHQgd29yay4="%string) /\
  encode_string true 1 7 (string_bytes "light wor"%string) = Ok (string_bytes "bGlnaHQgd29y"%string) /\
  encode_string true 100 7 (string_bytes "M"%string) = Ok (string_bytes "TQ=="%string).
Proof. vm_compute. repeat split. Qed.

(** * C08 *)

(** For every ASCII input the decoder is free of undefined behaviour and accepts exactly the
    well-formed texts (except padded ones whose length is a multiple of the buffer size), with the
    bytes their symbols denote. *)
Theorem base64_decode_exact_partial : forall s,
  Forall (fun b => 0 <= b < 128) s ->
  (forall out, decode_string chunks s = Ok (Some out) <->
     exists symbols pad, well_formed s symbols pad /\ unbase64 symbols = out /\
       (pad = 0 \/ length s mod (Z.to_nat 262144) <> 0)%nat) /\
  decode_string chunks s <> UB.
Proof.
  intros s HA. unfold decode_string.
  destruct (decode_loop_total chunks chunks_pos (S (length s)) s [] true ltac:(lia) HA) as (r & E & H).
  split; [|rewrite E; discriminate]. intros out. split.
  - intros E'. rewrite E in E'. inversion E'; subst r. destruct (H out eq_refl) as (_ & sy & pad & HW & HB & EO).
    exists sy, pad. split; [assumption|]. split; [now rewrite EO|]. unfold boundary_ok in HB. now rewrite chunks_4 in HB.
  - intros (sy & pad & HW & EU & HB). rewrite (decode_loop_good chunks chunks_pos _ s [] sy pad); [|lia|assumption|].
    + cbn [app]. now rewrite EU.
    + unfold boundary_ok. now rewrite chunks_4.
Qed.

Lemma app_pad_unique : forall sy1 sy2 p1 p2, symbols_all sy1 -> symbols_all sy2 ->
  sy1 ++ repeat pad_char p1 = sy2 ++ repeat pad_char p2 -> sy1 = sy2 /\ p1 = p2.
Proof.
  assert (NP : ~ In pad_char alphabet).
  { intros H. apply spec_code_sym in H. destruct H as (_ & R & _). vm_compute in R. destruct R as [R _]. now apply R. }
  induction sy1 as [|a sy1 IH]; intros [|b sy2] p1 p2 H1 H2 E; cbn [app] in E.
  - split; [reflexivity|]. apply (f_equal (@length Z)) in E. now rewrite !repeat_length in E.
  - exfalso. destruct p1; [discriminate|]. cbn in E. inversion E; subst. inversion H2; subst. contradiction.
  - exfalso. destruct p2; [discriminate|]. cbn in E. inversion E; subst. inversion H1; subst. contradiction.
  - inversion E; subst. inversion H1; subst. inversion H2; subst.
    destruct (IH sy2 p1 p2) as [-> ->]; auto.
Qed.

(** The text determines its symbols and its padding, hence the decoded bytes are unique. *)
Theorem base64_well_formed_unique : forall s sy1 sy2 p1 p2,
  well_formed s sy1 p1 -> well_formed s sy2 p2 -> sy1 = sy2 /\ p1 = p2.
Proof.
  intros s sy1 sy2 p1 p2 (E1 & _ & _ & H1) (E2 & _ & _ & H2). rewrite E1 in E2. now apply app_pad_unique.
Qed.

(** C08 fails: a padded text exactly filling the buffer is rejected. *)
Theorem base64_decode_boundary_refuted : forall s symbols pad,
  well_formed s symbols pad -> (0 < pad)%nat -> (length s mod (Z.to_nat 262144) = 0)%nat ->
  decode_string chunks s = Ok None.
Proof.
  intros s sy pad HW Hp HM. pose proof (ascii_split _ _ _ HW) as HA. unfold decode_string.
  destruct (decode_loop_total chunks chunks_pos (S (length s)) s [] true ltac:(lia) HA) as (r & E & H).
  destruct r as [out|]; [|assumption]. exfalso.
  destruct (H out eq_refl) as (_ & sy' & pad' & HW' & HB & _).
  destruct (base64_well_formed_unique _ _ _ _ _ HW HW') as [_ <-].
  unfold boundary_ok in HB. rewrite chunks_4 in HB. lia.
Qed.

(** C08 fails: a byte above 127 in a quantum the decoder looks at indexes the table out of bounds. *)
Lemma decode_high_byte k a b c d : (2 <= k)%nat ->
  octet a -> octet b -> octet c -> octet d ->
  (128 <= a \/ 128 <= b \/ 128 <= c \/ 128 <= d) -> decode_string k [a; b; c; d] = UB.
Proof.
  intros Hk Ha Hb Hc Hd H. unfold decode_string. cbn [decode_loop].
  assert (HL : (length [a; b; c; d] <? 4 * k)%nat = true) by (apply Nat.ltb_lt; cbn [length]; lia).
  unfold stream_read. rewrite HL. rewrite firstn_all2 by (apply Nat.ltb_lt in HL; lia).
  cbn -[decode_chunk Nat.mul]. rewrite decode_chunk_ub by assumption. reflexivity.
Qed.
Theorem base64_decode_high_byte_refuted : forall a b c d,
  octet a -> octet b -> octet c -> octet d ->
  (128 <= a \/ 128 <= b \/ 128 <= c \/ 128 <= d) -> decode_string chunks [a; b; c; d] = UB.
Proof. intros a b c d. apply decode_high_byte. unfold chunks. lia. Qed.

Example base64_decode_example :
  decode_string 2 (string_bytes "bGlnaHQgd29yay4="%string) = Ok None /\   (* fills two buffers of 8 *)
  decode_string 3 (string_bytes "bGlnaHQgd29yay4="%string) = Ok (Some (string_bytes "light work."%string)) /\
  decode_string 3 (string_bytes "bGlnaHQgd29yay4"%string) = Ok None /\
  decode_string 3 (string_bytes "bG=naHQgd29yay4="%string) = Ok None /\
  decode_string 3 (string_bytes "TQ=="%string) = Ok (Some (string_bytes "M"%string)).
Proof. vm_compute. repeat split. Qed.

(** * C07 *)
Definition pads_at_boundary (n : nat) : Prop :=
  (n mod (Z.to_nat 196608) = Z.to_nat 196607 \/ n mod (Z.to_nat 196608) = Z.to_nat 196606)%nat.

Lemma pads_at_boundary_gen k n : (2 <= k)%nat ->
  (n mod (3 * k) = 3 * k - 1 \/ n mod (3 * k) = 3 * k - 2)%nat <->
  (((3 - n mod 3) mod 3 <> 0) /\ (4 * ((n + 2) / 3)) mod (4 * k) = 0)%nat.
Proof.
  intros Hk. rewrite Nat.mul_mod_distr_l by lia.
  assert (E3 : (n mod (3 * k) = n mod 3 + 3 * ((n / 3) mod k))%nat) by (apply Nat.mod_mul_r; lia).
  rewrite E3.
  pose proof (Nat.div_mod n 3 ltac:(lia)) as D. pose proof (Nat.mod_upper_bound n 3 ltac:(lia)) as U.
  set (q := (n / 3)%nat) in *. set (m := (n mod 3)%nat) in *. clearbody q m. clear E3.
  pose proof (Nat.mod_upper_bound q k ltac:(lia)) as UQ.
  assert (E2 : ((n + 2) / 3 = q + (m + 2) / 3)%nat).
  { rewrite D. replace (3 * q + m + 2)%nat with ((m + 2) + q * 3)%nat by lia. rewrite Nat.div_add by lia. lia. }
  rewrite E2. clear E2.
  assert (E1 : (1 mod k = 1)%nat) by (apply Nat.mod_small; lia).
  assert (EQ : ((q + 1) mod k = 0 <-> q mod k = k - 1)%nat).
  { rewrite (Nat.add_mod q 1), E1 by lia. destruct (Nat.eq_dec (q mod k) (k - 1)) as [Eq|Nq].
    - split; intros _; [assumption|]. rewrite Eq. replace (k - 1 + 1)%nat with k by lia. apply Nat.mod_same. lia.
    - rewrite Nat.mod_small by lia. split; lia. }
  set (w := (q mod k)%nat) in *. clearbody w.
  destruct m as [|[|[|m']]]; [| | |lia].
  - replace ((3 - 0) mod 3)%nat with 0%nat by reflexivity. split; lia.
  - replace ((3 - 1) mod 3)%nat with 2%nat by reflexivity. replace ((1 + 2) / 3)%nat with 1%nat by reflexivity. split; lia.
  - replace ((3 - 2) mod 3)%nat with 1%nat by reflexivity. replace ((2 + 2) / 3)%nat with 1%nat by reflexivity. split; lia.
Qed.
Lemma pads_at_boundary_gen' k a b c d n : (2 <= k)%nat ->
  a = (3 * k)%nat -> b = (3 * k - 1)%nat -> c = (3 * k - 2)%nat -> d = (4 * k)%nat ->
  (n mod a = b \/ n mod a = c)%nat <->
  (((3 - n mod 3) mod 3 <> 0) /\ (4 * ((n + 2) / 3)) mod d = 0)%nat.
Proof. intros Hk -> -> -> ->. now apply pads_at_boundary_gen. Qed.
Lemma c_2 : (2 <= Z.to_nat 65536)%nat. Proof. lia. Qed.
Lemma c_a : (Z.to_nat 196608 = 3 * Z.to_nat 65536)%nat. Proof. lia. Qed.
Lemma c_b : (Z.to_nat 196607 = 3 * Z.to_nat 65536 - 1)%nat. Proof. lia. Qed.
Lemma c_c : (Z.to_nat 196606 = 3 * Z.to_nat 65536 - 2)%nat. Proof. lia. Qed.
Lemma c_d : (Z.to_nat 262144 = 4 * Z.to_nat 65536)%nat. Proof. lia. Qed.
Lemma pads_at_boundary_iff n : pads_at_boundary n <->
  (((3 - n mod 3) mod 3 <> 0) /\ (4 * ((n + 2) / 3)) mod (Z.to_nat 262144) = 0)%nat.
Proof. exact (pads_at_boundary_gen' _ _ _ _ _ n c_2 c_a c_b c_c c_d). Qed.

Lemma encode_string_inv k stale s enc : (0 < k)%nat -> octet stale -> Forall octet s ->
  encode_string true k stale s = Ok enc -> ~ overruns k (length s) /\ enc = base64 s.
Proof.
  intros Hk Hst HF E. unfold encode_string in E.
  assert (HO : ~ overruns k (length s)).
  { intros HO. rewrite encode_loop_overrun in E by (assumption || lia). discriminate. }
  split; [assumption|]. rewrite encode_loop_ok in E by (assumption || lia || auto). congruence.
Qed.
Theorem base64_roundtrip_partial : forall stale s enc,
  octet stale -> Forall octet s ->
  encode_string true chunks stale s = Ok enc ->
  decode_string chunks enc = Ok (Some s).
Proof.
  intros stale s enc Hst HF E.
  destruct (encode_string_inv _ _ _ _ chunks_pos Hst HF E) as [HO ->]. clear E.
  destruct (base64_well_formed s HF) as (sy & HW & EU).
  apply base64_decode_exact_partial; [eapply ascii_split; eassumption|].
  exists sy, ((3 - length s mod 3) mod 3)%nat. split; [assumption|]. split; [assumption|].
  rewrite base64_length.
  destruct (Nat.eq_dec ((3 - length s mod 3) mod 3) 0) as [|N]; [now left|right]. intros E0.
  apply HO. assert (P : pads_at_boundary (length s)) by (apply pads_at_boundary_iff; auto).
  unfold overruns. rewrite chunks_3. split.
  - intros Em. apply N. rewrite Em. reflexivity.
  - unfold pads_at_boundary in P. set (m := (length s mod Z.to_nat 196608)%nat) in *. clearbody m. clear - P. lia.
Qed.

(** C07 fails even when the out-of-bounds memset does no harm: for every input one or two bytes
    short of a multiple of 192 KiB, the encoder's output is rejected by the decoder; and these are
    the only such inputs. *)
Theorem base64_roundtrip_exact : forall stale s,
  octet stale -> Forall octet s ->
  exists enc, encode_string false chunks stale s = Ok enc /\
    decode_string chunks enc = Ok (if in_dec Nat.eq_dec (length s mod (Z.to_nat 196608))%nat
                                        [Z.to_nat 196607; Z.to_nat 196606] then None else Some s).
Proof.
  intros stale s Hst HF. exists (base64 s). split; [now apply base64_encode_rfc4648_lenient|].
  destruct (base64_well_formed s HF) as (sy & HW & EU).
  assert (PB := pads_at_boundary_iff (length s)). rewrite <- base64_length in PB.
  destruct (in_dec _ _ _) as [Hin|Hn].
  - assert (P : pads_at_boundary (length s)).
    { destruct Hin as [H|[H|[]]]; [left|right]; symmetry; exact H. }
    apply PB in P. destruct P as [P1 P2].
    eapply base64_decode_boundary_refuted; [exact HW|lia|assumption].
  - apply base64_decode_exact_partial; [eapply ascii_split; eassumption|].
    exists sy, ((3 - length s mod 3) mod 3)%nat. split; [assumption|]. split; [assumption|].
    destruct (Nat.eq_dec ((3 - length s mod 3) mod 3) 0) as [|N]; [now left|right]. intros E0.
    apply Hn. assert (P : pads_at_boundary (length s)) by (apply PB; auto).
    destruct P as [-> | ->]; cbn [In]; auto.
Qed.
Theorem base64_roundtrip_refuted : exists s,
  Forall octet s /\ exists enc, encode_string false chunks 0 s = Ok enc /\ decode_string chunks enc = Ok None.
Proof.
  exists (repeat 0 (Z.to_nat 196607)).
  assert (HF : Forall octet (repeat 0 (Z.to_nat 196607))).
  { apply Forall_forall. intros x Hx. apply repeat_spec in Hx. subst. unfold octet. lia. }
  split; [assumption|]. destruct (base64_roundtrip_exact 0 _ ltac:(unfold octet; lia) HF) as (enc & E & D).
  exists enc. split; [assumption|]. rewrite D. destruct (in_dec _ _ _) as [|N]; [reflexivity|].
  exfalso. apply N. left. rewrite repeat_length. symmetry. apply Nat.mod_small. lia.
Qed.

Print Assumptions base64_encode_rfc4648_partial.
Print Assumptions base64_roundtrip_exact.
Print Assumptions base64_decode_exact_partial.
