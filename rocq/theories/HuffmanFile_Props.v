(** C11, on whole files: what the decoder does with any byte string whatsoever. *)
From Verif Require Import Common Bits BitStream_Model BitStream_Spec BitStream_Proofs BitStream_Props
  Huffman_Model Huffman_Codes_Proofs Huffman_Proofs Huffman_Spec Huffman_Props HuffmanFile_Spec HuffmanFile_Proofs.

Lemma new_table_ok max longest codes tb : 1 <= max <= 15 -> 0 <= longest <= max -> length tb = Z.to_nat (2 ^ max) ->
  Forall (fun e => 0 <= snd e <= 15) tb -> Forall (fun c => 0 <= snd c <= longest) codes -> Z.of_nat (length (ranges longest codes)) <= 2 ^ max ->
  length (new_table longest codes tb) = Z.to_nat (2 ^ max) /\ Forall (fun e => 0 <= snd e <= 15) (new_table longest codes tb).
Proof.
  intros Hm Hl HT HE HC HR. unfold new_table. split.
  - rewrite app_length, skipn_length. lia.
  - apply Forall_app. split.
    + apply Forall_forall. intros e HI. apply in_flat_map in HI. destruct HI as (c & HI & HI2). apply repeat_spec in HI2. subst e.
      rewrite Forall_forall in HC. specialize (HC c HI). lia.
    + rewrite Forall_forall in *. intros e HI. apply HE. rewrite <- (firstn_skipn (length (ranges longest codes)) tb). apply in_or_app. now right.
Qed.

Lemma loop_exact hb size max : 1 <= max <= 15 -> 1 <= size -> forall tb bits f, chunks (Z.to_nat size) max tb bits f ->
  forall fuel acc r, sees r bits -> (length (left_ bits) <= fuel)%nat -> length tb = Z.to_nat (2 ^ max) -> Forall (fun e => 0 <= snd e <= 15) tb ->
  match f with
  | Gives out => decode_loop fuel hb size max tb acc r = Ok (Some (acc ++ out))
  | Rejects => decode_loop fuel hb size max tb acc r = Ok None
  | Harms => decode_loop fuel hb size max tb acc r = UB
  end.
Proof.
  intros Hm Hsz. 
  assert (START : forall tb bits fuel acc r, left_ bits <> [] -> sees r bits -> (length (left_ bits) <= fuel)%nat -> exists fuel', fuel = S fuel' /\
     decode_loop fuel hb size max tb acc r =
      let! (codes, r1) := decode_codes hb max tb r in
      match codes with
      | None => Ok None
      | Some (longest, _, tb') =>
          let! (out, r2) := decode_symbols hb (Z.to_nat size) longest tb' r1 in
          if (Z.of_nat (length out) =? size) || fully_consumed r2
          then decode_loop fuel' hb size max tb' (acc ++ out) r2
          else Ok None
      end).
  { intros tb bits fuel acc r HN HR HF. destruct fuel as [|fuel]; [destruct (left_ bits); [congruence|cbn in HF; lia]|]. exists fuel. split; [reflexivity|].
    cbn [decode_loop]. pose proof (reads_consumed r _ (proj1 HR)) as C. destruct (fully_consumed r); [|reflexivity]. destruct C as [C _]. now specialize (C eq_refl). }
  intros tb bits f. induction 1 as [tb bits HZ|tb bits HN ET|tb bits longest codes b1 HN ET HB|tb bits longest codes b1 HN ET HB ES|tb bits longest codes b1 out b2 HN ET HB ES HO HN2|tb bits longest codes b1 out b2 f HN ET HB ES HO HC IH]; intros fuel acc r HR HF HT HE.
  - pose proof (reads_consumed r _ (proj1 HR)) as C. destruct C as [_ C]. specialize (C HZ). rewrite app_nil_r. destruct fuel; cbn [decode_loop]; now rewrite C.
  - destruct (START tb bits fuel acc r HN HR HF) as (fuel' & -> & ->). pose proof (exact_codes hb max tb r bits Hm HT HR) as X. rewrite ET in X.
    destruct X as (r1 & ->). reflexivity.
  - destruct (START tb bits fuel acc r HN HR HF) as (fuel' & -> & ->). pose proof (exact_codes hb max tb r bits Hm HT HR) as X. rewrite ET in X.
    destruct X as (_ & _ & _ & X). destruct (Z.ltb_spec (2 ^ max) (Z.of_nat (length (ranges longest codes)))); [|lia]. now rewrite X.
  - destruct (START tb bits fuel acc r HN HR HF) as (fuel' & -> & ->). pose proof (exact_codes hb max tb r bits Hm HT HR) as X. rewrite ET in X.
    destruct X as (X1 & X2 & X3 & X). destruct (Z.ltb_spec (2 ^ max) (Z.of_nat (length (ranges longest codes)))); [lia|].
    destruct X as (cs & r1 & -> & R1 & P1). cbn [bind]. destruct (new_table_ok max longest codes tb Hm X1 HT HE X3 HB) as (T1 & T2).
    pose proof (exact_symbols hb longest max _ X1 ltac:(lia) T1 T2 (Z.to_nat size) r1 b1 R1 ltac:(auto)) as Y. rewrite ES in Y.
    destruct Y as [->|(out & r2 & -> & LO & PO)]; [reflexivity|]. cbn [bind]. rewrite LO, Z2Nat.id, Z.eqb_refl by lia. cbn [orb].
    assert (FC : fully_consumed r2 = false) by (unfold fully_consumed; destruct (Z.eqb_spec (r_position r2) 0); [lia|reflexivity]).
    destruct fuel'; cbn [decode_loop]; rewrite FC; [reflexivity|]. unfold decode_codes. rewrite byte_harmed by assumption. reflexivity.
  - destruct (START tb bits fuel acc r HN HR HF) as (fuel' & -> & ->). pose proof (exact_codes hb max tb r bits Hm HT HR) as X. rewrite ET in X.
    destruct X as (X1 & X2 & X3 & X). destruct (Z.ltb_spec (2 ^ max) (Z.of_nat (length (ranges longest codes)))); [lia|].
    destruct X as (cs & r1 & -> & R1 & P1). cbn [bind]. destruct (new_table_ok max longest codes tb Hm X1 HT HE X3 HB) as (T1 & T2).
    pose proof (exact_symbols hb longest max _ X1 ltac:(lia) T1 T2 (Z.to_nat size) r1 b1 R1 ltac:(auto)) as Y. rewrite ES in Y.
    destruct Y as (r2 & -> & R2 & LO & LB). cbn [bind]. destruct (Z.eqb_spec (Z.of_nat (length out)) size); [lia|].
    pose proof (reads_consumed r2 _ (proj1 R2)) as C. destruct (fully_consumed r2); [|reflexivity]. destruct C as [C _]. now specialize (C eq_refl).
  - destruct (START tb bits fuel acc r HN HR HF) as (fuel' & -> & ->). pose proof (exact_codes hb max tb r bits Hm HT HR) as X. rewrite ET in X.
    destruct X as (X1 & X2 & X3 & X). destruct (Z.ltb_spec (2 ^ max) (Z.of_nat (length (ranges longest codes)))); [lia|].
    destruct X as (cs & r1 & -> & R1 & P1). cbn [bind]. destruct (new_table_ok max longest codes tb Hm X1 HT HE X3 HB) as (T1 & T2).
    pose proof (exact_symbols hb longest max _ X1 ltac:(lia) T1 T2 (Z.to_nat size) r1 b1 R1 ltac:(auto)) as Y. rewrite ES in Y.
    destruct Y as (r2 & -> & R2 & LO & LB). cbn [bind].
    assert (C : (Z.of_nat (length out) =? size) || fully_consumed r2 = true).
    { destruct HO as [HO|HO]; [rewrite HO, Z2Nat.id, Z.eqb_refl by lia; reflexivity|]. pose proof (reads_consumed r2 _ (proj1 R2)) as C. destruct C as [_ C].
      rewrite (C HO). apply Bool.orb_true_r. }
    rewrite C. specialize (IH fuel' (acc ++ out) r2 R2 ltac:(lia) T1 T2). destruct f as [more| |]; [|exact IH|exact IH]. now rewrite app_assoc.
Qed.

Lemma take_number_length n bits v b : take_number n bits = Some (v, b) -> (length (left_ b) <= length (left_ bits))%nat.
Proof. unfold take_number. destruct (length (left_ bits) <? n)%nat; [discriminate|]. intros [= _ <-]. unfold drop, look, left_. cbn [snd]. rewrite skipn_length. unfold left_. lia. Qed.
(** On every byte string, the decoder does exactly what [decodes] says: the same bytes, failure exactly where the file is malformed, and harm exactly
    where a table announces more than 2^max entries or a code is longer than what is loaded. *)
Theorem huffman_decode_exact : forall hb file f, Forall byte file -> decodes file f ->
  match f with
  | Gives out => decode_string hb file = Ok (Some out)
  | Rejects => decode_string hb file = Ok None
  | Harms => decode_string hb file = UB
  end.
Proof.
  intros hb file f HF HD. destruct (open_reader_ok hb file HF) as (I0 & R0 & P0). unfold decodes in HD. unfold decode_string.
  destruct (is_good (r_in (open_reader hb file))) eqn:G.
  2:{ assert (EB : file_payload file = []). { rewrite <- R0. unfold rbits, stream_bits. rewrite G, P0. reflexivity. }
      rewrite EB in HD. cbn in HD. subst f. destruct (huffman_header_safe hb file HF) as (o & r1 & E & HO). rewrite E. cbn [bind].
      destruct o as [[size max]|]; [|reflexivity]. exfalso. set (r := open_reader hb file) in *.
      destruct (reader_step_ok hb r (OpRead 8 8) 0 I0) as (q & E8 & _); [apply (ri_pos _ I0)|cbn [op_legal]; unfold api_width; repeat split; lia|].
      rewrite R0, EB in E8. cbn [reader_step] in E8. unfold decode_header, read_byte, s_bits_per_byte in E. inv_bind E8. destruct a as [[v n] q1]. cbn [bind] in E.
      inversion E8; subst. cbn in E. discriminate E. }
  assert (HR : sees (open_reader hb file) (0, file_payload file)) by (split; [split; [assumption|split; assumption]|exact P0]).
  assert (HL : (length (file_payload file) <= 8 * length file)%nat).
  { unfold file_payload. destruct file as [|h body]; [cbn; lia|]. destruct (h / 8 =? 26); [|cbn; lia]. rewrite firstn_length. cbn [length]. lia. }
  clear R0 P0 I0 G. set (r := open_reader hb file) in *. clearbody r. change (file_payload file) with (left_ (0, file_payload file)) in HL. set (bits := (0, file_payload file)) in *. clearbody bits.
  unfold take_header in HD. unfold decode_header.
  pose proof (exact_byte hb r bits HR) as W. destruct (take_number 8 bits) as [[version b1]|] eqn:T1.
  2:{ destruct W as (v & r1 & ->). cbn [bind negb]. now subst f. }
  destruct W as (r1 & -> & (R1 & _) & _). cbn [bind negb].
  destruct (Z.eqb_spec version 1) as [->|NV]; cbn [negb].
  2:{ cbn [bind]. assert (f = Rejects). { destruct (take_number 16 b1) as [[kb b2]|]; [destruct (take_number 8 b2) as [[m b3]|]|]; exact HD. } now subst f. }
  pose proof (exact_word hb r1 b1 R1) as W. destruct (take_number 16 b1) as [[kb b2]|] eqn:T2.
  2:{ destruct W as (v & r2 & ->). cbn [bind negb]. now subst f. }
  destruct W as (r2 & -> & (R2 & _) & HK). cbn [bind negb].
  destruct (Z.eqb_spec kb 0) as [->|NK].
  { cbn [bind]. assert (f = Rejects). { destruct (take_number 8 b2) as [[m b3]|]; exact HD. } now subst f. }
  pose proof (exact_byte hb r2 b2 R2) as W. destruct (take_number 8 b2) as [[max b3]|] eqn:T3.
  2:{ destruct W as (v & r3 & ->). cbn [bind negb]. now subst f. }
  destruct W as (r3 & -> & (R3 & _) & HM). cbn [bind negb].
  destruct (Z.eqb_spec max 0) as [->|NM]; cbn [orb].
  { cbn [bind]. rewrite !Bool.andb_false_r in HD. cbn in HD. now subst f. }
  rewrite Z.geb_leb. destruct (Z.leb_spec 16 max) as [H16|H16].
  { cbn [bind]. destruct (Z.leb_spec max 15); [lia|]. rewrite Bool.andb_false_r in HD. now subst f. }
  cbn [bind Z.eqb Pos.eqb] in *. destruct (Z.leb_spec 1 kb); [|lia]. destruct (Z.leb_spec 1 max); [|lia]. destruct (Z.leb_spec max 15); [|lia]. cbn [andb] in HD.
  assert (ES : u32 (Z.shiftl kb 10) = kb * 1024).
  { rewrite Z.shiftl_mul_pow2 by lia. change (2 ^ 10) with 1024. apply Z.mod_small. change (2 ^ 32) with 4294967296. lia. }
  rewrite ES. assert (HL3 : (length (left_ b3) <= length (left_ bits))%nat).
  { apply take_number_length in T1. apply take_number_length in T2. apply take_number_length in T3. lia. }
  pose proof (loop_exact hb (kb * 1024) max ltac:(lia) ltac:(lia) _ _ _ HD (8 * length file)%nat [] r3 R3 ltac:(lia) ltac:(apply repeat_length)) as X.
  apply X. apply Forall_forall. intros e HI. apply repeat_spec in HI. subst e. cbn. lia.
Qed.

(** Every file has a fate. *)
Lemma take_codes_length max bits longest codes b : take_codes max bits = Some (longest, codes, b) -> (length (left_ b) < length (left_ bits))%nat.
Proof.
  unfold take_codes, take_number. destruct (Nat.ltb_spec (length (left_ bits)) 8); [discriminate|]. destruct (_ || _); [discriminate|].
  destruct (take_numbers 16 _ (drop _ _)) as [[counts b2]|] eqn:E1; [|discriminate]. destruct (256 <? _)%nat; [discriminate|].
  destruct (take_numbers 8 _ b2) as [[syms b3]|] eqn:E2; [|discriminate]. intros [= <- <- <-].
  apply take_numbers_length in E1. apply take_numbers_length in E2. unfold drop, look, left_ in *. cbn [snd] in E1. rewrite skipn_length in E1. lia.
Qed.
Lemma take_symbols_length longest tb : forall n i, match take_symbols n longest tb i with Gives (_, b) => (length (left_ b) <= length (left_ i))%nat | Rejects => False | Harms => True end.
Proof.
  induction n as [|n IH]; intros i; cbn [take_symbols]; [lia|]. destruct (longest =? 0); [lia|]. destruct (left_ i) as [|b0 bits0] eqn:EI; [now rewrite EI|].
  destruct (nth _ tb (0, 0)) as [s l]. destruct (_ <? l); [exact I|].
  specialize (IH (drop l (look longest i))). destruct (take_symbols n longest tb _) as [[out b]| |]; auto. unfold drop, look, left_ in *. cbn [snd] in IH. rewrite skipn_length in IH. rewrite EI in IH. lia.
Qed.
Theorem huffman_decode_covered : forall file, exists f, decodes file f.
Proof.
  intros file. unfold decodes. destruct (take_header (0, file_payload file)) as [[[size max] i]|]; [|eauto].
  generalize (repeat (0, 0) (Z.to_nat (2 ^ max))) as tb. remember (length (left_ i)) as k eqn:E. revert i E.
  induction k as [k IH] using lt_wf_ind. intros i -> tb. destruct (left_ i) as [|b0 bits0] eqn:EI; [eexists; now constructor|].
  assert (HN : left_ i <> []) by (rewrite EI; discriminate). rewrite <- EI in IH. clear EI.
  destruct (take_codes max i) as [[[longest codes] b1]|] eqn:ET; [|eexists; now apply chunks_codes].
  destruct (Z.lt_ge_cases (2 ^ max) (Z.of_nat (length (ranges longest codes)))) as [HB|HB]; [eexists; eapply chunks_table; eassumption|].
  pose proof (take_codes_length _ _ _ _ _ ET) as L1. pose proof (take_symbols_length longest (new_table longest codes tb) size b1) as L2.
  destruct (take_symbols size longest (new_table longest codes tb) b1) as [[out b2]| |] eqn:ES; [|contradiction|eexists; eapply chunks_symbols; eassumption].
  destruct (Nat.eq_dec (length out) size) as [HO|HO].
  - destruct (IH (length (left_ b2)) ltac:(lia) b2 eq_refl (new_table longest codes tb)) as (f & HC). eexists. eapply chunks_next; eauto.
  - destruct (left_ b2) as [|x l] eqn:E2; [|eexists; eapply chunks_short; eauto; rewrite E2; discriminate].
    eexists. eapply chunks_next; eauto. now constructor.
Qed.
(** ... and only one. *)
Lemma chunks_unique size max : forall tb i f, chunks size max tb i f -> forall f', chunks size max tb i f' -> f = f'.
Proof.
  induction 1; intros f' H'; inversion H'; subst; try congruence; try (exfalso; match goal with A : take_codes _ _ = _, B : take_codes _ _ = _ |- _ => rewrite A in B; injection B as -> -> -> end; (lia || congruence)).
  - match goal with A : take_codes _ _ = _, B : take_codes _ _ = _ |- _ => rewrite A in B; injection B as -> -> -> end.
    match goal with A : take_symbols _ _ _ _ = _, B : take_symbols _ _ _ _ = _ |- _ => rewrite A in B; injection B as -> -> end. exfalso. tauto.
  - match goal with A : take_codes _ _ = _, B : take_codes _ _ = _ |- _ => rewrite A in B; injection B as -> -> -> end.
    match goal with A : take_symbols _ _ _ _ = _, B : take_symbols _ _ _ _ = _ |- _ => rewrite A in B; injection B as -> -> end. exfalso. tauto.
  - match goal with A : take_codes _ _ = _, B : take_codes _ _ = _ |- _ => rewrite A in B; injection B as -> -> -> end.
    match goal with A : take_symbols _ _ _ _ = _, B : take_symbols _ _ _ _ = _ |- _ => rewrite A in B; injection B as -> -> end.
    match goal with IH : forall f', chunks _ _ _ _ f' -> _, H : chunks _ _ _ _ _ |- _ => now rewrite (IH _ H) end.
Qed.
Theorem huffman_decode_fate : forall file f f', decodes file f -> decodes file f' -> f = f'.
Proof.
  intros file f f'. unfold decodes. destruct (take_header (0, file_payload file)) as [[[size max] i]|]; [|congruence]. intros H H'. exact (chunks_unique _ _ _ _ _ H _ H').
Qed.

(** Memory safety, exactly: the decoder is harmed by those files and no others. *)
Theorem huffman_safe_iff : forall hb file, Forall byte file -> (decode_string hb file = UB <-> decodes file Harms).
Proof.
  intros hb file HF. split.
  - intros HU. destruct (huffman_decode_covered file) as (f & HD). pose proof (huffman_decode_exact hb file f HF HD) as X. destruct f; [congruence|congruence|exact HD].
  - intros HD. exact (huffman_decode_exact hb file Harms HF HD).
Qed.

(** The two malformed files of Huffman_Props, and a file written by the encoder. *)
Ltac side := first [discriminate | vm_compute; first [reflexivity | discriminate | intuition congruence]].
Example oversubscribed_harms : decodes oversubscribed_file Harms.
Proof. eapply chunks_table; [discriminate|vm_compute; reflexivity|vm_compute; reflexivity]. Qed.
Example truncated_harms : decodes truncated_file Harms.
Proof. eapply chunks_symbols; [discriminate|vm_compute; reflexivity|side|vm_compute; reflexivity]. Qed.
Example abracadabra_gives : exists file, encode_small false 1 11 abracadabra = Ok (Some file) /\ decodes file (Gives abracadabra).
Proof.
  eexists. split; [vm_compute; reflexivity|].
  refine (chunks_next _ _ _ _ _ _ _ abracadabra _ (Gives []) _ _ _ _ _ _); [discriminate|vm_compute; reflexivity|side|vm_compute; reflexivity|now right|now constructor].
Qed.
(** A file cut after its table decodes to nothing; cut inside it is rejected. *)
Example cut_table_rejects : decodes (firstn 12 truncated_file) Rejects.
Proof. apply chunks_codes; [discriminate|vm_compute; reflexivity]. Qed.
(** An incomplete code (one symbol, "0"): the other prefix finds an entry no code ever set - zeros, as many as the chunk holds, without using up
    a bit. *)
Definition incomplete_file : list Z := [208; 1; 0; 1; 1; 2; 0; 0; 0; 1; 97; 255].
Example incomplete_rejects : decodes incomplete_file Rejects.
Proof.
  refine (chunks_next _ _ _ _ _ _ _ _ _ Rejects _ _ _ _ _ _); [discriminate|vm_compute; reflexivity|side|vm_compute; reflexivity|left; vm_compute; reflexivity|].
  apply chunks_codes; [discriminate|vm_compute; reflexivity].
Qed.
(** A second chunk with one code, "0": the other bit finds a code of two bits that the first chunk left. It is decoded - unless only its first
    bit is loaded, though there are more bytes in the file. *)
Definition stale_file (data : list Z) : list Z := [208; 1; 0; 1; 2; 3; 0; 0; 0; 0; 0; 4; 97; 98; 99; 100] ++ repeat 228 256 ++ [2; 0; 0; 0; 1; 97] ++ data.
Example stale_gives : exists out, length out = 1055%nat /\ decodes (stale_file [1; 0; 0; 0]) (Gives out).
Proof.
  eexists. split; [|refine (chunks_next _ _ _ _ _ _ _ _ _ (Gives _) _ _ _ _ _ _); [discriminate|vm_compute; reflexivity|side|vm_compute; reflexivity|left; vm_compute; reflexivity|
    refine (chunks_next _ _ _ _ _ _ _ _ _ (Gives _) _ _ _ _ _ _); [discriminate|vm_compute; reflexivity|side|vm_compute; reflexivity|right; vm_compute; reflexivity|now apply chunks_end]]].
  vm_compute. reflexivity.
Qed.
Example stale_harms : decodes (stale_file [0; 1; 0; 0; 0]) Harms.
Proof.
  refine (chunks_next _ _ _ _ _ _ _ _ _ Harms _ _ _ _ _ _); [discriminate|vm_compute; reflexivity|side|vm_compute; reflexivity|left; vm_compute; reflexivity|].
  eapply chunks_symbols; [discriminate|vm_compute; reflexivity|side|vm_compute; reflexivity].
Qed.
Print Assumptions huffman_decode_exact.
Print Assumptions huffman_safe_iff.
