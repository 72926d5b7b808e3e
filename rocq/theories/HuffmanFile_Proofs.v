(** The Huffman decoder on arbitrary files. *)
From Coq Require Import Permutation.
From Verif Require Import Common Bits BitStream_Model BitStream_Spec Endian_Proofs BitStream_Proofs BitStream_Props
  Huffman_Model Huffman_Codes_Proofs Huffman_Proofs Huffman_Spec Huffman_Props HuffmanFile_Spec.

(** * What is loaded *)
Lemma refill_position hb r r' : rinv r -> is_good (r_in r) = true -> refill_buffer hb r = Ok r' ->
  r_position r' = Z.min (r_position r + 8 * ((64 - r_position r) / 8)) (Z.of_nat (length (rbits r))).
Proof.
  intros [Hp Hb Hr HF] Hg E. assert (HL : Z.of_nat (length (rbits r)) = r_position r + Z.of_nat (8 * length (is_rest (r_in r)) - Z.to_nat (r_remainder r))).
  { unfold rbits, stream_bits. rewrite Hg, app_length, bits_msb_length, firstn_length_le by (rewrite bytes_bits_length; lia). lia. }
  rewrite HL. clear HL. destruct r as [s b p h rem]; cbn [r_in r_buffer r_position r_header r_remainder] in *.
  unfold refill_buffer in E; cbn [r_in r_buffer r_position r_header r_remainder] in E. unfold s_msb_position, s_bits_per_byte in E. rewrite (u8_small (64 - p)) in E by lia.
  rewrite fill_ok in E; [|unfold swap_size; lia|dlia|assumption|assumption]. cbn zeta in E.
  assert (HK : 0 <= (64 - p) / 8 /\ 8 * ((64 - p) / 8) <= 64 - p) by dlia. set (K := (64 - p) / 8) in *. clearbody K. destruct HK as (HK & HK8).
  rewrite firstn_length in E. unfold at_eof in E. cbn [is_rest] in E.
  destruct (Z.gtb_spec (Z.of_nat (Nat.min (Z.to_nat K) (length (is_rest s)))) 0) as [Hgt|Hle].
  2:{ injection E as <-. cbn [r_position]. lia. }
  set (m := Nat.min (Z.to_nat K) (length (is_rest s))) in *. assert (Hm : (m <= Z.to_nat K)%nat /\ (m <= length (is_rest s))%nat /\ (m = Z.to_nat K \/ m = length (is_rest s))) by lia. clearbody m.
  rewrite (u8_small (Z.of_nat m * 8)) in E by lia. rewrite (u8_small (p + Z.of_nat m * 8)) in E by lia.
  do 3 inv_bind E. destruct (skipn (Z.to_nat K) (is_rest s)) as [|x l] eqn:ES.
  - inv_bind E. injection E as <-. cbn [r_position]. apply (f_equal (@length Z)) in ES. rewrite skipn_length in ES. cbn [length] in ES. rewrite u8_small by lia. lia.
  - injection E as <-. cbn [r_position]. apply (f_equal (@length Z)) in ES. rewrite skipn_length in ES. cbn [length] in ES. lia.
Qed.
Lemma peek_position hb r bits w s v n r' : reads r bits -> w = 8 \/ w = 16 -> 0 < s <= w -> peek_bits hb r w s = Ok (v, n, r') ->
  r_position r' = loaded (look s (r_position r, bits)).
Proof.
  intros (I & HG & HB) Hw Hs E. pose proof (ri_pos _ I) as HP. unfold look, loaded, left_. cbn [fst snd]. rewrite <- HB. unfold peek_bits in E. rewrite Z.gtb_ltb in E.
  destruct (Z.ltb_spec (r_position r) s) as [HL|HL]; destruct (Z.leb_spec s (r_position r)); try lia.
  - do 3 match type of E with bind (bind ?x _) _ = _ => destruct x; [cbn [bind] in E|discriminate E] end.
    destruct (refill_buffer hb r) as [r1|] eqn:ER; [cbn [bind] in E|discriminate E]. rewrite <- (refill_position hb r r1 I HG ER).
    do 3 inv_bind E. now injection E as _ _ <-.
  - cbn [bind] in E. do 3 inv_bind E. now injection E as _ _ <-.
Qed.

(** The reader has [i] before it. After bits were read the buffer is not full. *)
Definition sees (r : reader) (i : input) : Prop := reads r (left_ i) /\ r_position r = loaded i.
Definition after (r : reader) (i : input) : Prop := sees r i /\ loaded i < 64.
Lemma read_after hb r i w s v n r1 : sees r i -> w = 8 \/ w = 16 -> 0 < s <= w -> read_bits hb r w s = Ok (v, n, r1) -> n = s ->
  r_position r1 = loaded (drop s (look s i)) /\ r_position r1 < 64.
Proof.
  intros (R & HP) Hw Hs E ->. unfold read_bits in E. destruct (Z.eqb_spec w 64); [lia|].
  pose proof R as (I & HG & HB).
  destruct (peek_ok hb r w s I ltac:(lia) ltac:(lia) ltac:(lia) ltac:(lia)) as (r' & EP & I' & _ & P & _).
  pose proof (peek_position hb r _ w s _ _ r' R Hw Hs EP) as Q. rewrite HP in Q.
  rewrite EP in E. cbn [bind] in E. injection E as _ EN <-. rewrite EN in *. pose proof (ri_pos _ I'). unfold discard_bits, drop. unfold loaded at 1. cbn [r_position fst].
  rewrite u8_small by lia. destruct i as [k bits]. unfold loaded, left_ in *. cbn [fst snd] in *. lia.
Qed.

Lemma exact_byte hb r i : sees r i ->
  match take_number 8 i with
  | None => exists v r1, read_byte hb r = Ok (v, false, r1)
  | Some (v, b) => exists r1, read_byte hb r = Ok (v, true, r1) /\ after r1 b /\ 0 <= v < 256
  end.
Proof.
  intros H. pose proof (any_byte hb r (left_ i) (proj1 H)) as W. unfold take_number. destruct (length (left_ i) <? 8)%nat; [exact W|].
  destruct W as (r1 & E & R1 & HV). exists r1. split; [exact E|]. split; [|exact HV]. unfold read_byte in E.
  destruct (read_bits hb r 8 s_bits_per_byte) as [[[v n] q]|] eqn:EB; [|discriminate]. cbn [bind] in E. injection E as _ E <-.
  destruct (read_after hb r i 8 s_bits_per_byte v n q) as (P1 & P2); auto; try (unfold s_bits_per_byte in *; lia).
  unfold s_bits_per_byte in P1. change (Z.of_nat 8) with 8. split; [split; [exact R1|exact P1]|]. now rewrite <- P1.
Qed.
Lemma exact_word hb r i : sees r i ->
  match take_number 16 i with
  | None => exists v r1, read_word hb r = Ok (v, false, r1)
  | Some (v, b) => exists r1, read_word hb r = Ok (v, true, r1) /\ after r1 b /\ 0 <= v < 65536
  end.
Proof.
  intros H. pose proof (any_word hb r (left_ i) (proj1 H)) as W. unfold take_number. destruct (length (left_ i) <? 16)%nat; [exact W|].
  destruct W as (r1 & E & R1 & HV). exists r1. split; [exact E|]. split; [|exact HV]. unfold read_word in E.
  destruct (read_bits hb r 16 s_bits_per_word) as [[[v n] q]|] eqn:EB; [|discriminate]. cbn [bind] in E. injection E as _ E <-.
  destruct (read_after hb r i 16 s_bits_per_word v n q) as (P1 & P2); auto; try (unfold s_bits_per_word in *; lia).
  unfold s_bits_per_word in P1. change (Z.of_nat 16) with 16. split; [split; [exact R1|exact P1]|]. now rewrite <- P1.
Qed.

Lemma exact_counts hb : forall n r bits, after r bits ->
  match take_numbers 16 n bits with
  | None => exists r1, decode_counts hb n r = Ok (None, r1)
  | Some (l, b) => exists r1, decode_counts hb n r = Ok (Some l, r1) /\ after r1 b /\ Forall (fun c => 0 <= c < 65536) l /\ length l = n
  end.
Proof.
  induction n as [|n IH]; intros r bits HR; cbn [take_numbers decode_counts]; [exists r; auto|].
  pose proof (exact_word hb r bits (proj1 HR)) as W. destruct (take_number 16 bits) as [[v b]|].
  - destruct W as (r1 & -> & R1 & HV). cbn [bind negb]. specialize (IH r1 b R1). destruct (take_numbers 16 n b) as [[l b']|].
    + destruct IH as (r2 & -> & R2 & F & L). cbn [bind]. exists r2. split; [reflexivity|]. split; [assumption|]. split; [now constructor|cbn; lia].
    + destruct IH as (r2 & ->). cbn [bind]. now exists r2.
  - destruct W as (v & r1 & ->). cbn [bind negb]. now exists r1.
Qed.

(** * Codes: exact while their ranges begin inside the table *)
Fixpoint canon_upto (L B acc : Z) (codes : list code) : Prop :=
  match codes with
  | [] => True
  | c :: r => (acc <= B -> c_code c * 2 ^ (L - c_length c) = acc) /\ canon_upto L B (acc + 2 ^ (L - c_length c)) r
  end.
Lemma canon_upto_app L B codes c acc : canon_upto L B acc (codes ++ [c]) <->
  canon_upto L B acc codes /\ (acc + kraft L codes <= B -> c_code c * 2 ^ (L - c_length c) = acc + kraft L codes).
Proof.
  revert acc. induction codes as [|x r IH]; intros acc; cbn [app canon_upto].
  - unfold kraft. cbn. rewrite Z.add_0_r. tauto.
  - rewrite IH, kraft_cons, Z.add_assoc. tauto.
Qed.
Record gathered (L B : Z) (rcodes : list code) : Prop := {
  g_canon : canon_upto L B 0 (rev rcodes);
  g_codes : Forall (fun c => 0 <= c_code c < 65536) rcodes }.

Definition pairs (codes : list code) : list (Z * Z) := map (fun c => (c_symbol c, c_length c)) codes.

Lemma exact_length hb L B len : 0 <= len <= L -> L <= 15 -> B <= 32768 -> forall n codes r bits, after r bits ->
  gathered L B codes -> Forall (fun c => 0 <= c_length c <= len) codes -> (length codes <= 256)%nat ->
  match take_numbers 8 n bits with
  | Some (syms, b) =>
      if (256 <? length codes + n)%nat then exists r1, decode_length hb n len codes r = Ok (None, r1)
      else exists codes' r1, decode_length hb n len codes r = Ok (Some codes', r1) /\ after r1 b /\ gathered L B codes' /\
             Forall (fun c => 0 <= c_length c <= len) codes' /\ pairs (rev codes') = pairs (rev codes) ++ List.combine syms (repeat len n) /\
             length codes' = (length codes + n)%nat
  | None => exists r1, decode_length hb n len codes r = Ok (None, r1)
  end.
Proof.
  intros Hlen HL HB. pose proof (pow2_pos (L - len) ltac:(lia)) as PP. pose proof (pow15 L ltac:(lia)) as P15.
  induction n as [|n IH]; intros codes r bits HR HG HF HN; cbn [decode_length take_numbers].
  - destruct (Nat.ltb_spec 256 (length codes + 0)); [lia|]. exists codes, r. rewrite app_nil_r. do 5 (split; [auto|]). lia.
  - pose proof (exact_byte hb r bits (proj1 HR)) as W. destruct (take_number 8 bits) as [[v b]|].
    2:{ destruct W as (v & r1 & ->). cbn [bind negb]. now exists r1. }
    destruct W as (r1 & -> & R1 & HV). cbn [bind negb].
    assert (V : exists w, match codes with
        | [] => Ok 0
        | last :: _ => let! w := shl 32 (c_code last + 1) (u8 (len - c_length last)) in Ok (u16 w)
        end = Ok w /\ 0 <= w < 65536 /\ (kraft L codes <= B -> w * 2 ^ (L - len) = kraft L codes)).
    { destruct codes as [|last codes]; [exists 0; split; [reflexivity|]; split; [lia|reflexivity]|].
      inversion_clear HF as [|? ? Hl HF']. destruct HG as [HC HCC]. inversion_clear HCC as [|? ? Hn HN'].
      rewrite u8_small by lia. rewrite shl_ok by lia. cbn [bind]. eexists. split; [reflexivity|].
      split. { unfold u16, wrap. change (2 ^ 16) with 65536. pose proof (Z.mod_pos_bound (((c_code last + 1) * 2 ^ (len - c_length last)) mod 2 ^ 32) 65536). lia. }
      intros HK. cbn [rev] in HC. apply canon_upto_app in HC. destruct HC as [_ HC]. rewrite Z.add_0_l, kraft_rev in HC.
      rewrite kraft_cons in HK. pose proof (pow2_pos (L - c_length last) ltac:(lia)). specialize (HC ltac:(lia)).
      assert (EV : (c_code last + 1) * 2 ^ (len - c_length last) * 2 ^ (L - len) = kraft L (last :: codes)).
      { rewrite kraft_cons, <- Z.mul_assoc, <- pow2_add by lia. replace (len - c_length last + (L - len)) with (L - c_length last) by lia. lia. }
      pose proof (pow2_pos (len - c_length last) ltac:(lia)) as PL.
      assert (0 <= (c_code last + 1) * 2 ^ (len - c_length last)) by (apply Z.mul_nonneg_nonneg; lia).
      assert ((c_code last + 1) * 2 ^ (len - c_length last) <= 32768).
      { apply Z.le_trans with ((c_code last + 1) * 2 ^ (len - c_length last) * 2 ^ (L - len)); [|rewrite EV, kraft_cons; lia].
        rewrite <- Z.mul_1_r at 1. apply Z.mul_le_mono_nonneg_l; lia. }
      rewrite (Z.mod_small _ (2 ^ 32)) by (change (2 ^ 32) with 4294967296; lia).
      rewrite u16_small by lia. exact EV. }
    destruct V as (w & -> & HW & EV). cbn [bind].
    destruct (Nat.eqb_spec (length codes) 256) as [E|N].
    { destruct (take_numbers 8 n b) as [[l b']|]; [|now exists r1]. destruct (Nat.ltb_spec 256 (length codes + S n)); [now exists r1|lia]. }
    assert (HG' : gathered L B ({| c_symbol := v; c_code := w; c_length := len |} :: codes)).
    { destruct HG as [HC HCC]. constructor; [|constructor; [exact HW|assumption]]. cbn [rev]. apply canon_upto_app. split; [assumption|].
      cbn [c_code c_length]. rewrite kraft_rev, Z.add_0_l. exact EV. }
    specialize (IH ({| c_symbol := v; c_code := w; c_length := len |} :: codes) r1 b R1 HG' ltac:(constructor; [cbn; lia|assumption]) ltac:(cbn; lia)).
    destruct (take_numbers 8 n b) as [[syms b']|]; [|exact IH].
    replace (length codes + S n)%nat with (length ({| c_symbol := v; c_code := w; c_length := len |} :: codes) + n)%nat by (cbn; lia).
    destruct (256 <? _)%nat; [exact IH|]. destruct IH as (codes' & r2 & E & R2 & G2 & F2 & P2 & L2). exists codes', r2.
    split; [exact E|]. split; [exact R2|]. split; [exact G2|]. split; [exact F2|]. split; [|exact L2].
    rewrite P2. cbn [rev]. unfold pairs. rewrite map_app, <- app_assoc. reflexivity.
Qed.

Lemma take_numbers_add w : forall a b bits, take_numbers w (a + b) bits =
  match take_numbers w a bits with
  | None => None
  | Some (l, r) => match take_numbers w b r with None => None | Some (l', r') => Some (l ++ l', r') end
  end.
Proof.
  induction a as [|a IH]; intros b bits; cbn [Nat.add take_numbers].
  - destruct (take_numbers w b bits) as [[l' r']|]; reflexivity.
  - destruct (take_number w bits) as [[v r]|]; [|reflexivity]. rewrite IH. destruct (take_numbers w a r) as [[l r']|]; [|reflexivity].
    destruct (take_numbers w b r') as [[l' r'']|]; reflexivity.
Qed.
Lemma take_numbers_length w : forall k bits l b, take_numbers w k bits = Some (l, b) -> length l = k /\ length (left_ bits) = (k * w + length (left_ b))%nat.
Proof.
  induction k as [|k IH]; intros bits l b; cbn [take_numbers]; [intros [= <- <-]; cbn; lia|].
  unfold take_number. destruct (Nat.ltb_spec (length (left_ bits)) w); [discriminate|]. destruct (take_numbers w k (drop _ _)) as [[l' b']|] eqn:E; [|discriminate].
  intros [= <- <-]. apply IH in E. unfold drop, look, left_ in *. cbn [snd] in E. rewrite skipn_length in E. cbn [length]. lia.
Qed.

Lemma combine_app {A B} (a c : list A) (b d : list B) : length a = length b -> List.combine (a ++ c) (b ++ d) = List.combine a b ++ List.combine c d.
Proof. revert b. induction a as [|x a IH]; intros [|y b] H; try discriminate; cbn; [reflexivity|]. now rewrite IH by (cbn in H; lia). Qed.

Lemma exact_lengths hb L B : L <= 15 -> B <= 32768 -> forall counts len codes r bits, after r bits ->
  0 <= len -> len + Z.of_nat (length counts) <= L + 1 ->
  gathered L B codes -> Forall (fun c => 0 <= c_length c <= Z.min len L) codes -> (length codes <= 256)%nat ->
  match take_numbers 8 (length (code_lengths len counts)) bits with
  | Some (syms, b) =>
      if (256 <? length codes + length (code_lengths len counts))%nat then exists r1, decode_lengths hb counts len codes r = Ok (None, r1)
      else exists codes' r1, decode_lengths hb counts len codes r = Ok (Some codes', r1) /\ after r1 b /\ gathered L B codes' /\
             Forall (fun c => 0 <= c_length c <= L) codes' /\ pairs (rev codes') = pairs (rev codes) ++ List.combine syms (code_lengths len counts)
  | None => exists r1, decode_lengths hb counts len codes r = Ok (None, r1)
  end.
Proof.
  intros HL HB. induction counts as [|c counts IH]; intros len codes r bits HR Hlen Hc HG HF HN; cbn [decode_lengths code_lengths length take_numbers].
  - destruct (Nat.ltb_spec 256 (length codes + 0)); [lia|]. exists codes, r. cbn [List.combine]. rewrite app_nil_r. do 3 (split; [auto|]). split; [|reflexivity].
    eapply Forall_impl; [|exact HF]. cbv beta. intros; lia.
  - cbn [length] in Hc. rewrite app_length, repeat_length, take_numbers_add.
    assert (HF' : Forall (fun c => 0 <= c_length c <= len) codes) by (eapply Forall_impl; [|exact HF]; cbv beta; intros; lia).
    pose proof (exact_length hb L B len ltac:(lia) HL HB (Z.to_nat c) codes r bits HR HG HF' HN) as X.
    destruct (take_numbers 8 (Z.to_nat c) bits) as [[s1 b1]|] eqn:E1.
    2:{ destruct X as (r1 & ->). cbn [bind]. now exists r1. }
    apply take_numbers_length in E1. destruct E1 as [E1 _].
    destruct (Nat.ltb_spec 256 (length codes + Z.to_nat c)) as [HBig|HSmall].
    { destruct X as (r1 & ->). cbn [bind]. destruct (take_numbers 8 _ b1) as [[s2 b2]|]; [|now exists r1].
      destruct (Nat.ltb_spec 256 (length codes + (Z.to_nat c + length (code_lengths (len + 1) counts)))); [now exists r1|lia]. }
    destruct X as (codes' & r1 & -> & R1 & G1 & F1 & P1 & L1). cbn [bind].
    assert (F1' : Forall (fun c => 0 <= c_length c <= Z.min (len + 1) L) codes') by (eapply Forall_impl; [|exact F1]; cbv beta; intros; lia).
    specialize (IH (len + 1) codes' r1 b1 R1 ltac:(lia) ltac:(lia) G1 F1' ltac:(lia)).
    destruct (take_numbers 8 _ b1) as [[s2 b2]|]; [|exact IH]. rewrite L1, <- Nat.add_assoc in IH.
    destruct (256 <? _)%nat; [exact IH|]. destruct IH as (codes'' & r2 & E & R2 & G2 & F2 & P2). exists codes'', r2.
    do 4 (split; [assumption|]). rewrite P2, P1, <- app_assoc, combine_app by (now rewrite repeat_length). reflexivity.
Qed.

(** * The table *)
Lemma store_exact tb i e : store tb i e = if (0 <=? i) && (i <? Z.of_nat (length tb)) then Ok (firstn (Z.to_nat i) tb ++ e :: skipn (S (Z.to_nat i)) tb) else UB.
Proof. reflexivity. Qed.

Lemma fill_exact e : forall n base tb, 0 <= base <= Z.of_nat (length tb) -> base + Z.of_nat n <= 65536 ->
  fill_entries n base e tb =
  if base + Z.of_nat n <=? Z.of_nat (length tb) then Ok (firstn (Z.to_nat base) tb ++ repeat e n ++ skipn (Z.to_nat base + n) tb) else UB.
Proof.
  induction n as [|n IH]; intros base tb Hb Hn.
  - cbn [fill_entries repeat app]. rewrite Nat.add_0_r, firstn_skipn. destruct (Z.leb_spec (base + Z.of_nat 0) (Z.of_nat (length tb))); [reflexivity|lia].
  - cbn [fill_entries]. rewrite IH by lia. destruct (Z.leb_spec (base + Z.of_nat n) (Z.of_nat (length tb))) as [H|H]; cbn [bind].
    2:{ destruct (Z.leb_spec (base + Z.of_nat (S n)) (Z.of_nat (length tb))); [lia|reflexivity]. }
    rewrite u16_small by lia. unfold store.
    assert (HL : length (firstn (Z.to_nat base) tb ++ repeat e n ++ skipn (Z.to_nat base + n) tb) = length tb).
    { rewrite !app_length, repeat_length, firstn_length, skipn_length. lia. }
    rewrite HL. destruct (Z.leb_spec 0 (base + Z.of_nat n)); [|lia]. cbn [andb].
    destruct (Z.ltb_spec (base + Z.of_nat n) (Z.of_nat (length tb))) as [H1|H1];
      destruct (Z.leb_spec (base + Z.of_nat (S n)) (Z.of_nat (length tb))) as [H2|H2]; try lia; [|reflexivity].
    f_equal. replace (Z.to_nat (base + Z.of_nat n)) with (length (firstn (Z.to_nat base) tb ++ repeat e n)).
    2:{ rewrite app_length, repeat_length, firstn_length. lia. }
    rewrite app_assoc. set (a := firstn (Z.to_nat base) tb ++ repeat e n).
    rewrite firstn_app, Nat.sub_diag, firstn_all2 by lia. cbn [firstn]. rewrite app_nil_r.
    rewrite skipn_app, (skipn_all2 a) by lia. replace (S (length a) - length a)%nat with 1%nat by lia. cbn [app].
    rewrite skipn_add. replace (Z.to_nat base + n + 1)%nat with (Z.to_nat base + S n)%nat by lia.
    unfold a. rewrite <- app_assoc. f_equal. change (e :: skipn (Z.to_nat base + S n) tb) with ([e] ++ skipn (Z.to_nat base + S n) tb).
    rewrite app_assoc. f_equal. now rewrite <- repeat_cons.
Qed.

Lemma ranges_length L codes : Forall (fun c => 0 <= c_length c <= L) codes -> Z.of_nat (length (ranges L (pairs codes))) = kraft L codes.
Proof.
  induction 1 as [|c r Hc HF IH]; [reflexivity|]. rewrite kraft_cons, <- IH. cbn [pairs map ranges flat_map snd]. fold (pairs r). fold (ranges L (pairs r)).
  rewrite app_length, repeat_length. pose proof (pow2_pos (L - c_length c) ltac:(lia)). lia.
Qed.

Lemma convert_exact L M : 0 <= L <= M -> M <= 15 -> forall codes acc tb,
  0 <= acc <= 2 ^ M -> canon_upto L (2 ^ M) acc codes -> Forall (fun c => 0 <= c_length c <= L) codes -> Forall (fun c => 0 <= c_code c < 65536) codes ->
  Z.of_nat (length tb) = 2 ^ M ->
  convert_to_prefix_table L codes tb =
  if acc + kraft L codes <=? 2 ^ M then Ok (firstn (Z.to_nat acc) tb ++ ranges L (pairs codes) ++ skipn (Z.to_nat acc + length (ranges L (pairs codes))) tb) else UB.
Proof.
  intros HL HM. pose proof (pow15 M ltac:(lia)) as PM. pose proof (pow2_bound L M ltac:(lia)) as PLM. pose proof (pow15 L ltac:(lia)) as PL.
  induction codes as [|c r IH]; intros acc tb Hacc HC HF HCC HT.
  - cbn [convert_to_prefix_table pairs map ranges flat_map length app]. rewrite Nat.add_0_r, firstn_skipn. unfold kraft. cbn [map zsum fold_right].
    destruct (Z.leb_spec (acc + 0) (2 ^ M)); [reflexivity|lia].
  - destruct HC as [HC1 HC2]. specialize (HC1 ltac:(lia)). inversion_clear HF as [|? ? Hc HF']. inversion_clear HCC as [|? ? Hv HCC'].
    rewrite kraft_cons. pose proof (kraft_nonneg L r) as KN.
    cbn [convert_to_prefix_table]. rewrite u8_small by lia. pose proof (pow15 (L - c_length c) ltac:(lia)) as P.
    rewrite shl_ok by lia. cbn [bind]. rewrite Z.mul_1_l, (Z.mod_small _ (2 ^ 32)) by (change (2 ^ 32) with 4294967296; lia).
    rewrite shl_ok by lia. cbn [bind]. rewrite HC1, (Z.mod_small _ (2 ^ 32)) by (change (2 ^ 32) with 4294967296; lia).
    rewrite fill_exact by lia. rewrite Z2Nat.id by lia.
    destruct (Z.leb_spec (acc + 2 ^ (L - c_length c)) (Z.of_nat (length tb))) as [H|H]; cbn [bind].
    2:{ destruct (Z.leb_spec (acc + (2 ^ (L - c_length c) + kraft L r)) (2 ^ M)); [lia|reflexivity]. }
    set (n := Z.to_nat (2 ^ (L - c_length c))) in *. assert (En : Z.of_nat n = 2 ^ (L - c_length c)) by (unfold n; lia).
    set (tb1 := firstn (Z.to_nat acc) tb ++ repeat (c_symbol c, c_length c) n ++ skipn (Z.to_nat acc + n) tb).
    assert (HT1 : Z.of_nat (length tb1) = 2 ^ M). { unfold tb1. rewrite !app_length, repeat_length, firstn_length, skipn_length. lia. }
    rewrite (IH (acc + 2 ^ (L - c_length c)) tb1) by (auto; lia). rewrite Z.add_assoc.
    destruct (Z.leb_spec (acc + 2 ^ (L - c_length c) + kraft L r) (2 ^ M)) as [H2|H2]; [|reflexivity]. f_equal.
    cbn [pairs map ranges flat_map snd]. fold (pairs r). fold (ranges L (pairs r)). fold n.
    assert (Hla : length (firstn (Z.to_nat acc) tb) = Z.to_nat acc) by (rewrite firstn_length; lia).
    assert (Hlb : length (firstn (Z.to_nat acc) tb ++ repeat (c_symbol c, c_length c) n) = (Z.to_nat acc + n)%nat) by (rewrite app_length, repeat_length; lia).
    assert (E1 : Z.to_nat (acc + 2 ^ (L - c_length c)) = (Z.to_nat acc + n)%nat) by lia.
    rewrite E1. unfold tb1. rewrite (app_assoc (firstn _ tb)). rewrite firstn_app, Hlb, Nat.sub_diag, firstn_all2 by lia. cbn [firstn]. rewrite app_nil_r.
    rewrite skipn_app, (skipn_all2 (firstn _ tb ++ _)) by lia. rewrite Hlb. cbn [app].
    replace (Z.to_nat acc + n + length (ranges L (pairs r)) - (Z.to_nat acc + n))%nat with (length (ranges L (pairs r))) by lia.
    rewrite skipn_add, <- !app_assoc. f_equal. f_equal. f_equal. rewrite app_length, repeat_length. f_equal. lia.
Qed.

Lemma exact_codes hb max tb r bits : 1 <= max <= 15 -> length tb = Z.to_nat (2 ^ max) -> sees r bits ->
  match take_codes max bits with
  | None => exists r1, decode_codes hb max tb r = Ok (None, r1)
  | Some (longest, codes, b) =>
      0 <= longest <= max /\ (length (left_ b) + 8 <= length (left_ bits))%nat /\ Forall (fun c => 0 <= snd c <= longest) codes /\
      if 2 ^ max <? Z.of_nat (length (ranges longest codes)) then decode_codes hb max tb r = UB
      else exists cs r1, decode_codes hb max tb r = Ok (Some (longest, cs, new_table longest codes tb), r1) /\ after r1 b
  end.
Proof.
  intros Hm HT HR. unfold take_codes, decode_codes. pose proof (exact_byte hb r bits HR) as W. unfold take_number in *. destruct (Nat.ltb_spec (length (left_ bits)) 8) as [H8|H8].
  { destruct W as (v & r1 & ->). cbn [bind negb]. now exists r1. }
  destruct W as (r1 & -> & R1 & HV). set (n := spec_value (firstn 8 (left_ bits))) in *. clearbody n. cbn [bind negb].
  assert (Hlen8 : length (left_ (drop (Z.of_nat 8) (look (Z.of_nat 8) bits))) = (length (left_ bits) - 8)%nat) by (apply (skipn_length 8)). set (b1 := drop (Z.of_nat 8) (look (Z.of_nat 8) bits)) in *. clearbody b1.
  destruct (Z.eqb_spec n 0); cbn [orb]; [now exists r1|]. rewrite Z.gtb_ltb. destruct (Z.ltb_spec (max + 1) n); [now exists r1|].
  pose proof (exact_counts hb (Z.to_nat n) r1 b1 R1) as X. destruct (take_numbers 16 (Z.to_nat n) b1) as [[counts b2]|] eqn:E16.
  2:{ destruct X as (r2 & ->). cbn [bind]. now exists r2. }
  destruct X as (r2 & -> & R2 & F2 & L2). cbn [bind]. rewrite u8_small by lia. apply take_numbers_length in E16. destruct E16 as [_ E16].
  pose proof (pow15 max ltac:(lia)) as PM.
  pose proof (exact_lengths hb (n - 1) (2 ^ max) ltac:(lia) ltac:(lia) counts 0 [] r2 b2 R2 ltac:(lia) ltac:(lia)) as X.
  specialize (X ltac:(constructor; [exact I|constructor]) ltac:(constructor) ltac:(cbn; lia)). cbn [length Nat.add] in X.
  destruct (take_numbers 8 (length (code_lengths 0 counts)) b2) as [[syms b3]|] eqn:E8.
  2:{ destruct X as (r3 & ->). cbn [bind]. destruct (256 <? _)%nat; now exists r3. }
  destruct (256 <? length (code_lengths 0 counts))%nat eqn:E256.
  { destruct X as (r3 & ->). cbn [bind]. now exists r3. }
  destruct X as (cs & r3 & -> & R3 & G3 & F3 & P3). cbn [bind]. cbn [pairs map rev app] in P3. rewrite <- P3.
  apply take_numbers_length in E8. destruct E8 as [_ E8].
  split; [lia|]. split; [lia|]. destruct G3 as [GC GN]. split.
  { unfold pairs. apply Forall_map. cbn [snd]. apply Forall_rev. exact F3. }
  pose proof (ranges_length (n - 1) (rev cs) (Forall_rev F3)) as ER.
  rewrite (convert_exact (n - 1) max ltac:(lia) ltac:(lia) (rev cs) 0 tb) by (auto using Forall_rev; lia).
  rewrite Z.add_0_l. rewrite ER. destruct (Z.ltb_spec (2 ^ max) (kraft (n - 1) (rev cs))); destruct (Z.leb_spec (kraft (n - 1) (rev cs)) (2 ^ max)); try lia; cbn [bind]; [reflexivity|].
  eexists _, r3. split; [reflexivity|assumption].
Qed.

(** * After harm *)
Lemma peek_harmed hb r w s : 230 <= r_position r < 256 -> 0 < s <= 16 -> peek_bits hb r w s = UB.
Proof.
  intros HP HS. unfold peek_bits. rewrite Z.gtb_ltb. destruct (Z.ltb_spec (r_position r) s); [lia|]. cbn [bind].
  rewrite Z.sub_0_r. rewrite u8_small by lia. unfold shr. destruct (Z.leb_spec 0 (r_position r - s)); [|lia].
  destruct (Z.ltb_spec (r_position r - s) 64); [lia|]. reflexivity.
Qed.
Lemma byte_harmed hb r : 230 <= r_position r < 256 -> read_byte hb r = UB.
Proof. intros H. unfold read_byte, read_bits, s_bits_per_byte. cbn [Z.eqb Pos.eqb]. now rewrite peek_harmed by lia. Qed.

Lemma reads_position r bits : reads r bits -> 0 <= r_position r /\ r_position r <= Z.of_nat (length bits).
Proof.
  intros (I & _ & <-). pose proof (ri_pos _ I). split; [lia|]. unfold rbits. rewrite app_length, bits_msb_length. lia.
Qed.

Lemma exact_symbols hb longest max tb : 0 <= longest <= max -> max <= 15 -> length tb = Z.to_nat (2 ^ max) ->
  Forall (fun e => 0 <= snd e <= 15) tb -> forall n r i, sees r i -> (longest = 0 -> loaded i < 64) ->
  match take_symbols n longest tb i with
  | Gives (out, b) => exists r1, decode_symbols hb n longest tb r = Ok (out, r1) /\ sees r1 b /\ (length out <= n)%nat /\ (length (left_ b) <= length (left_ i))%nat
  | Harms => decode_symbols hb n longest tb r = UB \/
             exists out r1, decode_symbols hb n longest tb r = Ok (out, r1) /\ length out = n /\ 230 <= r_position r1 < 256
  | Rejects => False
  end.
Proof.
  intros Hl Hm HT HE. pose proof (pow2_bound longest max ltac:(lia)) as PB. pose proof (pow15 max ltac:(lia)) as PM.
  induction n as [|n IH]; intros r i HR HP; cbn [take_symbols decode_symbols].
  - exists r. cbn. auto.
  - destruct (Z.eqb_spec longest 0) as [->|NZ].
    { destruct HR as ((I & HG & HB) & HQ). specialize (HP eq_refl).
      destruct (peek_ok hb r 16 0 I ltac:(lia) ltac:(lia) ltac:(lia) ltac:(lia)) as (r' & EP & I' & RB & _ & _).
      rewrite EP. cbn [bind Z.to_nat Nat.min Z.of_nat Z.eqb]. exists r'. split; [reflexivity|]. split; [|cbn; lia].
      assert (r_position r' = r_position r /\ is_good (r_in r') = true).
      { clear - EP HG I. pose proof (ri_pos _ I) as RP. unfold peek_bits in EP. rewrite Z.gtb_ltb in EP. destruct (Z.ltb_spec (r_position r) 0); [lia|]. cbn [bind] in EP.
        do 3 inv_bind EP. inversion EP; subst. now split. }
      split; [|lia]. split; [exact I'|]. split; [tauto|now rewrite RB]. }
    destruct HR as (HR & HQ). pose proof HR as HR0.
    destruct (reads_peek hb r _ longest HR ltac:(lia)) as (r1 & E & R1 & P1). rewrite E. cbn [bind].
    pose proof (peek_position hb r _ 16 longest _ _ r1 HR0 ltac:(auto) ltac:(lia) E) as Q1. rewrite HQ in Q1.
    destruct i as [k bits]. unfold left_ in *. cbn [fst snd] in *. unfold loaded in HQ, HP, Q1 at 2. cbn [fst snd] in *.
    destruct bits as [|b0 bits0].
    { unfold spec_read. rewrite firstn_nil. cbn [length snd]. cbn [Z.of_nat Z.eqb]. exists r1. split; [reflexivity|]. split; [|cbn; auto with arith]. split; [exact R1|].
      pose proof (reads_position r _ HR0) as B. pose proof (reads_position r1 _ R1) as B1. cbn [length Z.of_nat] in B, B1. unfold loaded. cbn [fst]. lia. }
    set (bits := b0 :: bits0) in *. assert (HN : (0 < length bits)%nat) by (cbn; lia). clearbody bits. clear b0 bits0.
    assert (E0 : snd (spec_read bits (Z.to_nat longest)) = Z.of_nat (Nat.min (Z.to_nat longest) (length bits))) by (unfold spec_read; cbn [snd]; now rewrite firstn_length).
    destruct (Z.eqb_spec (snd (spec_read bits (Z.to_nat longest))) 0); [lia|].
    assert (HPre : 0 <= fst (spec_read bits (Z.to_nat longest)) < 2 ^ longest).
    { unfold spec_read. cbn [fst]. rewrite firstn_length. pose proof (spec_value_bound (firstn (Z.to_nat longest) bits ++ repeat false (Z.to_nat longest - length (firstn (Z.to_nat longest) bits)))) as B.
      rewrite app_length, repeat_length, firstn_length in B. replace (Z.of_nat _) with longest in B by lia. exact B. }
    set (prefix := fst (spec_read bits (Z.to_nat longest))) in *. clearbody prefix.
    destruct (Z.ltb_spec prefix (Z.of_nat (length tb))); [|lia].
    assert (HI : In (nth (Z.to_nat prefix) tb (0, 0)) tb) by (apply nth_In; lia).
    rewrite Forall_forall in HE. specialize (HE _ HI). destruct (nth (Z.to_nat prefix) tb (0, 0)) as [sym len]. cbn [snd] in HE. clear HI.
    rewrite <- Q1. destruct (Z.ltb_spec (r_position r1) len) as [HB|HB].
    + pose proof (reads_position r1 bits R1) as RP.
      assert (HH : 230 <= r_position (discard_bits r1 len) < 256).
      { unfold discard_bits. cbn [r_position]. unfold u8, wrap. change (2 ^ 8) with 256. rewrite <- (Z.mod_add _ 1) by lia. rewrite Z.mod_small by lia. lia. }
      destruct n as [|n]; cbn [decode_symbols bind].
      * right. eexists _, _. split; [reflexivity|]. split; [reflexivity|exact HH].
      * left. now rewrite peek_harmed by lia.
    + pose proof (reads_discard r1 bits len R1 ltac:(lia)) as R2.
      assert (S2 : sees (discard_bits r1 len) (drop len (look longest (k, bits)))).
      { split; [exact R2|]. unfold drop. unfold loaded at 1. cbn [fst]. rewrite <- Q1. unfold discard_bits. cbn [r_position]. destruct R1 as (I1 & _). pose proof (ri_pos _ I1). now rewrite u8_small by lia. }
      specialize (IH _ _ S2 (fun H0 => False_ind _ (NZ H0))).
      destruct (take_symbols n longest tb (drop len (look longest (k, bits)))) as [[out b]| |]; [|contradiction|].
      * destruct IH as (r3 & -> & R3 & L3 & B3). cbn [bind]. exists r3. split; [reflexivity|]. split; [exact R3|]. unfold left_, drop, look in B3. cbn [snd] in B3. unfold left_ in B3. cbn [snd] in B3. rewrite skipn_length in B3. unfold left_. cbn [length snd]. lia.
      * destruct IH as [->|(out & r3 & -> & L3 & P3)]; cbn [bind]; [now left|]. right. eexists _, _. split; [reflexivity|]. split; [cbn; lia|exact P3].
Qed.
