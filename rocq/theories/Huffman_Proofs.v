(** The Huffman decoder reads back what the encoder wrote. *)
From Coq Require Import Permutation Sorting.Sorted.
From Verif Require Import Common Bits BitStream_Model BitStream_Spec Endian_Proofs BitStream_Proofs BitStream_Props Huffman_Model Huffman_Codes_Proofs.

(** * Reader states *)
Definition reads (r : reader) (bits : list bool) : Prop :=
  rinv r /\ is_good (r_in r) = true /\ rbits r = bits.

Lemma step_good hb r0 o r1 x : reader_step hb r0 o = Ok (r1, x) -> is_good (r_in r0) = true -> is_good (r_in r1) = true.
Proof.
  assert (GR : forall r0 r1, refill_buffer hb r0 = Ok r1 -> is_good (r_in r0) = true -> is_good (r_in r1) = true).
  { clear. intros r0 r1. unfold refill_buffer, fill. intros E Hg. rewrite Hg in E.
    destruct (_ >? 0); [|inversion E; reflexivity].
    do 3 inv_bind E. destruct (at_eof _); [inv_bind E|]; inversion E; reflexivity. }
  assert (GP : forall r0 w s v n r1, peek_bits hb r0 w s = Ok (v, n, r1) -> is_good (r_in r0) = true -> is_good (r_in r1) = true).
  { clear - GR. intros r0 w s v n r1. unfold peek_bits. intros E Hg.
    inv_bind E. destruct a as [[[[ra ba] pa] la] sa]. do 3 inv_bind E. inversion E; subst.
    destruct (s >? r_position r0).
    - do 4 inv_bind Hb. inversion Hb; subst. eapply GR; eassumption.
    - inversion Hb; subst. assumption. }
  intros E Hg. destruct o as [w s|w s|n]; cbn [reader_step] in E.
  - inv_bind E. destruct a as [[v n] q]. inversion E; subst. clear E. unfold read_bits in Hb. destruct (w =? 64).
    + inv_bind Hb. destruct a as [[v1 n1] q1]. inv_bind Hb. destruct a as [[v2 n2] q2]. inv_bind Hb.
      inversion Hb; subst. cbn [discard_bits r_in].
      eapply GP; [eassumption|]. cbn [discard_bits r_in]. eapply GP; eassumption.
    + inv_bind Hb. destruct a as [[v1 n1] q1]. inversion Hb; subst. cbn [discard_bits r_in]. eapply GP; eassumption.
  - inv_bind E. destruct a as [[v n] q]. inversion E; subst. eapply GP; eassumption.
  - inversion E; subst. exact Hg.
Qed.

Lemma reads_consumed r bits : reads r bits -> (fully_consumed r = true <-> bits = []).
Proof.
  intros (I & HG & <-). unfold fully_consumed, rbits, stream_bits. rewrite HG.
  pose proof (ri_pos _ I) as Hp0. pose proof (ri_rem _ I).
  destruct (Z.eqb_spec (r_position r) 0) as [E|N].
  - rewrite E. cbn [Z.to_nat bits_msb seq rev map app]. unfold at_eof.
    destruct (is_rest (r_in r)) as [|b rest]; [split; reflexivity|].
    split; [discriminate|]. intros EE. apply (f_equal (@length bool)) in EE.
    rewrite firstn_length, bytes_bits_length in EE. cbn [length] in EE. lia.
  - split; [discriminate|]. intros EE. apply (f_equal (@length bool)) in EE.
    rewrite app_length, bits_msb_length in EE. cbn [length] in EE. lia.
Qed.

Lemma reads_read hb r bits w s : reads r bits -> w = 8 \/ w = 16 -> 0 < s <= w ->
  exists r1, read_bits hb r w s = Ok (fst (spec_read bits (Z.to_nat s)), snd (spec_read bits (Z.to_nat s)), r1) /\
    reads r1 (skipn (Z.to_nat s) bits).
Proof.
  intros (I & HG & <-) Hw Hs.
  destruct (reader_step_ok hb r (OpRead w s) 0 I) as (r1 & E & I1 & R1 & _).
  - apply (ri_pos _ I).
  - cbn [op_legal]. unfold api_width. repeat split; lia.
  - pose proof (step_good _ _ _ _ _ E HG) as G1. cbn [reader_step ideal_step fst snd] in *.
    inv_bind E. destruct a as [[v n] q]. inversion E; subst.
    exists r1. split; [|split; [assumption|split; assumption]].
    reflexivity.
Qed.

Lemma reads_peek hb r bits s : reads r bits -> 0 < s <= 16 ->
  exists r1, peek_bits hb r 16 s = Ok (fst (spec_read bits (Z.to_nat s)), snd (spec_read bits (Z.to_nat s)), r1) /\
    reads r1 bits /\ snd (spec_read bits (Z.to_nat s)) <= r_position r1.
Proof.
  intros (I & HG & <-) Hs.
  destruct (reader_step_ok hb r (OpPeek 16 s) 0 I) as (r1 & E & I1 & R1 & P1).
  - apply (ri_pos _ I).
  - cbn [op_legal]. repeat split; lia.
  - pose proof (step_good _ _ _ _ _ E HG) as G1. cbn [reader_step ideal_step fst snd] in *.
    inv_bind E. destruct a as [[v n] q]. inversion E; subst.
    exists r1. split; [|split; [split; [assumption|split; assumption]|assumption]].
    reflexivity.
Qed.

Lemma reads_discard r bits n : reads r bits -> 0 <= n <= r_position r -> reads (discard_bits r n) (skipn (Z.to_nat n) bits).
Proof.
  intros (I & HG & <-) Hn. destruct (discard_ok r n I Hn) as [I' R']. split; [assumption|]. split; [exact HG|assumption].
Qed.

Lemma spec_read_exact n v rest : 0 <= v < 2 ^ Z.of_nat n -> spec_read (spec_bits n v ++ rest) n = (v, Z.of_nat n).
Proof.
  intros Hv. rewrite read_value_spec. unfold read_value. rewrite spec_bits_eq.
  rewrite app_length, bits_msb_length. f_equal; [|lia].
  replace (n - _)%nat with 0%nat by lia. cbn [repeat]. rewrite app_nil_r.
  rewrite firstn_app, bits_msb_length, Nat.sub_diag. cbn [firstn]. rewrite app_nil_r.
  rewrite firstn_all2 by (rewrite bits_msb_length; lia). rewrite bval_bits_msb. now apply Z.mod_small.
Qed.
Lemma skipn_spec_bits n v rest : skipn n (spec_bits n v ++ rest) = rest.
Proof.
  rewrite spec_bits_eq. rewrite skipn_app, bits_msb_length, Nat.sub_diag.
  rewrite skipn_all2 by (rewrite bits_msb_length; lia). reflexivity.
Qed.

Lemma reads_byte hb r v rest : reads r (spec_bits 8 v ++ rest) -> 0 <= v < 256 ->
  exists r1, read_byte hb r = Ok (v, true, r1) /\ reads r1 rest.
Proof.
  intros H Hv. unfold read_byte, s_bits_per_byte.
  destruct (reads_read hb r _ 8 8 H ltac:(lia) ltac:(lia)) as (r1 & E & R). rewrite E. cbn [bind].
  change (Z.to_nat 8) with 8%nat in *. rewrite spec_read_exact by (change (2 ^ Z.of_nat 8) with 256; lia).
  cbn [fst snd]. exists r1. split; [reflexivity|]. now rewrite skipn_spec_bits in R.
Qed.
Lemma reads_word hb r v rest : reads r (spec_bits 16 v ++ rest) -> 0 <= v < 65536 ->
  exists r1, read_word hb r = Ok (v, true, r1) /\ reads r1 rest.
Proof.
  intros H Hv. unfold read_word, s_bits_per_word.
  destruct (reads_read hb r _ 16 16 H ltac:(lia) ltac:(lia)) as (r1 & E & R). rewrite E. cbn [bind].
  change (Z.to_nat 16) with 16%nat in *. rewrite spec_read_exact by (change (2 ^ Z.of_nat 16) with 65536; lia).
  cbn [fst snd]. exists r1. split; [reflexivity|]. now rewrite skipn_spec_bits in R.
Qed.

(** * Length counts *)
Definition count_len (codes : list code) (l : nat) : Z :=
  Z.of_nat (length (filter (fun c => c_length c =? Z.of_nat l) codes)).

Lemma count_len_cons c r l : count_len (c :: r) l = (if c_length c =? Z.of_nat l then 1 else 0) + count_len r l.
Proof. unfold count_len. cbn [filter]. destruct (_ =? _); cbn [length]; lia. Qed.

Lemma incr_nth counts : forall i j, (i < length counts)%nat -> Forall (fun x => 0 <= x < 65535) counts ->
  nth j (incr counts i) 0 = nth j counts 0 + (if (j =? i)%nat then 1 else 0).
Proof.
  induction counts as [|x r IH]; intros i j Hi HF; [cbn in Hi; lia|]. inversion_clear HF as [|? ? Hx HF'].
  destruct i as [|i]; cbn [incr].
  - destruct j as [|j]; cbn [nth Nat.eqb]; [rewrite u16_small by lia; reflexivity|lia].
  - destruct j as [|j]; cbn [nth Nat.eqb]; [lia|]. apply IH; [cbn in Hi; lia|assumption].
Qed.
Lemma incr_length counts : forall i, length (incr counts i) = length counts.
Proof. induction counts as [|x r IH]; intros [|i]; cbn; [reflexivity|reflexivity|reflexivity|]. now rewrite IH. Qed.
Lemma incr_bound counts B : 0 <= B < 65535 -> forall i, Forall (fun x => 0 <= x <= B) counts -> Forall (fun x => 0 <= x <= B + 1) (incr counts i).
Proof.
  intros HB. induction counts as [|x r IH]; intros [|i] HF; cbn; [constructor|constructor| |].
  - inversion_clear HF as [|? ? Hx HF']. constructor; [rewrite u16_small by lia; lia|]. eapply Forall_impl; [|exact HF']. cbn; intros; lia.
  - inversion_clear HF as [|? ? Hx HF']. constructor; [lia|]. apply IH. assumption.
Qed.

Lemma length_counts_ok codes : forall counts B, Forall (fun c => 0 <= c_length c) codes ->
  0 <= B -> B + Z.of_nat (length codes) < 65535 -> Forall (fun x => 0 <= x <= B) counts -> (1 <= length counts)%nat ->
  length (length_counts codes counts) =
    Z.to_nat (fold_right Z.max (Z.of_nat (length counts) - 1) (map c_length codes) + 1) /\
  (forall j, nth j (length_counts codes counts) 0 = nth j counts 0 + count_len codes j) /\
  Forall (fun x => 0 <= x <= B + Z.of_nat (length codes)) (length_counts codes counts).
Proof.
  induction codes as [|c r IH]; intros counts B HF HB HN HC HL.
  - cbn [length_counts map fold_right length]. split; [lia|]. split; [intros j; unfold count_len; cbn; lia|].
    eapply Forall_impl; [|exact HC]. cbn. intros; lia.
  - inversion_clear HF as [|? ? Hc HF']. cbn [length_counts]. cbn [length] in HN.
    set (n := Z.to_nat (c_length c)).
    set (counts1 := if (length counts <=? n)%nat then counts ++ repeat 0 (n + 1 - length counts) else counts).
    assert (HL1 : length counts1 = Nat.max (length counts) (n + 1)).
    { unfold counts1. destruct (Nat.leb_spec (length counts) n); [rewrite app_length, repeat_length; lia|lia]. }
    assert (HC1 : Forall (fun x => 0 <= x <= B) counts1).
    { unfold counts1. destruct (_ <=? _)%nat; [|assumption]. apply Forall_app. split; [assumption|].
      apply Forall_forall. intros x Hx. apply repeat_spec in Hx. lia. }
    assert (HN1 : forall j, nth j counts1 0 = nth j counts 0).
    { intros j. unfold counts1. destruct (_ <=? _)%nat; [|reflexivity].
      destruct (Nat.lt_ge_cases j (length counts)); [now apply app_nth1|].
      rewrite app_nth2 by lia. rewrite nth_repeat. symmetry. now apply nth_overflow. }
    clearbody counts1.
    destruct (IH (incr counts1 n) (B + 1)) as (I1 & I2 & I3); [assumption|lia|lia|apply incr_bound; [lia|assumption]|rewrite incr_length; lia|].
    rewrite incr_length in I1. split; [|split].
    + rewrite I1, HL1. cbn [map fold_right]. f_equal. f_equal.
      assert (forall a b l, fold_right Z.max (Z.max a b) l = Z.max b (fold_right Z.max a l)) as FM.
      { clear. intros a b l. induction l as [|x l IH]; cbn [fold_right]; lia. }
      replace (Z.of_nat (Nat.max (length counts) (n + 1)) - 1) with (Z.max (Z.of_nat (length counts) - 1) (c_length c)) by lia.
      apply FM.
    + intros j. rewrite I2, incr_nth; [|lia|eapply Forall_impl; [|exact HC1]; cbn; intros; lia].
      rewrite HN1, count_len_cons.
      destruct (Nat.eqb_spec j n); destruct (Z.eqb_spec (c_length c) (Z.of_nat j)); lia.
    + cbn [length]. eapply Forall_impl; [|exact I3]. cbn. intros; lia.
Qed.

Definition longest (codes : list code) : Z := fold_right Z.max 0 (map c_length codes).
Lemma counts_eq codes : Forall (fun c => 0 <= c_length c) codes -> Z.of_nat (length codes) < 65535 ->
  length_counts codes [0] = map (count_len codes) (seq 0 (Z.to_nat (longest codes + 1))) /\
  Forall (fun x => 0 <= x < 65536) (length_counts codes [0]).
Proof.
  intros HF HN. destruct (length_counts_ok codes [0] 0 HF ltac:(lia) ltac:(lia)) as (L & N & B).
  { constructor; [lia|constructor]. } { cbn; lia. }
  split; [|eapply Forall_impl; [|exact B]; cbn; intros; lia].
  cbn [length] in L. change (Z.of_nat 1 - 1) with 0 in L. fold (longest codes) in L.
  apply nth_ext with 0 (count_len codes 0).
  - rewrite L, map_length, seq_length. reflexivity.
  - intros j Hj. rewrite N. rewrite map_nth, seq_nth by lia.
    destruct j as [|[|j]]; cbn [nth plus]; lia.
Qed.

(** * Reading the code table back *)
Lemma decode_counts_ok hb : forall counts r rest,
  reads r (flat_map (spec_bits 16) counts ++ rest) -> Forall (fun x => 0 <= x < 65536) counts ->
  exists r1, decode_counts hb (length counts) r = Ok (Some counts, r1) /\ reads r1 rest.
Proof.
  induction counts as [|c cs IH]; intros r rest HR HF; [exists r; auto|].
  inversion_clear HF as [|? ? Hc HF']. cbn [flat_map] in HR. rewrite <- app_assoc in HR.
  destruct (reads_word hb r c _ HR Hc) as (r1 & E & R1). cbn [length decode_counts]. rewrite E. cbn [bind negb].
  destruct (IH r1 rest R1 HF') as (r2 & E2 & R2). rewrite E2. cbn [bind]. eauto.
Qed.

Definition follows (prev : option code) (c : code) : Prop :=
  match prev with
  | None => c_code c = 0
  | Some p => 0 <= c_code p < 32768 /\ 0 <= c_length p <= c_length c /\
              (c_code p + 1) * 2 ^ (c_length c - c_length p) = c_code c
  end.
Fixpoint chain (prev : option code) (codes : list code) : Prop :=
  match codes with
  | [] => True
  | c :: r => follows prev c /\ 0 <= c_code c < 32768 /\ 0 <= c_length c <= 15 /\ chain (Some c) r
  end.

Lemma canon_chain M : 0 <= M <= 15 -> forall codes prev acc,
  match prev with
  | None => acc = 0
  | Some p => c_code p * 2 ^ (M - c_length p) + 2 ^ (M - c_length p) = acc /\ 0 <= c_code p < 32768 /\ 0 <= c_length p /\
              Forall (fun c => c_length p <= c_length c) codes
  end -> 0 <= acc ->
  len_sorted codes -> lens_in 0 M codes -> canon M acc codes -> acc + kraft M codes <= 2 ^ M -> chain prev codes.
Proof.
  intros HM. induction codes as [|c r IH]; intros prev acc HP Hacc HS HL HC HK; [exact I|].
  pose proof (canon_spec M ltac:(lia) _ _ Hacc HC HL HK) as HB.
  inversion_clear HS as [|? ? HS' HF]. inversion_clear HL as [|? ? Hc HL']. inversion_clear HB as [|? ? [Hb1 Hb2] _].
  destruct HC as [HC1 HC2]. rewrite kraft_cons in HK.
  pose proof (pow15 (c_length c) ltac:(lia)). pose proof (pow2_pos (M - c_length c) ltac:(lia)).
  cbn [chain]. split; [|split; [lia|split; [lia|]]].
  - destruct prev as [p|]; cbn [follows].
    + destruct HP as (P1 & P2 & P3 & P4). inversion_clear P4 as [|? ? P5 _]. split; [lia|]. split; [lia|].
      apply (Z.mul_cancel_r _ _ (2 ^ (M - c_length c))); [lia|].
      rewrite <- Z.mul_assoc, <- pow2_add by lia.
      replace (c_length c - c_length p + (M - c_length c)) with (M - c_length p) by lia. lia.
    + subst acc. destruct (Z.eq_dec (c_code c) 0) as [|N]; [assumption|exfalso].
      assert (0 < c_code c * 2 ^ (M - c_length c)) by (apply Z.mul_pos_pos; lia). lia.
  - apply (IH (Some c) (acc + 2 ^ (M - c_length c))); try assumption; try lia.
    split; [lia|]. split; [lia|]. split; [lia|exact HF].
Qed.

Notation sym_bits := (fun c => spec_bits 8 (c_symbol c)).

Lemma decode_length_ok hb len : 0 <= len <= 15 -> forall g acc r rest more,
  Forall (fun c => c_length c = len /\ 0 <= c_symbol c < 256) g -> chain (hd_error acc) (g ++ more) ->
  (length acc + length g <= 256)%nat ->
  reads r (flat_map sym_bits g ++ rest) ->
  exists r1, decode_length hb (length g) len acc r = Ok (Some (rev g ++ acc), r1) /\ reads r1 rest /\
    chain (hd_error (rev g ++ acc)) more.
Proof.
  intros Hlen. induction g as [|c g IH]; intros acc r rest more HF HC HN HR.
  - cbn in *. eauto.
  - inversion_clear HF as [|? ? [Hl Hs] HF']. cbn [flat_map] in HR. rewrite <- app_assoc in HR.
    destruct (reads_byte hb r _ _ HR Hs) as (r1 & E & R1).
    cbn [length decode_length]. rewrite E. cbn [bind negb].
    cbn [app chain] in HC. destruct HC as (C1 & C2 & C3 & C4).
    assert (EV : match acc with
                 | [] => Ok 0
                 | last :: _ => let! v := shl 32 (c_code last + 1) (u8 (len - c_length last)) in Ok (u16 v)
                 end = Ok (c_code c)).
    { destruct acc as [|p acc']; cbn [hd_error follows] in C1; [now rewrite C1|].
      destruct C1 as (D1 & D2 & D3). rewrite u8_small by lia. rewrite shl_ok by lia. cbn [bind].
      rewrite <- Hl, D3. rewrite (Z.mod_small _ (2 ^ 32)) by (change (2 ^ 32) with 4294967296; lia).
      rewrite u16_small by lia. reflexivity. }
    rewrite EV. cbn [bind]. cbn [length] in HN. destruct (Nat.eqb_spec (length acc) 256); [lia|].
    replace {| c_symbol := c_symbol c; c_code := c_code c; c_length := len |} with c by (destruct c; cbn in *; now subst).
    destruct (IH (c :: acc) r1 rest more HF' C4 ltac:(cbn; lia) R1) as (r2 & E2 & R2 & C5).
    rewrite E2. cbn [rev]. rewrite <- app_assoc. cbn [app]. eauto.
Qed.

Lemma split_length codes len : len_sorted codes -> Forall (fun c => len <= c_length c) codes ->
  exists g rest, codes = g ++ rest /\ Forall (fun c => c_length c = len) g /\ Forall (fun c => len + 1 <= c_length c) rest.
Proof.
  induction 1 as [|c r HS IH HF]; intros HL; [exists [], []; auto|].
  inversion_clear HL as [|? ? Hc HL']. destruct (Z.eq_dec (c_length c) len) as [E|N].
  - destruct (IH HL') as (g & rest & -> & H1 & H2). exists (c :: g), rest. split; [reflexivity|]. auto.
  - exists [], (c :: r). split; [reflexivity|]. split; [constructor|]. constructor; [lia|].
    eapply Forall_impl; [|exact HF]. cbn. intros; lia.
Qed.
Lemma count_len_app a b l : count_len (a ++ b) l = count_len a l + count_len b l.
Proof. unfold count_len. rewrite filter_app, app_length. lia. Qed.
Lemma count_len_all g l : Forall (fun c => c_length c = Z.of_nat l) g -> count_len g l = Z.of_nat (length g).
Proof.
  induction 1 as [|c g Hc HF IH]; [reflexivity|]. rewrite count_len_cons, IH, Hc, Z.eqb_refl. cbn [length]. lia.
Qed.
Lemma count_len_none g l : Forall (fun c => c_length c <> Z.of_nat l) g -> count_len g l = 0.
Proof.
  induction 1 as [|c g Hc HF IH]; [reflexivity|]. rewrite count_len_cons, IH.
  destruct (Z.eqb_spec (c_length c) (Z.of_nat l)); [contradiction|reflexivity].
Qed.

Lemma sorted_app_r {A} (R : A -> A -> Prop) l1 l2 : StronglySorted R (l1 ++ l2) -> StronglySorted R l2.
Proof. induction l1 as [|x l IH]; [auto|]. cbn. intros H. inversion H. auto. Qed.

Lemma decode_lengths_ok hb : forall n start codes acc r rest,
  Z.of_nat start + Z.of_nat n <= 16 ->
  len_sorted codes -> Forall (fun c => Z.of_nat start <= c_length c < Z.of_nat start + Z.of_nat n /\ 0 <= c_symbol c < 256) codes ->
  chain (hd_error acc) codes -> (length acc + length codes <= 256)%nat ->
  reads r (flat_map sym_bits codes ++ rest) ->
  exists r1, decode_lengths hb (map (count_len codes) (seq start n)) (Z.of_nat start) acc r =
             Ok (Some (rev codes ++ acc), r1) /\ reads r1 rest.
Proof.
  induction n as [|n IH]; intros start codes acc r rest Hsn HS HF HC HN HR.
  - destruct codes as [|c cs]; [cbn in *; eauto|]. inversion_clear HF as [|? ? [Hc _] _]. lia.
  - cbn [seq map decode_lengths].
    destruct (split_length codes (Z.of_nat start)) as (g & more & -> & G1 & G2); [assumption| |].
    { eapply Forall_impl; [|exact HF]. cbn. intros; lia. }
    apply Forall_app in HF. destruct HF as [HFg HFm].
    assert (Hcount : count_len (g ++ more) start = Z.of_nat (length g)).
    { rewrite count_len_app, count_len_all by assumption. rewrite count_len_none; [lia|].
      eapply Forall_impl; [|exact G2]. cbn. intros; lia. }
    rewrite Hcount, Nat2Z.id. rewrite flat_map_app, <- app_assoc in HR. rewrite app_length in HN.
    destruct (decode_length_ok hb (Z.of_nat start) ltac:(lia) g acc r (flat_map sym_bits more ++ rest) more) as (r1 & E & R1 & C1); [|assumption|lia|assumption|].
    { apply Forall_forall. intros c Hc. rewrite Forall_forall in G1, HFg. split; [auto|]. apply HFg. assumption. }
    rewrite E. cbn [bind].
    replace (Z.of_nat start + 1) with (Z.of_nat (S start)) by lia.
    rewrite (map_ext_in _ (count_len more)).
    2:{ intros l Hl. apply in_seq in Hl. rewrite count_len_app, (count_len_none g); [reflexivity|].
        eapply Forall_impl; [|exact G1]. cbn. intros; lia. }
    destruct (IH (S start) more (rev g ++ acc) r1 rest) as (r2 & E2 & R2); [lia|now apply sorted_app_r in HS| |assumption| |assumption|].
    + apply Forall_forall. intros c Hc. rewrite Forall_forall in G2, HFm. specialize (G2 c Hc). specialize (HFm c Hc). lia.
    + rewrite app_length, rev_length. lia.
    + rewrite E2. rewrite rev_app_distr, <- app_assoc. eauto.
Qed.

(** * The prefix table *)
Lemma store_ok tb i e : 0 <= i < Z.of_nat (length tb) ->
  exists tb', store tb i e = Ok tb' /\ length tb' = length tb /\
    forall j, 0 <= j -> nth (Z.to_nat j) tb' (0, 0) = if j =? i then e else nth (Z.to_nat j) tb (0, 0).
Proof.
  intros Hi. unfold store. destruct (Z.leb_spec 0 i); [|lia]. destruct (Z.ltb_spec i (Z.of_nat (length tb))); [|lia]. cbn [andb].
  eexists. split; [reflexivity|].
  assert (HL : length (firstn (Z.to_nat i) tb) = Z.to_nat i) by (apply firstn_length_le; lia).
  split.
  - rewrite app_length, HL. cbn [length]. rewrite skipn_length. lia.
  - intros j Hj. destruct (Z.eqb_spec j i) as [->|N].
    + rewrite app_nth2 by lia. rewrite HL, Nat.sub_diag. reflexivity.
    + destruct (Z.lt_ge_cases j i).
      * rewrite app_nth1 by lia. rewrite <- (firstn_skipn (Z.to_nat i) tb) at 2. rewrite app_nth1 by lia. reflexivity.
      * rewrite app_nth2 by lia. rewrite HL. destruct (Z.to_nat j - Z.to_nat i)%nat as [|m] eqn:Em; [lia|]. cbn [nth].
        rewrite <- (firstn_skipn (S (Z.to_nat i)) tb) at 2.
        rewrite app_nth2 by (rewrite firstn_length; lia). rewrite firstn_length_le by lia. f_equal. lia.
Qed.

Lemma fill_entries_ok e : forall n base tb, 0 <= base -> base + Z.of_nat n <= Z.of_nat (length tb) -> Z.of_nat (length tb) <= 65536 ->
  exists tb', fill_entries n base e tb = Ok tb' /\ length tb' = length tb /\
    forall j, 0 <= j -> nth (Z.to_nat j) tb' (0, 0) =
      if (base <=? j) && (j <? base + Z.of_nat n) then e else nth (Z.to_nat j) tb (0, 0).
Proof.
  induction n as [|n IH]; intros base tb Hb Hn H16.
  - exists tb. split; [reflexivity|]. split; [reflexivity|]. intros j Hj.
    destruct (Z.leb_spec base j); destruct (Z.ltb_spec j (base + Z.of_nat 0)); cbn [andb]; try reflexivity; lia.
  - cbn [fill_entries]. destruct (IH base tb Hb ltac:(lia) H16) as (tb1 & E & L & N). rewrite E. cbn [bind].
    rewrite u16_small by lia.
    destruct (store_ok tb1 (base + Z.of_nat n) e ltac:(lia)) as (tb2 & E2 & L2 & N2).
    exists tb2. split; [exact E2|]. split; [lia|]. intros j Hj. rewrite N2, N by assumption.
    destruct (Z.eqb_spec j (base + Z.of_nat n)); destruct (Z.leb_spec base j); destruct (Z.ltb_spec j (base + Z.of_nat n));
      destruct (Z.ltb_spec j (base + Z.of_nat (S n))); cbn [andb]; try reflexivity; lia.
Qed.

Definition table_has (L : Z) (tb : table) (c : code) : Prop :=
  forall j, 0 <= j < 2 ^ (L - c_length c) ->
    nth (Z.to_nat (c_code c * 2 ^ (L - c_length c) + j)) tb (0, 0) = (c_symbol c, c_length c).

Lemma convert_ok L : 0 <= L <= 15 -> forall codes acc tb,
  0 <= acc -> canon L acc codes -> lens_in 0 L codes -> acc + kraft L codes <= 2 ^ L ->
  2 ^ L <= Z.of_nat (length tb) <= 65536 ->
  exists tb', convert_to_prefix_table L codes tb = Ok tb' /\ length tb' = length tb /\
    Forall (table_has L tb') codes /\ forall j, 0 <= j < acc -> nth (Z.to_nat j) tb' (0, 0) = nth (Z.to_nat j) tb (0, 0).
Proof.
  intros HL. induction codes as [|c r IH]; intros acc tb Hacc HC HF HK HT.
  - exists tb. cbn. auto.
  - pose proof (canon_spec L ltac:(lia) _ _ Hacc HC HF HK) as HB. inversion_clear HB as [|? ? [Hb1 _] _].
    destruct HC as [HC1 HC2]. inversion_clear HF as [|? ? Hc HF']. rewrite kraft_cons in HK. pose proof (kraft_nonneg L r).
    cbn [convert_to_prefix_table]. rewrite u8_small by lia.
    pose proof (pow15 (L - c_length c) ltac:(lia)) as P. pose proof (pow15 L HL) as PL.
    rewrite shl_ok by lia. cbn [bind]. rewrite Z.mul_1_l, (Z.mod_small _ (2 ^ 32)) by (change (2 ^ 32) with 4294967296; lia).
    rewrite shl_ok by lia. cbn [bind]. rewrite HC1, (Z.mod_small _ (2 ^ 32)) by (change (2 ^ 32) with 4294967296; lia).
    destruct (fill_entries_ok (c_symbol c, c_length c) (Z.to_nat (2 ^ (L - c_length c))) acc tb) as (tb1 & E1 & L1 & N1); [lia|lia|lia|].
    rewrite E1. cbn [bind].
    destruct (IH (acc + 2 ^ (L - c_length c)) tb1) as (tb2 & E2 & L2 & T2 & N2); [lia|assumption|assumption|lia|lia|].
    exists tb2. split; [exact E2|]. split; [lia|]. split.
    + constructor; [|assumption]. intros j Hj. rewrite HC1. rewrite N2 by lia. rewrite N1 by lia.
      destruct (Z.leb_spec acc (acc + j)); [|lia]. destruct (Z.ltb_spec (acc + j) (acc + Z.of_nat (Z.to_nat (2 ^ (L - c_length c))))); [reflexivity|lia].
    + intros j Hj. rewrite N2 by lia. rewrite N1 by lia. destruct (Z.leb_spec acc j); [lia|]. reflexivity.
Qed.

(** * Symbols *)
Definition code_bits (c : code) : list bool := spec_bits (Z.to_nat (c_length c)) (c_code c).

Lemma peek_prefix c L tail : 0 <= c_length c <= L -> 0 <= c_code c < 2 ^ c_length c ->
  exists w, fst (spec_read (code_bits c ++ tail) (Z.to_nat L)) = c_code c * 2 ^ (L - c_length c) + w /\ 0 <= w < 2 ^ (L - c_length c) /\
    c_length c <= snd (spec_read (code_bits c ++ tail) (Z.to_nat L)).
Proof.
  intros Hl Hc. rewrite read_value_spec. cbn [fst snd]. unfold read_value, code_bits. rewrite spec_bits_eq.
  set (cb := bits_msb (Z.to_nat (c_length c)) (c_code c)).
  assert (Lcb : length cb = Z.to_nat (c_length c)) by apply bits_msb_length.
  rewrite app_length, Lcb. rewrite firstn_app, Lcb. rewrite (firstn_all2 cb) by lia.
  set (t1 := firstn (Z.to_nat L - Z.to_nat (c_length c)) tail).
  rewrite <- app_assoc, bval_app.
  replace (bval cb) with (c_code c).
  2:{ unfold cb. rewrite bval_bits_msb. symmetry. apply Z.mod_small. rewrite Z2Nat.id by lia. assumption. }
  set (t2 := t1 ++ _).
  assert (L2 : Z.of_nat (length t2) = L - c_length c).
  { unfold t2. rewrite app_length, repeat_length. unfold t1. rewrite firstn_length. lia. }
  rewrite L2. exists (bval t2). split; [reflexivity|]. split; [rewrite <- L2; apply bval_bounds|]. lia.
Qed.

Lemma code_of_symbol_in codes s : In s (map c_symbol codes) ->
  In (code_of_symbol codes s) codes /\ c_symbol (code_of_symbol codes s) = s.
Proof.
  intros H. unfold code_of_symbol. destruct (find _ codes) as [c|] eqn:E.
  - apply find_some in E. destruct E as [E1 E2]. apply Z.eqb_eq in E2. auto.
  - exfalso. apply in_map_iff in H. destruct H as (c & <- & Hc). pose proof (find_none _ _ E c Hc) as F.
    cbn in F. rewrite Z.eqb_refl in F. discriminate.
Qed.

Lemma decode_symbols_ok hb L codes tb : 1 <= L <= 15 -> 2 ^ L <= Z.of_nat (length tb) ->
  Forall (fun c => 1 <= c_length c <= L /\ 0 <= c_code c < 2 ^ c_length c) codes -> Forall (table_has L tb) codes ->
  forall syms n r rest, Forall (fun s => In s (map c_symbol codes)) syms ->
  reads r (flat_map (fun s => code_bits (code_of_symbol codes s)) syms ++ rest) ->
  (length syms = n \/ (length syms <= n)%nat /\ rest = []) ->
  exists r1, decode_symbols hb n L tb r = Ok (syms, r1) /\ reads r1 rest.
Proof.
  intros HL HTl HF HT. induction syms as [|s syms IH]; intros n r rest HS HR HN.
  - cbn in HR. destruct n as [|n]; [cbn; eauto|].
    destruct HN as [HN|[_ ->]]; [discriminate|]. cbn [decode_symbols].
    destruct (reads_peek hb r _ L HR ltac:(lia)) as (r1 & E & R1 & _). rewrite E. cbn [bind].
    replace (snd _) with 0; [cbn; eauto|]. rewrite read_value_spec. cbn. lia.
  - destruct n as [|n]; [cbn in HN; lia|]. inversion_clear HS as [|? ? Hs HS'].
    destruct (code_of_symbol_in codes s Hs) as [Hin Hsym].
    cbn [flat_map] in HR. rewrite <- app_assoc in HR. set (c := code_of_symbol codes s) in *.
    rewrite Forall_forall in HF, HT. destruct (HF c Hin) as [Hc1 Hc2]. pose proof (HT c Hin) as HTc.
    set (tail := flat_map _ syms ++ rest) in *.
    cbn [decode_symbols]. destruct (reads_peek hb r _ L HR ltac:(lia)) as (r1 & E & R1 & P1). rewrite E. cbn [bind].
    destruct (peek_prefix c L tail ltac:(lia) Hc2) as (w & V & W & G).
    destruct (Z.eqb_spec (snd (spec_read (code_bits c ++ tail) (Z.to_nat L))) 0); [lia|].
    rewrite V. rewrite HTc by assumption. rewrite Hsym.
    pose proof (high_low_lt (c_code c) w (L - c_length c) L ltac:(lia)) as HLT.
    replace (L - (L - c_length c)) with (c_length c) in HLT by lia. specialize (HLT Hc2 W).
    destruct (Z.ltb_spec (c_code c * 2 ^ (L - c_length c) + w) (Z.of_nat (length tb))); [|lia].
    pose proof (reads_discard r1 _ (c_length c) R1 ltac:(lia)) as R2.
    unfold code_bits in R2. rewrite skipn_spec_bits in R2.
    destruct (IH n (discard_bits r1 (c_length c)) rest HS' R2) as (r3 & E3 & R3).
    { cbn [length] in HN. destruct HN as [HN|[HN1 HN2]]; [left; lia|right; split; [lia|assumption]]. }
    rewrite E3. cbn [bind]. eauto.
Qed.

(** * One chunk *)
Lemma longest_spec max codes : lens_in 1 max codes -> codes <> [] ->
  1 <= longest codes <= max /\ lens_in 1 (longest codes) codes.
Proof.
  intros HF HN. unfold longest.
  assert (HB : Forall (fun c => c_length c <= fold_right Z.max 0 (map c_length codes)) codes).
  { apply (Forall_map c_length (fun l => l <= fold_right Z.max 0 (map c_length codes))).
    apply fold_max_le. lia. }
  assert (HU : fold_right Z.max 0 (map c_length codes) <= Z.max 0 max).
  { clear HB HN. induction HF as [|c r Hc HF IH]; cbn [map fold_right]; lia. }
  destruct codes as [|c r]; [contradiction|]. inversion_clear HF as [|? ? Hc HF'].
  split.
  - inversion_clear HB. lia.
  - apply Forall_forall. intros x Hx. rewrite Forall_forall in HB. specialize (HB x Hx). split; [|assumption].
    destruct Hx as [<-|Hx]; [lia|]. rewrite Forall_forall in HF'. specialize (HF' x Hx). lia.
Qed.

Lemma payload_app a b : payload_of (a ++ b) = payload_of a ++ payload_of b.
Proof. apply flat_map_app. Qed.

Lemma payload_words counts : Forall (fun x => 0 <= x < 65536) counts ->
  payload_of (map word_field counts) = flat_map (spec_bits 16) counts.
Proof.
  induction 1 as [|x l Hx HF IH]; [reflexivity|]. cbn [map payload_of flat_map word_field f_size f_value].
  rewrite u16_small by assumption. unfold payload_of in IH. rewrite IH. reflexivity.
Qed.
Lemma payload_symbols codes : Forall (fun c => 0 <= c_symbol c < 256) codes ->
  payload_of (map (fun c => byte_field (c_symbol c)) codes) = flat_map sym_bits codes.
Proof.
  induction 1 as [|x l Hx HF IH]; [reflexivity|]. cbn [map payload_of flat_map byte_field f_size f_value].
  rewrite u8_small by assumption. unfold payload_of in IH. rewrite IH. reflexivity.
Qed.

Lemma codes_symbols_byte max chunk codes : codes_ok max chunk codes -> Forall (fun c => 0 <= c_symbol c < 256) codes.
Proof.
  intros H. apply (Forall_map c_symbol (fun s => 0 <= s < 256)). pose proof (present_byte chunk) as P.
  apply Forall_forall. intros s Hs. rewrite Forall_forall in P. apply P.
  apply (Permutation_in _ (co_symbols _ _ _ H)). assumption.
Qed.
Lemma codes_length max chunk codes : codes_ok max chunk codes -> (length codes <= 256)%nat.
Proof.
  intros H. rewrite <- (map_length c_symbol), (Permutation_length (co_symbols _ _ _ H)). apply present_length.
Qed.

Lemma codes_canon max chunk codes : 1 <= max <= 15 -> codes_ok max chunk codes ->
  let L := longest codes in
  1 <= L <= max /\ lens_in 1 L codes /\ canon L 0 codes /\ kraft L codes <= 2 ^ L /\
  Forall (fun c => 1 <= c_length c <= L /\ 0 <= c_code c < 2 ^ c_length c) codes.
Proof.
  intros Hm H. cbn zeta.
  destruct (longest_spec max codes (co_lengths _ _ _ H) (co_nonempty _ _ _ H)) as [HL HLF].
  set (L := longest codes) in *. clearbody L.
  assert (HLE : Forall (fun c => c_length c <= L) codes) by (eapply Forall_impl; [|exact HLF]; cbn; intros; lia).
  assert (HC : canon L 0 codes).
  { apply (canon_shift L max); [lia|assumption|]. rewrite Z.mul_0_l. apply (co_canon _ _ _ H). }
  assert (HK : kraft L codes <= 2 ^ L).
  { pose proof (co_kraft _ _ _ H) as K. rewrite (kraft_shift L max) in K by (lia || assumption).
    pose proof (pow2_pos (max - L) ltac:(lia)). apply (Z.mul_le_mono_pos_r _ _ (2 ^ (max - L))); [assumption|].
    rewrite <- pow2_add by lia. replace (L + (max - L)) with max by lia. assumption. }
  split; [assumption|]. split; [assumption|]. split; [assumption|]. split; [assumption|].
  assert (HL0 : lens_in 0 L codes) by (eapply Forall_impl; [|exact HLF]; cbn; intros; lia).
  pose proof (canon_spec L ltac:(lia) codes 0 ltac:(lia) HC HL0 ltac:(lia)) as CS.
  apply Forall_forall. intros c Hc. rewrite Forall_forall in HLF, CS. specialize (HLF c Hc). destruct (CS c Hc). auto.
Qed.

Lemma decode_codes_ok hb max chunk codes tb r rest : 1 <= max <= 15 -> codes_ok max chunk codes ->
  2 ^ max <= Z.of_nat (length tb) <= 65536 ->
  reads r (payload_of (encode_codes codes) ++ rest) ->
  exists tb' r1, decode_codes hb max tb r = Ok (Some (longest codes, codes, tb'), r1) /\ reads r1 rest /\
    length tb' = length tb /\ Forall (table_has (longest codes) tb') codes.
Proof.
  intros Hm H HT HR. destruct (codes_canon max chunk codes Hm H) as (HL & HLF & HC & HK & HB). cbn zeta in *.
  pose proof (codes_symbols_byte _ _ _ H) as HSB. pose proof (codes_length _ _ _ H) as HLen.
  assert (HL0 : Forall (fun c => 0 <= c_length c) codes) by (eapply Forall_impl; [|exact HLF]; cbn; intros; lia).
  destruct (counts_eq codes HL0 ltac:(lia)) as [EC HC16].
  set (L := longest codes) in *.
  assert (HCL : length (length_counts codes [0]) = Z.to_nat (L + 1)) by (rewrite EC, map_length, seq_length; reflexivity).
  assert (EP : payload_of (encode_codes codes) ++ rest =
    spec_bits 8 (L + 1) ++ flat_map (spec_bits 16) (length_counts codes [0]) ++ flat_map sym_bits codes ++ rest).
  { unfold encode_codes. cbn zeta. rewrite HCL.
    change (byte_field (Z.of_nat (Z.to_nat (L + 1))) :: ?x) with ([byte_field (Z.of_nat (Z.to_nat (L + 1)))] ++ x).
    rewrite !payload_app, payload_words, payload_symbols by assumption.
    cbn [payload_of flat_map byte_field f_size f_value]. rewrite Z2Nat.id by lia. rewrite u8_small by lia.
    rewrite app_nil_r, <- !app_assoc. reflexivity. }
  rewrite EP in HR. clear EP.
  unfold decode_codes. destruct (reads_byte hb r _ _ HR ltac:(lia)) as (r1 & E1 & R1). rewrite E1. cbn [bind negb].
  destruct (Z.eqb_spec (L + 1) 0); [lia|]. destruct (Z.gtb_spec (L + 1) (max + 1)); [lia|]. cbn [orb].
  replace (u8 (L + 1 - 1)) with L by (rewrite u8_small; lia).
  destruct (decode_counts_ok hb _ r1 _ R1 HC16) as (r2 & E2 & R2). rewrite HCL in E2. rewrite E2. cbn [bind].
  rewrite EC.
  destruct (decode_lengths_ok hb (Z.to_nat (L + 1)) 0 codes [] r2 rest) as (r3 & E3 & R3).
  - lia.
  - apply (co_sorted _ _ _ H).
  - apply Forall_forall. intros c Hc. rewrite Forall_forall in HLF, HSB. specialize (HLF c Hc). specialize (HSB c Hc). lia.
  - cbn [hd_error]. apply (canon_chain L ltac:(lia) codes None 0); [reflexivity|lia|apply (co_sorted _ _ _ H)| |assumption|lia].
    eapply Forall_impl; [|exact HLF]. cbn. intros; lia.
  - cbn [length]. lia.
  - assumption.
  - change (Z.of_nat 0) with 0 in E3. rewrite E3. cbn [bind]. rewrite app_nil_r, rev_involutive.
    pose proof (pow2_bound L max ltac:(lia)).
    destruct (convert_ok L ltac:(lia) codes 0 tb) as (tb' & E4 & L4 & T4 & _); [lia|assumption| |lia|lia|].
    { eapply Forall_impl; [|exact HLF]. cbn. intros; lia. }
    rewrite E4. cbn [bind]. eauto 6.
Qed.

Lemma payload_encode_symbols codes chunk :
  payload_of (encode_symbols codes chunk) = flat_map (fun s => code_bits (code_of_symbol codes s)) chunk.
Proof. unfold encode_symbols, payload_of. induction chunk as [|s l IH]; [reflexivity|]. cbn [map flat_map]. now rewrite IH. Qed.

(** Every call the encoder makes on the bit stream is within its contract. *)
Lemma fields_ok max chunk codes : 1 <= max <= 15 -> codes_ok max chunk codes ->
  Forall (fun b => 0 <= b < 256) chunk ->
  Forall (fun f => field_ok f /\ f_size f <= 16) (encode_codes codes ++ encode_symbols codes chunk).
Proof.
  intros Hm H HF. destruct (codes_canon max chunk codes Hm H) as (HL & HLF & HC & HK & HB). cbn zeta in *.
  assert (BF : forall v, field_ok (byte_field v) /\ f_size (byte_field v) <= 16).
  { intros v. unfold field_ok, byte_field, api_width, s_bits_per_byte; cbn. unfold u8, wrap.
    pose proof (Z.mod_pos_bound v (2 ^ 8) ltac:(lia)). change (2 ^ 8) with 256 in *. lia. }
  assert (WF : forall v, field_ok (word_field v) /\ f_size (word_field v) <= 16).
  { intros v. unfold field_ok, word_field, api_width, s_bits_per_word; cbn. unfold u16, wrap.
    pose proof (Z.mod_pos_bound v (2 ^ 16) ltac:(lia)). change (2 ^ 16) with 65536 in *. lia. }
  unfold encode_codes. cbn zeta. cbn [app]. constructor; [apply BF|]. apply Forall_app. split; [apply Forall_app; split|].
  - apply Forall_forall. intros f Hf. apply in_map_iff in Hf. destruct Hf as (x & <- & _). apply WF.
  - apply Forall_forall. intros f Hf. apply in_map_iff in Hf. destruct Hf as (x & <- & _). apply BF.
  - apply Forall_forall. intros f Hf. apply in_map_iff in Hf. destruct Hf as (s & <- & Hs). cbn zeta.
    assert (HI : In s (map c_symbol codes)).
    { apply (Permutation_in _ (Permutation_sym (co_symbols _ _ _ H))). now apply present_in. }
    destruct (code_of_symbol_in codes s HI) as [Hin _]. rewrite Forall_forall in HB. destruct (HB _ Hin) as [B1 B2].
    unfold field_ok, api_width. cbn. lia.
Qed.

(** * All chunks *)
Definition fits (max : Z) (size : nat) (input : list Z) : Prop :=
  forall k, Z.of_nat (length (present (firstn size (skipn (k * size) input)))) <= 2 ^ max.

Lemma payload_nonempty codes x : (1 <= length (payload_of (encode_codes codes ++ x)))%nat.
Proof.
  unfold encode_codes. cbn zeta. cbn [app payload_of flat_map]. rewrite app_length.
  unfold byte_field, s_bits_per_byte at 1. cbn [f_size]. rewrite spec_bits_eq, bits_msb_length. lia.
Qed.

Lemma encode_chunks_ok size max : 1 <= max <= 15 -> (0 < size)%nat -> forall input body,
  encode_chunks size max input body -> Forall (fun b => 0 <= b < 256) input -> fits max size input ->
  exists fs, body = Ok fs /\ Forall (fun f => field_ok f /\ f_size f <= 16) fs /\
    (input = [] -> fs = []) /\
    forall hb fuel tb acc r, (length (payload_of fs) <= fuel)%nat -> 2 ^ max <= Z.of_nat (length tb) <= 65536 ->
      reads r (payload_of fs) ->
      decode_loop fuel hb (Z.of_nat size) max tb acc r = Ok (Some (acc ++ input)).
Proof.
  intros Hm Hsize. induction 1 as [input E|input t rest E HT HE IH]; intros HF HFit.
  - assert (input = []).
    { destruct size; [lia|]. destruct input; [reflexivity|discriminate]. }
    subst input. exists []. split; [reflexivity|]. split; [constructor|]. split; [reflexivity|].
    intros hb fuel tb acc r _ _ HR. assert (FC : fully_consumed r = true) by (apply (reads_consumed r _ HR); reflexivity).
    rewrite app_nil_r. destruct fuel; cbn [decode_loop]; rewrite FC; reflexivity.
  - set (chunk := firstn size input) in *. set (more := skipn size input) in *.
    assert (Hin : input = chunk ++ more) by (symmetry; apply firstn_skipn).
    assert (HFc : Forall (fun b => 0 <= b < 256) chunk) by now apply Forall_firstn.
    assert (HFm : Forall (fun b => 0 <= b < 256) more) by now apply Forall_skipn.
    assert (Hn : Z.of_nat (length (present chunk)) <= 2 ^ max) by (exact (HFit 0%nat)).
    destruct (create_codes_ok max chunk t Hm HFc HT Hn) as (codes & EC & HC).
    destruct IH as (fs' & -> & Hfs' & Hnil & HD); [assumption| |].
    { intros k. unfold more. rewrite skipn_add. replace (size + k * size)%nat with (S k * size)%nat by lia. apply HFit. }
    unfold encode_one. rewrite EC. cbn [bind].
    eexists. split; [reflexivity|].
    split. { apply Forall_app. split; [|assumption]. now apply (fields_ok max chunk). }
    split. { intros ->. exfalso. apply E. unfold chunk. apply firstn_nil. }
    intros hb fuel tb acc r Hfuel HTb HR.
    destruct (codes_canon max chunk codes Hm HC) as (HL & HLF & HCn & HK & HB). cbn zeta in *.
    assert (FC : fully_consumed r = false).
    { destruct (fully_consumed r) eqn:FC; [|reflexivity]. apply (reads_consumed r _ HR) in FC.
      apply (f_equal (@length bool)) in FC. rewrite <- app_assoc in FC.
      pose proof (payload_nonempty codes (encode_symbols codes chunk ++ fs')). cbn [length] in FC. lia. }
    destruct fuel as [|fuel].
    { rewrite <- app_assoc in Hfuel. pose proof (payload_nonempty codes (encode_symbols codes chunk ++ fs')). lia. }
    cbn [decode_loop]. rewrite FC.
    assert (HR' := HR). rewrite !payload_app, <- app_assoc in HR'.
    destruct (decode_codes_ok hb max chunk codes tb r _ Hm HC HTb HR') as (tb' & r1 & E1 & R1 & L1 & T1).
    rewrite E1. cbn [bind]. rewrite payload_encode_symbols in R1.
    assert (Hsz : length chunk = size \/ (length chunk <= size)%nat /\ payload_of fs' = []).
    { unfold chunk. rewrite firstn_length. destruct (Nat.le_gt_cases size (length input)); [left; lia|right].
      split; [lia|]. rewrite Hnil; [reflexivity|]. unfold more. apply skipn_all2. lia. }
    destruct (decode_symbols_ok hb (longest codes) codes tb' ltac:(lia)) with (syms := chunk) (n := size) (r := r1) (rest := payload_of fs')
      as (r2 & E2 & R2); try assumption.
    { rewrite L1. pose proof (pow2_bound (longest codes) max ltac:(lia)). lia. }
    { apply Forall_forall. intros s Hs. apply (Permutation_in _ (Permutation_sym (co_symbols _ _ _ HC))). now apply present_in. }
    rewrite Nat2Z.id, E2. cbn [bind].
    replace ((Z.of_nat (length chunk) =? Z.of_nat size) || fully_consumed r2) with true.
    2:{ symmetry. apply orb_true_iff. destruct Hsz as [Hsz|[_ Hsz]]; [left; apply Z.eqb_eq; lia|right].
        apply (reads_consumed r2 _ R2). assumption. }
    rewrite (HD hb fuel tb' (acc ++ chunk) r2); [rewrite <- app_assoc, <- Hin; reflexivity| |lia|assumption].
    rewrite <- app_assoc in Hfuel.
    change (payload_of (encode_codes codes ++ encode_symbols codes chunk ++ fs')) with
      (payload_of (encode_codes codes ++ (encode_symbols codes chunk ++ fs'))) in Hfuel.
    rewrite payload_app, payload_app, !app_length in Hfuel.
    pose proof (payload_nonempty codes []) as PN. rewrite app_nil_r in PN. lia.
Qed.

(** * The whole file *)
Lemma open_good hb h body : Forall (fun b => 0 <= b < 256) (h :: body) -> h / 8 = 26 ->
  is_good (r_in (open_reader hb (h :: body))) = true.
Proof.
  intros HF Hh. unfold open_reader, reader_new. rewrite fill_ok; [|unfold swap_size; lia|lia|assumption|reflexivity].
  change (Z.to_nat 1) with 1%nat. cbn [is_rest firstn skipn length Z.of_nat Pos.of_succ_nat Z.eqb Pos.eqb].
  replace (bval (bytes_bits [h]) * 2 ^ (8 * Z.of_nat (1 - 1))) with h.
  2:{ change (bytes_bits [h]) with (bits_msb 8 h ++ []). rewrite app_nil_r, bval_bits_msb.
      inversion HF; subst. change (2 ^ Z.of_nat 8) with 256. rewrite Z.mod_small by assumption.
      change (2 ^ (8 * Z.of_nat (1 - 1))) with 1. lia. }
  inversion_clear HF as [|? ? Hb HB]. unfold s_magic_shift, s_magic_mask.
  rewrite Z.shiftr_div_pow2 by lia. change 31 with (2 ^ 5 - 1). rewrite land_mask by lia.
  change (2 ^ 5) with 32. change (2 ^ 3) with 8. rewrite Hh. reflexivity.
Qed.

Lemma reads_file hb file payload : file_holds file payload ->
  reads (open_reader hb file) payload /\ (length payload <= 8 * length file)%nat.
Proof.
  intros HH. pose proof (file_payload_holds _ _ HH) as EP. destruct HH as (pad & body & Hpad & -> & HF & HB).
  assert (HF' : Forall (fun b => 0 <= b < 256) (26 * 8 + Z.of_nat pad :: body)) by (constructor; [lia|assumption]).
  destruct (open_reader_ok hb _ HF') as (I & R & _). split.
  - split; [assumption|]. split; [apply open_good; [assumption|dlia]|]. now rewrite R.
  - apply (f_equal (@length bool)) in HB. rewrite spec_file_bits_eq, bytes_bits_length, app_length in HB. cbn [length]. lia.
Qed.

Lemma small_fields_no_full fs : Forall (fun f => field_ok f /\ f_size f <= 16) fs ->
  forall n, no_full_word_after_full_buffer n fs.
Proof.
  induction 1 as [|f fs [_ Hf] HF IH]; intros n; [exact I|]. split; [lia|apply IH].
Qed.

Lemma encode_decode hb hb' kb max input result :
  1 <= kb < 65536 -> 1 <= max <= 15 -> Forall (fun b => 0 <= b < 256) input ->
  fits max (Z.to_nat (kb * 1024)) input ->
  encode_string hb kb max input result ->
  exists file, result = Ok (Some file) /\ decode_string hb' file = Ok (Some input).
Proof.
  intros Hkb Hm HF HFit HE. unfold encode_string in HE.
  destruct (Z.geb_spec max 16); [lia|]. destruct HE as (body & HE & ->).
  assert (ES : u32 (Z.shiftl kb 10) = kb * 1024).
  { rewrite Z.shiftl_mul_pow2 by lia. change (2 ^ 10) with 1024. apply Z.mod_small. change (2 ^ 32) with 4294967296. lia. }
  rewrite ES in HE.
  destruct (encode_chunks_ok (Z.to_nat (kb * 1024)) max Hm ltac:(lia) input body HE HF HFit) as (fs & -> & HFS & _ & HD).
  cbn [bind].
  assert (HH : Forall (fun f => field_ok f /\ f_size f <= 16) (encode_header kb max)).
  { unfold encode_header. rewrite ES. unfold field_ok, byte_field, word_field, api_width, s_bits_per_byte, s_bits_per_word; cbn [f_width f_size f_value].
    rewrite Z.shiftr_div_pow2 by lia. change (2 ^ 10) with 1024. rewrite Z.div_mul by lia.
    rewrite (u8_small 1), (u8_small max), (u16_small kb) by lia. change (2 ^ 8) with 256. change (2 ^ 16) with 65536.
    repeat constructor; cbn; lia. }
  assert (HA : Forall (fun f => field_ok f /\ f_size f <= 16) (encode_header kb max ++ fs)) by (apply Forall_app; auto).
  destruct (bitstream_file_layout hb (encode_header kb max ++ fs)) as (file & EP & FH).
  { eapply Forall_impl; [|exact HA]. cbn. tauto. } { now apply small_fields_no_full. }
  rewrite EP. cbn [bind]. exists file. split; [reflexivity|].
  destruct (reads_file hb' file _ FH) as [HR HLen].
  assert (EH : payload_of (encode_header kb max ++ fs) = spec_bits 8 1 ++ spec_bits 16 kb ++ spec_bits 8 max ++ payload_of fs).
  { rewrite payload_app. unfold encode_header. rewrite ES, Z.shiftr_div_pow2 by lia. change (2 ^ 10) with 1024. rewrite Z.div_mul by lia.
    unfold byte_field, word_field. rewrite (u8_small 1), (u8_small max), (u16_small kb) by lia.
    cbn [payload_of flat_map f_size f_value]. unfold s_bits_per_byte, s_bits_per_word.
    change (Z.to_nat 8) with 8%nat. change (Z.to_nat 16) with 16%nat. rewrite app_nil_r, <- !app_assoc. reflexivity. }
  rewrite EH in HR.
  assert (HLen2 : (length (payload_of fs) <= 8 * length file)%nat).
  { rewrite payload_app, app_length in HLen. lia. }
  unfold decode_string, decode_header.
  destruct (reads_byte hb' _ _ _ HR ltac:(lia)) as (r1 & E1 & R1). rewrite E1. cbn [bind negb Z.eqb Pos.eqb].
  destruct (reads_word hb' _ _ _ R1 ltac:(lia)) as (r2 & E2 & R2). rewrite E2. cbn [bind negb].
  destruct (Z.eqb_spec kb 0); [lia|].
  destruct (reads_byte hb' _ _ _ R2 ltac:(lia)) as (r3 & E3 & R3). rewrite E3. cbn [bind negb].
  destruct (Z.eqb_spec max 0); [lia|]. destruct (Z.geb_spec max 16); [lia|]. cbn [orb bind]. rewrite ES.
  pose proof (pow15 max ltac:(lia)).
  specialize (HD hb' (8 * length file)%nat (repeat (0, 0) (Z.to_nat (2 ^ max))) [] r3 HLen2).
  rewrite Z2Nat.id in HD by lia. rewrite HD; [reflexivity| |assumption]. rewrite repeat_length. lia.
Qed.
