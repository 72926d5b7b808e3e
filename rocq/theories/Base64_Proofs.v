(** Proofs about the Base64 model. *)
From Verif Require Import Common Bits BitStream_Spec BitStream_Proofs Base64_Model Base64_Spec.

(** * Finite case analyses over all bytes *)
Lemma forall_range (n : nat) (P : Z -> bool) :
  forallb P (map Z.of_nat (seq 0 n)) = true -> forall b, 0 <= b < Z.of_nat n -> P b = true.
Proof.
  intros H b Hb. rewrite forallb_forall in H. apply H. apply in_map_iff.
  exists (Z.to_nat b). split; [lia|]. apply in_seq. lia.
Qed.

Ltac finite_z n f :=
  match goal with
  | |- forall b, _ -> _ = _ => intros b Hb; apply Z.eqb_eq; revert b Hb; apply (forall_range n f); vm_compute; reflexivity
  end.

Lemma hi6 : forall b, 0 <= b < 256 -> Z.shiftr (Z.land (schar b) 0xfc) 2 = b / 4.
Proof. finite_z 256%nat (fun b => Z.shiftr (Z.land (schar b) 0xfc) 2 =? b / 4). Qed.
Lemma lo2 : forall b, 0 <= b < 256 -> Z.shiftl (Z.land (schar b) 0x03) 4 = b mod 4 * 2 ^ 4.
Proof. finite_z 256%nat (fun b => Z.shiftl (Z.land (schar b) 0x03) 4 =? b mod 4 * 2 ^ 4). Qed.
Lemma hi4 : forall b, 0 <= b < 256 -> Z.shiftr (Z.land (schar b) 0xf0) 4 = b / 16.
Proof. finite_z 256%nat (fun b => Z.shiftr (Z.land (schar b) 0xf0) 4 =? b / 16). Qed.
Lemma lo4 : forall b, 0 <= b < 256 -> Z.shiftl (Z.land (schar b) 0x0f) 2 = b mod 16 * 2 ^ 2.
Proof. finite_z 256%nat (fun b => Z.shiftl (Z.land (schar b) 0x0f) 2 =? b mod 16 * 2 ^ 2). Qed.
Lemma hi2 : forall b, 0 <= b < 256 -> Z.shiftr (Z.land (schar b) 0xc0) 6 = b / 64.
Proof. finite_z 256%nat (fun b => Z.shiftr (Z.land (schar b) 0xc0) 6 =? b / 64). Qed.
Lemma lo6 : forall b, 0 <= b < 256 -> Z.land (schar b) 0x3f = b mod 64.
Proof. finite_z 256%nat (fun b => Z.land (schar b) 0x3f =? b mod 64). Qed.

Definition alph (v : Z) : Z := nth (Z.to_nat v) alphabet 0.

Lemma symbols_alphabet : s_base64_symbols = alphabet.
Proof. vm_compute. reflexivity. Qed.

Lemma symbol_at v : 0 <= v < 64 -> at_index s_base64_symbols v = Ok (alph v).
Proof.
  intros Hv. unfold at_index. rewrite symbols_alphabet.
  change (Z.of_nat (length alphabet)) with 64.
  destruct (Z.leb_spec 0 v); [|lia]. destruct (Z.ltb_spec v 64); [|lia]. reflexivity.
Qed.

Lemma encode_chunk_ok a b c : 0 <= a < 256 -> 0 <= b < 256 -> 0 <= c < 256 ->
  encode_chunk a b c =
  Ok [alph (a / 4); alph (a mod 4 * 16 + b / 16); alph (b mod 16 * 4 + c / 64); alph (c mod 64)].
Proof.
  intros Ha Hb Hc. unfold encode_chunk. cbn zeta.
  rewrite hi6, lo2, hi4, lo4, hi2, lo6 by assumption.
  rewrite (lor_high_low (a mod 4 * 2 ^ 4) (b / 16) 4); [|lia|apply Z.mod_mul; lia|change (2 ^ 4) with 16; dlia].
  rewrite (lor_high_low (b mod 16 * 2 ^ 2) (c / 64) 2); [|lia|apply Z.mod_mul; lia|change (2 ^ 2) with 4; dlia].
  change (2 ^ 4) with 16. change (2 ^ 2) with 4.
  rewrite !symbol_at by dlia. reflexivity.
Qed.

Ltac fa := repeat first [assumption|apply Forall_cons|apply Forall_nil].

(** * Bits of bytes and sextets *)
Lemma bits8 v : bits_msb 8 v = [Z.testbit v 7; Z.testbit v 6; Z.testbit v 5; Z.testbit v 4;
  Z.testbit v 3; Z.testbit v 2; Z.testbit v 1; Z.testbit v 0].
Proof. reflexivity. Qed.
Lemma bits6 v : bits_msb 6 v = [Z.testbit v 5; Z.testbit v 4;
  Z.testbit v 3; Z.testbit v 2; Z.testbit v 1; Z.testbit v 0].
Proof. reflexivity. Qed.

Ltac byte_bits b Hb :=
  match goal with |- spec_value ?l = ?e =>
    apply Z.eqb_eq;
    let P := eval pattern b in (spec_value l =? e) in
    match P with ?f _ => revert b Hb; apply (forall_range 256 f); vm_compute; reflexivity end
  end.

Lemma sv_hi6 b : 0 <= b < 256 ->
  spec_value [Z.testbit b 7; Z.testbit b 6; Z.testbit b 5; Z.testbit b 4; Z.testbit b 3; Z.testbit b 2] = b / 4.
Proof. intros Hb. byte_bits b Hb. Qed.
Lemma sv_lo6 b : 0 <= b < 256 ->
  spec_value [Z.testbit b 5; Z.testbit b 4; Z.testbit b 3; Z.testbit b 2; Z.testbit b 1; Z.testbit b 0] = b mod 64.
Proof. intros Hb. byte_bits b Hb. Qed.
Lemma sv_hi4 b : 0 <= b < 256 ->
  spec_value [Z.testbit b 7; Z.testbit b 6; Z.testbit b 5; Z.testbit b 4] = b / 16.
Proof. intros Hb. byte_bits b Hb. Qed.
Lemma sv_lo4 b : 0 <= b < 256 ->
  spec_value [Z.testbit b 3; Z.testbit b 2; Z.testbit b 1; Z.testbit b 0] = b mod 16.
Proof. intros Hb. byte_bits b Hb. Qed.
Lemma sv_lo2 b : 0 <= b < 256 -> spec_value [Z.testbit b 1; Z.testbit b 0] = b mod 4.
Proof. intros Hb. byte_bits b Hb. Qed.
Lemma sv_hi2 b : 0 <= b < 256 -> spec_value [Z.testbit b 7; Z.testbit b 6] = b / 64.
Proof. intros Hb. byte_bits b Hb. Qed.

Lemma spec_value_app a b : spec_value (a ++ b) = spec_value a * 2 ^ Z.of_nat (length b) + spec_value b.
Proof. rewrite !spec_value_eq. apply bval_app. Qed.

Lemma sextets_3 a b c r : 0 <= a < 256 -> 0 <= b < 256 -> 0 <= c < 256 ->
  sextets (bits_msb 8 a ++ bits_msb 8 b ++ bits_msb 8 c ++ r) =
  (a / 4) :: (a mod 4 * 16 + b / 16) :: (b mod 16 * 4 + c / 64) :: (c mod 64) :: sextets r.
Proof.
  intros Ha Hb Hc. rewrite !bits8. cbn [app sextets].
  rewrite sv_hi6, sv_lo6 by assumption.
  change [Z.testbit a 1; Z.testbit a 0; Z.testbit b 7; Z.testbit b 6; Z.testbit b 5; Z.testbit b 4]
    with ([Z.testbit a 1; Z.testbit a 0] ++ [Z.testbit b 7; Z.testbit b 6; Z.testbit b 5; Z.testbit b 4]).
  change [Z.testbit b 3; Z.testbit b 2; Z.testbit b 1; Z.testbit b 0; Z.testbit c 7; Z.testbit c 6]
    with ([Z.testbit b 3; Z.testbit b 2; Z.testbit b 1; Z.testbit b 0] ++ [Z.testbit c 7; Z.testbit c 6]).
  rewrite !spec_value_app, sv_lo2, sv_hi4, sv_lo4, sv_hi2 by assumption. reflexivity.
Qed.

Lemma sextets_2 a b : 0 <= a < 256 -> 0 <= b < 256 ->
  sextets (bits_msb 8 a ++ bits_msb 8 b) = [a / 4; a mod 4 * 16 + b / 16; b mod 16 * 4].
Proof.
  intros Ha Hb. rewrite !bits8. cbn [app sextets length Nat.sub repeat].
  rewrite sv_hi6 by assumption.
  change [Z.testbit a 1; Z.testbit a 0; Z.testbit b 7; Z.testbit b 6; Z.testbit b 5; Z.testbit b 4]
    with ([Z.testbit a 1; Z.testbit a 0] ++ [Z.testbit b 7; Z.testbit b 6; Z.testbit b 5; Z.testbit b 4]).
  change [Z.testbit b 3; Z.testbit b 2; Z.testbit b 1; Z.testbit b 0; false; false]
    with ([Z.testbit b 3; Z.testbit b 2; Z.testbit b 1; Z.testbit b 0] ++ [false; false]).
  rewrite !spec_value_app, sv_lo2, sv_hi4, sv_lo4 by assumption.
  change (spec_value [false; false]) with 0. cbn [length]. rewrite Z.add_0_r. reflexivity.
Qed.

Lemma sextets_1 a : 0 <= a < 256 -> sextets (bits_msb 8 a) = [a / 4; a mod 4 * 16].
Proof.
  intros Ha. rewrite !bits8. cbn [app sextets length Nat.sub repeat].
  rewrite sv_hi6 by assumption.
  change [Z.testbit a 1; Z.testbit a 0; false; false; false; false]
    with ([Z.testbit a 1; Z.testbit a 0] ++ [false; false; false; false]).
  rewrite !spec_value_app, sv_lo2 by assumption.
  change (spec_value [false; false; false; false]) with 0. cbn [length]. rewrite Z.add_0_r. reflexivity.
Qed.

(** * Encoder *)
Notation all_bytes := (Forall (fun b => 0 <= b < 256)).

Lemma list_3_ind (P : list Z -> Prop) :
  P [] -> (forall a, P [a]) -> (forall a b, P [a; b]) ->
  (forall a b c r, P r -> P (a :: b :: c :: r)) -> forall l, P l.
Proof.
  intros H0 H1 H2 H3.
  assert (H : forall n l, (length l <= n)%nat -> P l).
  { induction n as [|n IH]; intros l Hl.
    - destruct l; [exact H0|cbn in Hl; lia].
    - destruct l as [|a [|b [|c r]]]; [exact H0|apply H1|apply H2|].
      apply H3. apply IH. cbn in Hl. lia. }
  intros l. apply (H (length l)). lia.
Qed.

Lemma base64_3 a b c r : 0 <= a < 256 -> 0 <= b < 256 -> 0 <= c < 256 ->
  base64 (a :: b :: c :: r) =
  [alph (a / 4); alph (a mod 4 * 16 + b / 16); alph (b mod 16 * 4 + c / 64); alph (c mod 64)] ++ base64 r.
Proof.
  intros Ha Hb Hc. unfold base64. rewrite !spec_file_bits_eq.
  change (bytes_bits (a :: b :: c :: r)) with (bits_msb 8 a ++ bits_msb 8 b ++ bits_msb 8 c ++ bytes_bits r).
  rewrite sextets_3 by assumption. cbn [map app]. do 4 f_equal. f_equal.
  f_equal. cbn [length]. replace (S (S (S (length r)))) with (length r + 1 * 3)%nat by lia.
  now rewrite Nat.mod_add by lia.
Qed.

Lemma base64_app x : forall y, all_bytes x -> (length x mod 3 = 0)%nat -> base64 (x ++ y) = base64 x ++ base64 y.
Proof.
  induction x as [|a|a b|a b c r IH] using list_3_ind; intros y HF HL; try (cbn in HL; discriminate).
  - reflexivity.
  - inversion_clear HF as [|? ? Ha HF1]; inversion_clear HF1 as [|? ? Hb HF2]; inversion_clear HF2 as [|? ? Hc HF3].
    cbn [app]. rewrite !base64_3 by assumption. rewrite IH; [reflexivity|assumption|].
    cbn [length] in HL. replace (S (S (S (length r)))) with (length r + 1 * 3)%nat in HL by lia.
    now rewrite Nat.mod_add in HL by lia.
Qed.

Lemma div3_step {A} (a b c : A) r : (length (a :: b :: c :: r) / 3 = S (length r / 3))%nat.
Proof. cbn [length]. replace (S (S (S (length r)))) with (length r + 1 * 3)%nat by lia. rewrite Nat.div_add by lia. lia. Qed.

Lemma encode_full_ok x : all_bytes x ->
  encode_full (length x / 3) x = Ok (base64 (firstn (3 * (length x / 3)) x)).
Proof.
  induction x as [|a|a b|a b c r IH] using list_3_ind; intros HF; try reflexivity.
  inversion_clear HF as [|? ? Ha HF1]; inversion_clear HF1 as [|? ? Hb HF2]; inversion_clear HF2 as [|? ? Hc HF3].
  rewrite div3_step. cbn [encode_full]. rewrite encode_chunk_ok by assumption. cbn [bind].
  rewrite IH by assumption. cbn [bind].
  replace (3 * S (length r / 3))%nat with (S (S (S (3 * (length r / 3))))) by lia.
  cbn [firstn]. rewrite base64_3 by assumption. reflexivity.
Qed.

Lemma encode_block_ok strict k stale x : all_bytes x -> 0 <= stale < 256 ->
  (strict = true -> (length x mod 3 = 0)%nat \/ (2 * length x <= 3 * k)%nat) ->
  encode_block strict k stale x = Ok (base64 x).
Proof.
  intros HF Hst Hs. unfold encode_block. rewrite encode_full_ok by assumption. cbn [bind].
  pose proof (Nat.div_mod (length x) 3 ltac:(lia)) as D.
  pose proof (Nat.mod_upper_bound (length x) 3 ltac:(lia)) as U.
  set (q := (3 * (length x / 3))%nat) in *.
  destruct (Nat.ltb_spec 0 (length x mod 3)) as [Hr|Hr].
  2:{ rewrite firstn_all2 by lia. reflexivity. }
  replace (strict && (3 * k <? q + length x mod 3 + (q + length x mod 3))%nat) with false.
  2:{ symmetry. destruct strict; [|reflexivity]. cbn [andb]. apply Nat.ltb_ge. specialize (Hs eq_refl). lia. }
  assert (Hlen : length (skipn q x) = (length x mod 3)%nat) by (rewrite skipn_length; lia).
  assert (HFt : all_bytes (skipn q x)) by now apply Forall_skipn.
  assert (HB : base64 x = base64 (firstn q x) ++ base64 (skipn q x)).
  { rewrite <- base64_app; [now rewrite firstn_skipn|now apply Forall_firstn|].
    rewrite firstn_length_le by lia. unfold q. rewrite Nat.mul_comm. apply Nat.mod_mul. lia. }
  rewrite HB. destruct (skipn q x) as [|a [|b [|c t]]]; cbn [length] in Hlen; try lia.
  - rewrite <- Hlen. inversion_clear HFt as [|? ? Ha _].
    destruct (q + 1)%nat as [|n] eqn:Eq; [lia|].
    set (c2 := nth 2 _ 0).
    assert (Hc2 : 0 <= c2 < 256).
    { unfold c2. destruct n as [|n]; cbn; lia. }
    replace (nth 1 _ 0) with 0 by (destruct n; reflexivity). cbn [nth app].
    rewrite encode_chunk_ok by lia. cbn [bind plus firstn Nat.sub repeat]. do 2 f_equal.
    unfold base64. rewrite spec_file_bits_eq. change (bytes_bits [a]) with (bits_msb 8 a ++ []).
    rewrite app_nil_r, sextets_1 by assumption. cbn [map app]. rewrite Z.add_0_r. reflexivity.
  - rewrite <- Hlen. inversion_clear HFt as [|? ? Ha HF1]; inversion_clear HF1 as [|? ? Hb _].
    replace (Nat.min (q + 2) (3 - 2)) with 1%nat by lia. cbn [nth app repeat].
    rewrite encode_chunk_ok by lia. cbn [bind plus firstn Nat.sub repeat]. do 2 f_equal.
    unfold base64. rewrite spec_file_bits_eq. change (bytes_bits [a; b]) with (bits_msb 8 a ++ bits_msb 8 b ++ []).
    rewrite app_nil_r, sextets_2 by assumption. cbn [map app].
    change (0 / 64) with 0. rewrite Z.add_0_r. reflexivity.
Qed.

Definition overruns (k n : nat) : Prop :=
  (n mod 3 <> 0 /\ 3 * k < 2 * (n mod (3 * k)))%nat.

Lemma encode_loop_ok strict k stale : (0 < k)%nat -> 0 <= stale < 256 ->
  forall fuel s, (length s < fuel)%nat -> all_bytes s ->
  (strict = true -> ~ overruns k (length s)) ->
  encode_loop fuel strict k stale s = Ok (base64 s).
Proof.
  intros Hk Hst. induction fuel as [|fuel IH]; intros s Hf HF Hs; [lia|].
  cbn [encode_loop stream_read].
  destruct (Nat.ltb_spec (length s) (3 * k)) as [Hlt|Hge]; cbn [negb].
  - rewrite firstn_all2 by lia. rewrite encode_block_ok; [reflexivity|assumption|assumption|].
    intros E. specialize (Hs E). unfold overruns in Hs. rewrite (Nat.mod_small (length s) (3 * k)) in Hs by lia. lia.
  - assert (HL1 : length (firstn (3 * k) s) = (3 * k)%nat) by (apply firstn_length_le; lia).
    assert (HM : ((3 * k) mod 3 = 0)%nat) by (rewrite Nat.mul_comm; apply Nat.mod_mul; lia).
    rewrite encode_block_ok; [|now apply Forall_firstn|assumption|rewrite HL1; intros _; left; exact HM].
    cbn [bind]. rewrite IH; [|rewrite skipn_length; lia|now apply Forall_skipn|].
    + cbn [bind]. rewrite <- base64_app; [now rewrite firstn_skipn|now apply Forall_firstn|now rewrite HL1].
    + intros E HO. apply (Hs E). unfold overruns in *. rewrite skipn_length in HO.
      set (m := (length s - 3 * k)%nat) in *. replace (length s) with (m + 1 * (3 * k))%nat by lia.
      rewrite Nat.mod_add by lia. split; [|tauto].
      replace (m + 1 * (3 * k))%nat with (m + k * 3)%nat by lia. rewrite Nat.mod_add by lia. tauto.
Qed.

(** * Decoder *)
Definition spec_code (c : Z) : Z :=
  match index_of c alphabet with Some i => i | None => if c =? 61 then -2 else -1 end.

Lemma code_of_ok c : 0 <= c < 128 -> code_of c = Ok (spec_code c).
Proof.
  intros Hc.
  assert (H : forall c, 0 <= c < 128 -> (match code_of c with Ok v => v =? spec_code c | UB => false end) = true).
  { apply (forall_range 128). vm_compute. reflexivity. }
  specialize (H c Hc). destruct (code_of c); [|discriminate]. apply Z.eqb_eq in H. now subst.
Qed.

Lemma code_of_ub c : 128 <= c < 256 -> code_of c = UB.
Proof.
  intros Hc. unfold code_of, at_index, u64, wrap, schar, signed.
  rewrite (Z.mod_small c) by (change (2 ^ 8) with 256; lia). change (2 ^ (8 - 1)) with 128. change (2 ^ 8) with 256.
  destruct (Z.ltb_spec c 128); [lia|].
  assert ((c - 256) mod 2 ^ 64 = c - 256 + 2 ^ 64).
  { rewrite <- (Z.mod_add (c - 256) 1) by lia. apply Z.mod_small. lia. }
  rewrite H0. change (Z.of_nat (length s_base64_codes)) with 256.
  destruct (Z.ltb_spec (c - 256 + 2 ^ 64) 256); [lia|]. now rewrite andb_false_r.
Qed.

Lemma spec_code_sym c : In c alphabet -> 0 <= c < 128 /\ 0 <= spec_code c < 64 /\
  symbol_bits c = bits_msb 6 (spec_code c) /\ c <> 61.
Proof.
  intros H.
  assert (F : forallb (fun c => (0 <=? c) && (c <? 128) && (0 <=? spec_code c) && (spec_code c <? 64) &&
    (if list_eq_dec bool_dec (symbol_bits c) (bits_msb 6 (spec_code c)) then true else false) && negb (c =? 61)) alphabet = true)
    by (vm_compute; reflexivity).
  rewrite forallb_forall in F. specialize (F c H). rewrite !andb_true_iff in F.
  destruct F as [[[[[F1 F2] F3] F4] F5] F6].
  destruct (list_eq_dec _ _ _) as [E|]; [|discriminate].
  apply negb_true_iff, Z.eqb_neq in F6.
  apply Z.leb_le in F1, F3. apply Z.ltb_lt in F2, F4. auto.
Qed.

Lemma index_of_in c l i : index_of c l = Some i -> In c l.
Proof.
  revert i; induction l as [|x l IH]; intros i; cbn [index_of]; [discriminate|].
  destruct (Z.eqb_spec x c); [intros; now left|].
  destruct (index_of c l); [|discriminate]. intros. right. eauto.
Qed.

Lemma spec_code_class c : (In c alphabet /\ 0 <= spec_code c < 64) \/ (c = 61 /\ spec_code c = -2) \/
  (~ In c alphabet /\ c <> 61 /\ spec_code c = -1).
Proof.
  destruct (in_dec Z.eq_dec c alphabet) as [H|H].
  - left. split; [assumption|]. now apply spec_code_sym.
  - right. unfold spec_code. destruct (index_of c alphabet) eqn:E; [exfalso; apply H; eapply index_of_in; eassumption|].
    destruct (Z.eqb_spec c 61); auto.
Qed.

Lemma chunk_valid_ok a b c d :
  chunk_valid (spec_code a, spec_code b, spec_code c, spec_code d) = true <->
  In a alphabet /\ In b alphabet /\ In c alphabet /\ In d alphabet.
Proof.
  assert (HB : forall x, Z.testbit (spec_code x) 7 = false <-> In x alphabet).
  { intros x. destruct (spec_code_class x) as [[H1 H2]|[[H1 H2]|[H1 [H2 H3]]]].
    - split; [auto|]. intros _. rewrite <- (Z.mod_small (spec_code x) (2 ^ 6)) by (change (2 ^ 6) with 64; lia).
      apply Z.mod_pow2_bits_high. lia.
    - rewrite H2. split; [discriminate|]. intros H. subst. vm_compute in H. intuition discriminate.
    - rewrite H3. split; [discriminate|]. contradiction. }
  assert (HL : forall x, Z.land x 0x80 =? 0 = negb (Z.testbit x 7)).
  { intros x. destruct (Z.testbit x 7) eqn:E; cbn [negb].
    - apply Z.eqb_neq. intros H. apply (f_equal (fun z => Z.testbit z 7)) in H.
      rewrite Z.land_spec, E in H. discriminate H.
    - apply Z.eqb_eq. apply Z.bits_inj'. intros i Hi. rewrite Z.land_spec, Z.bits_0.
      destruct (Z.eq_dec i 7) as [->|N]; [now rewrite E|].
      change 0x80 with (2 ^ 7). rewrite Z.pow2_bits_false by lia. apply andb_false_r. }
  unfold chunk_valid. rewrite HL, negb_true_iff, !Z.lor_spec, !orb_false_iff, !HB. tauto.
Qed.

Lemma u8_byte v : 0 <= v < 256 -> u8 v = v.
Proof. intros. apply u8_small. assumption. Qed.

Lemma dec_d0 x y : 0 <= x < 64 -> 0 <= y < 64 ->
  u8 (Z.lor (Z.shiftl x 2) (Z.land (Z.shiftr y 4) 0x03)) = x * 4 + y / 16.
Proof.
  intros Hx Hy. rewrite Z.shiftl_mul_pow2, Z.shiftr_div_pow2 by lia.
  change 3 with (2 ^ 2 - 1). rewrite land_mask by lia.
  change (2 ^ 4) with 16. change (2 ^ 2) with 4. rewrite (Z.mod_small (y / 16)) by dlia.
  rewrite (lor_high_low _ _ 2); [|lia|change 4 with (2 ^ 2); apply Z.mod_mul; lia|change (2 ^ 2) with 4; dlia].
  apply u8_byte. dlia.
Qed.
Lemma dec_d1 x y : 0 <= x < 64 -> 0 <= y < 64 ->
  u8 (Z.lor (Z.shiftl (Z.land x 0x0f) 4) (Z.shiftr (Z.land y 0xfc) 2)) = x mod 16 * 16 + y / 4.
Proof.
  intros Hx Hy. change 0x0f with (2 ^ 4 - 1). rewrite land_mask, Z.shiftl_mul_pow2 by lia.
  assert (E : Z.shiftr (Z.land y 0xfc) 2 = y / 4).
  { apply Z.eqb_eq. revert y Hy. apply (forall_range 64 (fun y => Z.shiftr (Z.land y 0xfc) 2 =? y / 4)). vm_compute. reflexivity. }
  rewrite E. change (2 ^ 4) with 16.
  rewrite (lor_high_low _ _ 4); [|lia|change 16 with (2 ^ 4); apply Z.mod_mul; lia|change (2 ^ 4) with 16; dlia].
  apply u8_byte. dlia.
Qed.
Lemma dec_d2 x y : 0 <= x < 64 -> 0 <= y < 64 ->
  u8 (Z.lor (Z.shiftl (Z.land x 0x03) 6) y) = x mod 4 * 64 + y.
Proof.
  intros Hx Hy. change 0x03 with (2 ^ 2 - 1). rewrite land_mask, Z.shiftl_mul_pow2 by lia.
  change (2 ^ 2) with 4. change (2 ^ 6) with 64.
  rewrite (lor_high_low _ _ 6); [|lia|change 64 with (2 ^ 6); apply Z.mod_mul; lia|change (2 ^ 6) with 64; dlia].
  apply u8_byte. dlia.
Qed.

(** Octets of sextet bits. *)
Lemma sx_val n v : 0 <= v < 2 ^ Z.of_nat n -> spec_value (bits_msb n v) = v.
Proof. intros H. rewrite spec_value_eq, bval_bits_msb. now apply Z.mod_small. Qed.

Lemma bits6_split a b v : (a + b = 6)%nat -> bits_msb 6 v = bits_msb a (v / 2 ^ Z.of_nat b) ++ bits_msb b v.
Proof. intros <-. rewrite bits_msb_app. now rewrite Z.shiftr_div_pow2 by lia. Qed.

Lemma octets_8 l r : length l = 8%nat -> octets (l ++ r) = spec_value l :: octets r.
Proof. intros H. do 9 (destruct l as [|? l]; [discriminate H || (cbn [app octets]; reflexivity)|]). discriminate H. Qed.

Lemma spec_value_bits n v : spec_value (bits_msb n v) = v mod 2 ^ Z.of_nat n.
Proof. rewrite spec_value_eq. apply bval_bits_msb. Qed.

Lemma octets_first x y r : 0 <= x < 64 -> 0 <= y < 64 ->
  octets (bits_msb 6 x ++ bits_msb 6 y ++ r) = (x * 4 + y / 16) :: octets (bits_msb 4 y ++ r).
Proof.
  intros Hx Hy. rewrite (bits6_split 2 4 y) by reflexivity. rewrite <- app_assoc, app_assoc.
  rewrite octets_8 by reflexivity. rewrite spec_value_app, bits_msb_length, !spec_value_bits.
  change (2 ^ Z.of_nat 2) with 4. change (2 ^ Z.of_nat 4) with 16. change (2 ^ Z.of_nat 6) with 64.
  rewrite (Z.mod_small x), (Z.mod_small (y / 16)) by dlia. reflexivity.
Qed.
Lemma octets_second y z r : 0 <= y < 64 -> 0 <= z < 64 ->
  octets (bits_msb 4 y ++ bits_msb 6 z ++ r) = (y mod 16 * 16 + z / 4) :: octets (bits_msb 2 z ++ r).
Proof.
  intros Hx Hy. rewrite (bits6_split 4 2 z) by reflexivity. rewrite <- app_assoc, app_assoc.
  rewrite octets_8 by reflexivity. rewrite spec_value_app, bits_msb_length, !spec_value_bits.
  change (2 ^ Z.of_nat 2) with 4. change (2 ^ Z.of_nat 4) with 16.
  rewrite (Z.mod_small (z / 4)) by dlia. reflexivity.
Qed.
Lemma octets_third z w r : 0 <= w < 64 ->
  octets (bits_msb 2 z ++ bits_msb 6 w ++ r) = (z mod 4 * 64 + w) :: octets r.
Proof.
  intros Hw. rewrite app_assoc. rewrite octets_8 by reflexivity.
  rewrite spec_value_app, bits_msb_length, !spec_value_bits.
  change (2 ^ Z.of_nat 2) with 4. change (2 ^ Z.of_nat 6) with 64. now rewrite (Z.mod_small w) by lia.
Qed.

Lemma unbase64_4 a b c d r : In a alphabet -> In b alphabet -> In c alphabet -> In d alphabet ->
  unbase64 (a :: b :: c :: d :: r) =
  [spec_code a * 4 + spec_code b / 16; spec_code b mod 16 * 16 + spec_code c / 4;
   spec_code c mod 4 * 64 + spec_code d] ++ unbase64 r.
Proof.
  intros Ha Hb Hc Hd.
  destruct (spec_code_sym a Ha) as (_ & Ra & Ba & _). destruct (spec_code_sym b Hb) as (_ & Rb & Bb & _).
  destruct (spec_code_sym c Hc) as (_ & Rc & Bc & _). destruct (spec_code_sym d Hd) as (_ & Rd & Bd & _).
  unfold unbase64. cbn [flat_map]. rewrite Ba, Bb, Bc, Bd.
  rewrite octets_first, octets_second, octets_third by assumption. reflexivity.
Qed.
Lemma unbase64_3 a b c : In a alphabet -> In b alphabet -> In c alphabet ->
  unbase64 [a; b; c] = [spec_code a * 4 + spec_code b / 16; spec_code b mod 16 * 16 + spec_code c / 4].
Proof.
  intros Ha Hb Hc.
  destruct (spec_code_sym a Ha) as (_ & Ra & Ba & _). destruct (spec_code_sym b Hb) as (_ & Rb & Bb & _).
  destruct (spec_code_sym c Hc) as (_ & Rc & Bc & _).
  unfold unbase64. cbn [flat_map]. rewrite Ba, Bb, Bc.
  rewrite octets_first, octets_second by assumption. reflexivity.
Qed.
Lemma unbase64_2 a b : In a alphabet -> In b alphabet ->
  unbase64 [a; b] = [spec_code a * 4 + spec_code b / 16].
Proof.
  intros Ha Hb.
  destruct (spec_code_sym a Ha) as (_ & Ra & Ba & _). destruct (spec_code_sym b Hb) as (_ & Rb & Bb & _).
  unfold unbase64. cbn [flat_map]. rewrite Ba, Bb. rewrite octets_first by assumption. reflexivity.
Qed.

Lemma list_4_ind (P : list Z -> Prop) :
  P [] -> (forall l, (length l mod 4 <> 0)%nat -> P l) ->
  (forall a b c d r, P r -> P (a :: b :: c :: d :: r)) -> forall l, P l.
Proof.
  intros H0 H1 H4.
  assert (H : forall n l, (length l <= n)%nat -> P l).
  { induction n as [|n IH]; intros l Hl.
    - destruct l; [exact H0|cbn in Hl; lia].
    - destruct l as [|a [|b [|c [|d r]]]]; [exact H0|apply H1; cbn; lia|apply H1; cbn; lia|apply H1; cbn; lia|].
      apply H4. apply IH. cbn in Hl. lia. }
  intros l. apply (H (length l)). lia.
Qed.

Lemma mod4_step {A} (a b c d : A) r : (length (a :: b :: c :: d :: r) mod 4 = length r mod 4)%nat.
Proof. cbn [length]. replace (S (S (S (S (length r))))) with (length r + 1 * 4)%nat by lia. now rewrite Nat.mod_add by lia. Qed.
Lemma div4_step {A} (a b c d : A) r : (length (a :: b :: c :: d :: r) / 4 = S (length r / 4))%nat.
Proof. cbn [length]. replace (S (S (S (S (length r))))) with (length r + 1 * 4)%nat by lia. rewrite Nat.div_add by lia. lia. Qed.

Lemma unbase64_app x y : Forall (fun c => In c alphabet) x -> (length x mod 4 = 0)%nat ->
  unbase64 (x ++ y) = unbase64 x ++ unbase64 y.
Proof.
  induction x as [|l Hl|a b c d r IH] using list_4_ind; intros HF HM; [reflexivity|contradiction|].
  inversion_clear HF as [|? ? Ha HF1]; inversion_clear HF1 as [|? ? Hb HF2]; inversion_clear HF2 as [|? ? Hc HF3]; inversion_clear HF3 as [|? ? Hd HF4].
  rewrite mod4_step in HM. cbn [app]. rewrite !unbase64_4 by assumption. rewrite IH by assumption. now rewrite <- app_assoc.
Qed.

Notation ascii_all := (Forall (fun b => 0 <= b < 128)).
Notation symbols_all := (Forall (fun c => In c alphabet)).

Lemma decode_chunk_codes a b c d : 0 <= a < 128 -> 0 <= b < 128 -> 0 <= c < 128 -> 0 <= d < 128 ->
  exists ds, decode_chunk a b c d = Ok ((spec_code a, spec_code b, spec_code c, spec_code d), ds) /\
    (In a alphabet -> In b alphabet -> firstn 1 ds = unbase64 [a; b]) /\
    (In a alphabet -> In b alphabet -> In c alphabet -> firstn 2 ds = unbase64 [a; b; c]) /\
    (In a alphabet -> In b alphabet -> In c alphabet -> In d alphabet -> ds = unbase64 [a; b; c; d]) /\ length ds = 3%nat.
Proof.
  intros Ha Hb Hc Hd. unfold decode_chunk. rewrite !code_of_ok by assumption. cbn [bind].
  eexists. split; [reflexivity|]. split; [|split; [|split; [|reflexivity]]].
  - intros Ia Ib. rewrite unbase64_2 by assumption. cbn [firstn].
    rewrite dec_d0 by (now apply spec_code_sym). reflexivity.
  - intros Ia Ib Ic. rewrite unbase64_3 by assumption. cbn [firstn].
    rewrite dec_d0, dec_d1 by (now apply spec_code_sym). reflexivity.
  - intros Ia Ib Ic Id. rewrite unbase64_4 by assumption.
    rewrite dec_d0, dec_d1, dec_d2 by (now apply spec_code_sym). reflexivity.
Qed.

(** decode_full: exact result on well-formed and on other inputs. *)
Lemma decode_full_good n : forall buf tail, length buf = (4 * n)%nat -> symbols_all buf -> ascii_all buf ->
  decode_full n (buf ++ tail) = Ok (unbase64 buf, tail, true).
Proof.
  induction n as [|n IH]; intros buf tail HL HS HA.
  - destruct buf; [reflexivity|discriminate].
  - destruct buf as [|a [|b [|c [|d r]]]]; cbn [length] in HL; try lia.
    inversion_clear HS as [|? ? Ia HS1]; inversion_clear HS1 as [|? ? Ib HS2]; inversion_clear HS2 as [|? ? Ic HS3]; inversion_clear HS3 as [|? ? Id HS4].
    inversion_clear HA as [|? ? Ha HA1]; inversion_clear HA1 as [|? ? Hb HA2]; inversion_clear HA2 as [|? ? Hc HA3]; inversion_clear HA3 as [|? ? Hd HA4].
    cbn [app decode_full].
    destruct (decode_chunk_codes a b c d Ha Hb Hc Hd) as (ds & E & _ & _ & Eds & _). rewrite E. cbn [bind].
    replace (chunk_valid _) with true by (symmetry; apply chunk_valid_ok; auto).
    rewrite IH by (assumption || lia). cbn [bind]. rewrite Eds by assumption.
    rewrite !unbase64_4 by assumption. rewrite <- app_assoc. reflexivity.
Qed.

Lemma decode_full_total n : forall buf, (4 * n <= length buf)%nat -> ascii_all buf ->
  exists out tail ok, decode_full n buf = Ok (out, tail, ok) /\
    (ok = true -> symbols_all (firstn (4 * n) buf) /\ out = unbase64 (firstn (4 * n) buf) /\ tail = skipn (4 * n) buf) /\
    (ok = false -> (4 <= length tail)%nat) /\ ascii_all tail.
Proof.
  induction n as [|n IH]; intros buf HL HA.
  - exists [], buf, true. cbn. repeat split; try constructor; try assumption; intros; discriminate.
  - destruct buf as [|a [|b [|c [|d r]]]]; cbn [length] in HL; try lia.
    pose proof HA as HA'.
    inversion_clear HA as [|? ? Ha HA1]; inversion_clear HA1 as [|? ? Hb HA2]; inversion_clear HA2 as [|? ? Hc HA3]; inversion_clear HA3 as [|? ? Hd HA4].
    cbn [decode_full].
    destruct (decode_chunk_codes a b c d Ha Hb Hc Hd) as (ds & E & _ & _ & Eds & _). rewrite E. cbn [bind].
    destruct (chunk_valid _) eqn:EV.
    + apply chunk_valid_ok in EV. destruct EV as (Ia & Ib & Ic & Id).
      destruct (IH r ltac:(lia) HA4) as (out & tail & ok & E2 & H1 & H2 & H3). rewrite E2. cbn [bind].
      exists (ds ++ out), tail, ok. split; [reflexivity|]. split; [|auto].
      intros ->. destruct (H1 eq_refl) as (S1 & O1 & T1).
      replace (4 * S n)%nat with (S (S (S (S (4 * n))))) by lia. cbn [firstn skipn].
      split; [fa|]. split; [|assumption].
      rewrite Eds by assumption. rewrite !unbase64_4 by assumption. rewrite O1, <- app_assoc. reflexivity.
    + exists [], (a :: b :: c :: d :: r), false. split; [reflexivity|]. split; [discriminate|]. split; [cbn; lia|assumption].
Qed.

(** The last quantum. *)
Lemma last_chunk a b c d : 0 <= a < 128 -> 0 <= b < 128 -> 0 <= c < 128 -> 0 <= d < 128 ->
  exists ds, decode_chunk a b c d = Ok ((spec_code a, spec_code b, spec_code c, spec_code d), ds) /\
  let n := chunk_bytes (spec_code a, spec_code b, spec_code c, spec_code d) in
  (n <> 0 <-> exists symbols pad, well_formed [a; b; c; d] symbols pad) /\
  forall symbols pad, well_formed [a; b; c; d] symbols pad -> firstn (Z.to_nat n) ds = unbase64 symbols.
Proof.
  intros Ha Hb Hc Hd.
  destruct (decode_chunk_codes a b c d Ha Hb Hc Hd) as (ds & E & E1 & E2 & E3 & HL).
  exists ds. split; [exact E|]. cbn zeta.
  assert (W : forall symbols pad, well_formed [a; b; c; d] symbols pad ->
     (pad = 0%nat /\ symbols = [a; b; c; d] /\ In a alphabet /\ In b alphabet /\ In c alphabet /\ In d alphabet) \/
     (pad = 1%nat /\ symbols = [a; b; c] /\ In a alphabet /\ In b alphabet /\ In c alphabet /\ d = 61) \/
     (pad = 2%nat /\ symbols = [a; b] /\ In a alphabet /\ In b alphabet /\ c = 61 /\ d = 61)).
  { intros symbols pad (HE & HP & _ & HS).
    destruct pad as [|[|[|p]]]; [left|right; left|right; right|lia]; cbn [repeat] in HE.
    - rewrite app_nil_r in HE. subst symbols.
      inversion_clear HS as [|? ? Ia HS1]; inversion_clear HS1 as [|? ? Ib HS2]; inversion_clear HS2 as [|? ? Ic HS3]; inversion_clear HS3 as [|? ? Id HS4]. auto 10.
    - destruct symbols as [|x0 [|x1 [|x2 [|x3 r]]]]; cbn [app] in HE; inversion HE; subst; [|destruct r; discriminate].
      inversion_clear HS as [|? ? Ia HS1]; inversion_clear HS1 as [|? ? Ib HS2]; inversion_clear HS2 as [|? ? Ic HS3]. auto 10.
    - destruct symbols as [|x0 [|x1 [|x2 r]]]; cbn [app] in HE; inversion HE; subst; [|destruct r as [|? [|? ?]]; discriminate].
      inversion_clear HS as [|? ? Ia HS1]; inversion_clear HS1 as [|? ? Ib HS2]. auto 10. }
  assert (V : forall x, In x alphabet -> (spec_code x =? -1) = false /\ (spec_code x =? -2) = false).
  { intros x Hx. destruct (spec_code_sym x Hx) as (_ & R & _). split; apply Z.eqb_neq; lia. }
  assert (P61 : (spec_code 61 =? -1) = false /\ (spec_code 61 =? -2) = true) by (vm_compute; auto).
  split; [split|].
  - unfold chunk_bytes. intros HN.
    destruct (spec_code_class a) as [[Ia _]|[[-> _]|(_ & _ & Xa)]];
      [|exfalso; apply HN; destruct P61 as [-> ->]; repeat (destruct (_ || _); try reflexivity)|
        exfalso; apply HN; rewrite Xa; reflexivity].
    destruct (spec_code_class b) as [[Ib _]|[[-> _]|(_ & _ & Xb)]];
      [|exfalso; apply HN; destruct P61 as [-> ->]; rewrite !orb_true_r; cbn [orb]; repeat (destruct (_ || _); try reflexivity)|
        exfalso; apply HN; rewrite Xb, orb_true_r; reflexivity].
    destruct (V a Ia) as [Va1 Va2]. destruct (V b Ib) as [Vb1 Vb2]. rewrite Va1, Va2, Vb1, Vb2 in HN. cbn [orb] in HN.
    destruct (spec_code_class c) as [[Ic _]|[[-> _]|(_ & _ & Xc)]]; [| |exfalso; apply HN; rewrite Xc; reflexivity].
    + destruct (V c Ic) as [Vc1 Vc2]. rewrite Vc1, Vc2 in HN. cbn [orb andb] in HN.
      destruct (spec_code_class d) as [[Id _]|[[-> _]|(_ & _ & Xd)]]; [| |exfalso; apply HN; rewrite Xd; reflexivity].
      * exists [a; b; c; d], 0%nat. repeat split; [lia|fa].
      * exists [a; b; c], 1%nat. repeat split; [lia|fa].
    + destruct P61 as [P1 P2]. rewrite P1, P2 in HN. cbn [orb andb] in HN.
      destruct (spec_code_class d) as [[Id _]|[[-> _]|(_ & _ & Xd)]].
      * destruct (V d Id) as [Vd1 Vd2]. rewrite Vd1, Vd2 in HN. exfalso. apply HN. reflexivity.
      * exists [a; b], 2%nat. repeat split; [lia|fa].
      * exfalso. apply HN. rewrite Xd. reflexivity.
  - intros (symbols & pad & HW). destruct P61 as [P1 P2]. unfold chunk_bytes.
    destruct (W _ _ HW) as [(-> & -> & Ia & Ib & Ic & Id)|[(-> & -> & Ia & Ib & Ic & ->)|(-> & -> & Ia & Ib & -> & ->)]].
    + destruct (V a Ia) as [-> ->]. destruct (V b Ib) as [-> ->]. destruct (V c Ic) as [-> ->]. destruct (V d Id) as [-> ->]. discriminate.
    + destruct (V a Ia) as [-> ->]. destruct (V b Ib) as [-> ->]. destruct (V c Ic) as [-> ->]. rewrite P1, P2. discriminate.
    + destruct (V a Ia) as [-> ->]. destruct (V b Ib) as [-> ->]. rewrite P1, P2. discriminate.
  - intros symbols pad HW. destruct P61 as [P1 P2]. unfold chunk_bytes.
    destruct (W _ _ HW) as [(-> & -> & Ia & Ib & Ic & Id)|[(-> & -> & Ia & Ib & Ic & ->)|(-> & -> & Ia & Ib & -> & ->)]].
    + destruct (V a Ia) as [-> ->]. destruct (V b Ib) as [-> ->]. destruct (V c Ic) as [-> ->]. destruct (V d Id) as [-> ->].
      cbn [orb andb negb]. change (Z.to_nat 3) with 3%nat. rewrite firstn_all2 by lia. auto.
    + destruct (V a Ia) as [-> ->]. destruct (V b Ib) as [-> ->]. destruct (V c Ic) as [-> ->]. rewrite P1, P2.
      cbn [orb andb negb]. change (Z.to_nat 2) with 2%nat. auto.
    + destruct (V a Ia) as [-> ->]. destruct (V b Ib) as [-> ->]. rewrite P1, P2.
      cbn [orb andb negb]. change (Z.to_nat 1) with 1%nat. auto.
Qed.

(** * The decoding loop *)
Definition boundary_ok (k : nat) (s : list Z) (pad : nat) : Prop :=
  pad = 0%nat \/ (length s mod (4 * k) <> 0)%nat.

Lemma ascii_split s symbols pad : well_formed s symbols pad -> ascii_all s.
Proof.
  intros (-> & _ & _ & HS). apply Forall_app. split.
  - eapply Forall_impl; [|exact HS]. intros c Hc. now apply spec_code_sym.
  - apply Forall_forall. intros x Hx. apply repeat_spec in Hx. subst. unfold pad_char. lia.
Qed.

Lemma mod4_mul k : ((4 * k) mod 4 = 0)%nat.
Proof. rewrite Nat.mul_comm. apply Nat.mod_mul. lia. Qed.

(** Splitting a well-formed string after a multiple of four symbols. *)
Lemma well_formed_split p q symbols pad :
  (length p mod 4 = 0)%nat -> q <> [] -> well_formed (p ++ q) symbols pad ->
  exists symbols', symbols = p ++ symbols' /\ well_formed q symbols' pad /\ symbols_all p.
Proof.
  intros HP HQ (HE & Hpad & HM & HS).
  assert (HMq : (length q mod 4 = 0)%nat).
  { rewrite app_length in HM. rewrite Nat.add_mod, HP, Nat.add_0_l, Nat.mod_mod in HM by lia. exact HM. }
  assert (Hq4 : (4 <= length q)%nat).
  { destruct q as [|a [|b [|c [|d r]]]]; try contradiction; cbn in *; try discriminate; lia. }
  assert (HL : (length p <= length symbols)%nat).
  { apply (f_equal (@length Z)) in HE. rewrite !app_length, repeat_length in HE. lia. }
  assert (Hp : p = firstn (length p) symbols).
  { apply (f_equal (firstn (length p))) in HE.
    rewrite firstn_app, Nat.sub_diag, firstn_all in HE. cbn [firstn] in HE. rewrite app_nil_r in HE.
    rewrite firstn_app in HE. replace (length p - length symbols)%nat with 0%nat in HE by lia.
    cbn [firstn] in HE. now rewrite app_nil_r in HE. }
  exists (skipn (length p) symbols). split; [rewrite Hp at 1; symmetry; apply firstn_skipn|].
  split.
  - repeat split; [|assumption|assumption|now apply Forall_skipn].
    apply (f_equal (skipn (length p))) in HE. rewrite skipn_app, Nat.sub_diag, skipn_all in HE. cbn [skipn app] in HE.
    rewrite HE, skipn_app. replace (length p - length symbols)%nat with 0%nat by lia. reflexivity.
  - rewrite Hp. now apply Forall_firstn.
Qed.

Lemma well_formed_join p q symbols pad :
  (length p mod 4 = 0)%nat -> symbols_all p -> well_formed q symbols pad -> well_formed (p ++ q) (p ++ symbols) pad.
Proof.
  intros HP HS (HE & Hpad & HM & HSq). split; [rewrite HE, app_assoc; reflexivity|]. split; [assumption|].
  split; [|apply Forall_app; auto]. rewrite app_length, Nat.add_mod, HP, HM by lia. reflexivity.
Qed.

Lemma decode_loop_good k : (0 < k)%nat -> forall fuel s acc symbols pad,
  (length s < fuel)%nat -> well_formed s symbols pad -> boundary_ok k s pad ->
  decode_loop fuel k acc true s = Ok (Some (acc ++ unbase64 symbols)).
Proof.
  intros Hk. induction fuel as [|fuel IH]; intros s acc symbols pad Hf HW HB; [lia|].
  pose proof (ascii_split _ _ _ HW) as HA.
  cbn [decode_loop stream_read].
  destruct (Nat.ltb_spec (length s) (4 * k)) as [Hlt|Hge]; cbn [negb].
  - rewrite firstn_all2 by lia.
    assert (HM : (length s mod 4 = 0)%nat) by apply HW. rewrite HM. cbn [Nat.eqb negb].
    destruct (Nat.eqb_spec (length s) 0) as [E0|N0].
    + destruct s; [|discriminate]. destruct HW as (HE & _ & _ & _). symmetry in HE. apply app_eq_nil in HE.
      destruct HE as [-> _]. cbn. now rewrite app_nil_r.
    + pose proof (Nat.div_mod (length s) 4 ltac:(lia)) as D. rewrite HM, Nat.add_0_r in D.
      set (n := (length s / 4)%nat) in *.
      set (p := firstn (4 * (n - 1)) s). set (q := skipn (4 * (n - 1)) s).
      assert (Hpq : s = p ++ q) by (symmetry; apply firstn_skipn).
      assert (Hlp : length p = (4 * (n - 1))%nat) by (apply firstn_length_le; lia).
      assert (Hlq : length q = 4%nat) by (unfold q; rewrite skipn_length; lia).
      rewrite Hpq in HW, HA. apply Forall_app in HA. destruct HA as [HAp HAq].
      destruct (well_formed_split p q symbols pad) as (sy & -> & HWq & HSp);
        [rewrite Hlp; apply mod4_mul|intros E; rewrite E in Hlq; discriminate|assumption|].
      rewrite Hpq at 1. rewrite decode_full_good by assumption. cbn [bind andb].
      destruct q as [|a [|b [|c [|d [|e t]]]]]; cbn [length] in Hlq; try discriminate.
      inversion_clear HAq as [|? ? Ha HA1]; inversion_clear HA1 as [|? ? Hb HA2]; inversion_clear HA2 as [|? ? Hc HA3]; inversion_clear HA3 as [|? ? Hd HA4].
      destruct (last_chunk a b c d Ha Hb Hc Hd) as (ds & E & H1 & H2). rewrite E. cbn [bind].
      cbn zeta in H1, H2.
      destruct (Z.eqb_spec (chunk_bytes (spec_code a, spec_code b, spec_code c, spec_code d)) 0) as [Ez|Nz].
      * exfalso. assert (chunk_bytes (spec_code a, spec_code b, spec_code c, spec_code d) <> 0); [|contradiction].
        apply H1. eauto.
      * rewrite (H2 _ _ HWq), unbase64_app; [reflexivity|assumption|rewrite Hlp; apply mod4_mul].
  - assert (HL1 : length (firstn (4 * k) s) = (4 * k)%nat) by (apply firstn_length_le; lia).
    rewrite HL1, mod4_mul. cbn [Nat.eqb negb]. destruct (Nat.eqb_spec (4 * k) 0); [lia|].
    rewrite Nat.sub_0_r. rewrite (Nat.mul_comm 4 k), Nat.div_mul, (Nat.mul_comm k 4) by lia.
    set (p := firstn (4 * k) s) in *. set (q := skipn (4 * k) s).
    assert (Hpq : s = p ++ q) by (symmetry; apply firstn_skipn).
    rewrite Hpq in HW, HA. apply Forall_app in HA. destruct HA as [HAp HAq].
    assert (HS : exists sy, symbols = p ++ sy /\ well_formed q sy pad /\ symbols_all p).
    { destruct q as [|x q'] eqn:Eq.
      - assert (pad = 0%nat).
        { destruct HB as [|HB]; [assumption|]. exfalso. apply HB. rewrite Hpq, app_nil_r, HL1. apply Nat.mod_same. lia. }
        subst pad. destruct HW as (HE & _ & _ & HS). cbn [repeat] in HE. rewrite !app_nil_r in HE. subst symbols.
        exists []. rewrite app_nil_r. split; [reflexivity|]. split; [|assumption]. repeat split; [lia|constructor].
      - apply well_formed_split; [rewrite HL1; apply mod4_mul|discriminate|assumption]. }
    destruct HS as (sy & -> & HWq & HSp).
    rewrite <- (app_nil_r p). rewrite decode_full_good by assumption. rewrite app_nil_r. cbn [bind andb].
    rewrite (IH q (acc ++ unbase64 p) sy pad).
    + rewrite unbase64_app; [now rewrite app_assoc|assumption|rewrite HL1; apply mod4_mul].
    + unfold q. rewrite skipn_length. lia.
    + assumption.
    + destruct HB as [|HB]; [now left|right]. intros E. apply HB. rewrite Hpq, app_length, HL1.
      rewrite Nat.add_mod, E, Nat.mod_same by lia. apply Nat.mod_0_l. lia.
Qed.

Lemma decode_loop_total k : (0 < k)%nat -> forall fuel s acc good,
  (length s < fuel)%nat -> ascii_all s ->
  exists r, decode_loop fuel k acc good s = Ok r /\
    forall out, r = Some out -> good = true /\ exists symbols pad,
      well_formed s symbols pad /\ boundary_ok k s pad /\ out = acc ++ unbase64 symbols.
Proof.
  intros Hk. induction fuel as [|fuel IH]; intros s acc good Hf HA; [lia|].
  cbn [decode_loop stream_read].
  destruct (Nat.ltb_spec (length s) (4 * k)) as [Hlt|Hge]; cbn [negb].
  - rewrite firstn_all2 by lia.
    destruct (Nat.eqb_spec (length s mod 4) 0) as [HM|HM]; cbn [negb]; [|eexists; split; [reflexivity|discriminate]].
    destruct (Nat.eqb_spec (length s) 0) as [E0|N0].
    + destruct s; [|discriminate]. eexists. split; [reflexivity|]. cbn [andb]. intros out. destruct good; [|discriminate].
      intros E; inversion E; subst. split; [reflexivity|]. exists [], 0%nat. rewrite app_nil_r.
      repeat split; [lia|constructor|left; reflexivity].
    + pose proof (Nat.div_mod (length s) 4 ltac:(lia)) as D. rewrite HM, Nat.add_0_r in D.
      set (n := (length s / 4)%nat) in *.
      destruct (decode_full_total (n - 1) s ltac:(lia) HA) as (out & tail & ok & E & H1 & H2 & H3).
      rewrite E. cbn [bind].
      assert (Hlt4 : (4 <= length tail)%nat).
      { destruct ok; [|auto]. destruct (H1 eq_refl) as (_ & _ & ->). rewrite skipn_length. lia. }
      destruct tail as [|a [|b [|c [|d t]]]]; cbn [length] in Hlt4; try lia.
      inversion_clear H3 as [|? ? Ha HA1]; inversion_clear HA1 as [|? ? Hb HA2]; inversion_clear HA2 as [|? ? Hc HA3]; inversion_clear HA3 as [|? ? Hd HA4].
      destruct (last_chunk a b c d Ha Hb Hc Hd) as (ds & E2 & L1 & L2). rewrite E2. cbn [bind]. cbn zeta in L1, L2.
      destruct (Z.eqb_spec (chunk_bytes (spec_code a, spec_code b, spec_code c, spec_code d)) 0) as [Ez|Nz];
        [eexists; split; [reflexivity|discriminate]|].
      eexists. split; [reflexivity|]. intros out'. destruct (good && ok) eqn:EG; [|discriminate].
      apply andb_true_iff in EG. destruct EG as [-> ->]. intros EO. split; [reflexivity|].
      destruct (H1 eq_refl) as (S1 & O1 & T1).
      assert (t = []).
      { apply (f_equal (@length Z)) in T1. rewrite skipn_length in T1. cbn [length] in T1. clear - T1 D N0.
        apply length_zero_iff_nil. lia. }
      subst t. apply L1 in Nz. destruct Nz as (sy & pad & HWq).
      assert (Hs : s = firstn (4 * (n - 1)) s ++ [a; b; c; d]) by (rewrite T1; symmetry; apply firstn_skipn).
      assert (Hlp : (length (firstn (4 * (n - 1)) s) mod 4 = 0)%nat) by (rewrite firstn_length_le by lia; apply mod4_mul).
      exists (firstn (4 * (n - 1)) s ++ sy), pad. split; [rewrite Hs at 1; now apply well_formed_join|].
      split; [right; rewrite Nat.mod_small; lia|].
      apply (f_equal (fun o => match o with Some v => v | None => [] end)) in EO. cbv beta iota in EO.
      rewrite <- EO, (L2 _ _ HWq), unbase64_app by assumption. rewrite O1. reflexivity.
  - assert (HL1 : length (firstn (4 * k) s) = (4 * k)%nat) by (apply firstn_length_le; lia).
    rewrite HL1, mod4_mul. cbn [Nat.eqb negb]. destruct (Nat.eqb_spec (4 * k) 0); [lia|].
    rewrite Nat.sub_0_r. rewrite (Nat.mul_comm 4 k), Nat.div_mul, (Nat.mul_comm k 4) by lia.
    destruct (decode_full_total k (firstn (4 * k) s) ltac:(lia) ltac:(now apply Forall_firstn)) as (out & tail & ok & E & H1 & H2 & H3).
    rewrite E. cbn [bind].
    destruct (IH (skipn (4 * k) s) (if good && ok then acc ++ out else acc) (good && ok)) as (r & Er & Hr);
      [rewrite skipn_length; lia|now apply Forall_skipn|].
    rewrite Er. exists r. split; [reflexivity|]. intros out' ->.
    destruct (Hr out' eq_refl) as (EG & sy & pad & HWq & HBq & EO). rewrite EG in EO.
    apply andb_true_iff in EG. destruct EG as [-> ->]. split; [reflexivity|].
    destruct (H1 eq_refl) as (S1 & O1 & _). rewrite firstn_firstn, Nat.min_id in S1, O1.
    exists (firstn (4 * k) s ++ sy), pad.
    assert (HM1 : (length (firstn (4 * k) s) mod 4 = 0)%nat) by (rewrite HL1; apply mod4_mul).
    split; [rewrite <- (firstn_skipn (4 * k) s) at 1; now apply well_formed_join|].
    split.
    + destruct HBq as [|HBq]; [now left|right]. rewrite skipn_length in HBq. intros Em. apply HBq.
      replace (length s) with (length s - 4 * k + 1 * (4 * k))%nat in Em by lia. now rewrite Nat.mod_add in Em by lia.
    + rewrite EO, O1, unbase64_app by assumption. now rewrite app_assoc.
Qed.

(** Any non-ASCII byte reached makes the decoder index its table out of bounds. *)
Lemma decode_chunk_ub a b c d :
  0 <= a < 256 -> 0 <= b < 256 -> 0 <= c < 256 -> 0 <= d < 256 ->
  128 <= a \/ 128 <= b \/ 128 <= c \/ 128 <= d -> decode_chunk a b c d = UB.
Proof.
  intros Ha Hb Hc Hd H. unfold decode_chunk.
  assert (R : forall x, 0 <= x < 256 -> (128 <= x -> code_of x = UB) /\ (x < 128 -> code_of x = Ok (spec_code x))).
  { intros x Hx. split; intros; [apply code_of_ub|apply code_of_ok]; lia. }
  destruct (R a Ha) as [Ra Ra']. destruct (R b Hb) as [Rb Rb']. destruct (R c Hc) as [Rc Rc']. destruct (R d Hd) as [Rd Rd'].
  destruct (Z.lt_ge_cases a 128); [rewrite Ra' by assumption|rewrite Ra by assumption; reflexivity]. cbn [bind].
  destruct (Z.lt_ge_cases b 128); [rewrite Rb' by assumption|rewrite Rb by assumption; reflexivity]. cbn [bind].
  destruct (Z.lt_ge_cases c 128); [rewrite Rc' by assumption|rewrite Rc by assumption; reflexivity]. cbn [bind].
  rewrite Rd by lia. reflexivity.
Qed.

(** * Round trip *)
Lemma alph_sym v : 0 <= v < 64 -> In (alph v) alphabet /\ spec_code (alph v) = v.
Proof.
  intros Hv.
  assert (F : forall v, 0 <= v < 64 -> (if in_dec Z.eq_dec (alph v) alphabet then spec_code (alph v) =? v else false) = true).
  { apply (forall_range 64). vm_compute. reflexivity. }
  specialize (F v Hv). destruct (in_dec _ _ _); [|discriminate]. apply Z.eqb_eq in F. auto.
Qed.

Lemma base64_length x : (length (base64 x) = 4 * ((length x + 2) / 3))%nat.
Proof.
  (* the length only depends on the length of x, so it can be computed on any bytes *)
  assert (HS : forall n (l : list bool), length l = n -> (length (sextets l) = (n + 5) / 6)%nat).
  { intros n. induction n as [n IH] using (well_founded_induction lt_wf). intros l Hl.
    destruct l as [|b0 [|b1 [|b2 [|b3 [|b4 [|b5 r]]]]]]; cbn [length] in Hl; subst n; try reflexivity.
    cbn [sextets length]. rewrite (IH (length r)) by (cbn; lia || reflexivity).
    replace (S (S (S (S (S (S (length r)))))) + 5)%nat with (length r + 5 + 1 * 6)%nat by lia.
    rewrite Nat.div_add by lia. lia. }
  unfold base64. rewrite app_length, map_length, repeat_length.
  rewrite (HS _ _ eq_refl), spec_file_bits_eq, bytes_bits_length.
  set (n := length x). pose proof (Nat.div_mod n 3 ltac:(lia)) as D. pose proof (Nat.mod_upper_bound n 3 ltac:(lia)) as U.
  set (q := (n / 3)%nat) in *. set (m := (n mod 3)%nat) in *.
  assert (E1 : ((8 * n + 5) / 6 = 4 * q + (8 * m + 5) / 6)%nat).
  { replace (8 * n + 5)%nat with ((8 * m + 5) + (4 * q) * 6)%nat by lia. rewrite Nat.div_add by lia. lia. }
  assert (E2 : ((n + 2) / 3 = q + (m + 2) / 3)%nat).
  { replace (n + 2)%nat with ((m + 2) + q * 3)%nat by lia. rewrite Nat.div_add by lia. lia. }
  rewrite E1, E2. destruct m as [|[|[|m']]]; [| | |lia]; cbn; lia.
Qed.

Lemma base64_well_formed x : all_bytes x ->
  exists symbols, well_formed (base64 x) symbols ((3 - length x mod 3) mod 3) /\ unbase64 symbols = x.
Proof.
  intros HF.
  assert (H : exists symbols, base64 x = symbols ++ repeat pad_char ((3 - length x mod 3) mod 3) /\
     symbols_all symbols /\ unbase64 symbols = x).
  { induction x as [|a|a b|a b c r IH] using list_3_ind.
    - exists []. repeat split. constructor.
    - inversion_clear HF as [|? ? Ha _]. exists [alph (a / 4); alph (a mod 4 * 16)].
      destruct (alph_sym (a / 4)) as [I1 C1]; [dlia|]. destruct (alph_sym (a mod 4 * 16)) as [I2 C2]; [dlia|].
      split; [|split; [fa|]].
      + unfold base64. rewrite spec_file_bits_eq. change (bytes_bits [a]) with (bits_msb 8 a ++ []).
        rewrite app_nil_r, sextets_1 by assumption. reflexivity.
      + rewrite unbase64_2, C1, C2 by assumption. f_equal. dlia.
    - inversion_clear HF as [|? ? Ha HF1]; inversion_clear HF1 as [|? ? Hb _].
      exists [alph (a / 4); alph (a mod 4 * 16 + b / 16); alph (b mod 16 * 4)].
      destruct (alph_sym (a / 4)) as [I1 C1]; [dlia|]. destruct (alph_sym (a mod 4 * 16 + b / 16)) as [I2 C2]; [dlia|].
      destruct (alph_sym (b mod 16 * 4)) as [I3 C3]; [dlia|].
      split; [|split; [fa|]].
      + unfold base64. rewrite spec_file_bits_eq. change (bytes_bits [a; b]) with (bits_msb 8 a ++ bits_msb 8 b ++ []).
        rewrite app_nil_r, sextets_2 by assumption. reflexivity.
      + rewrite unbase64_3, C1, C2, C3 by assumption. f_equal; [dlia|f_equal; dlia].
    - inversion_clear HF as [|? ? Ha HF1]; inversion_clear HF1 as [|? ? Hb HF2]; inversion_clear HF2 as [|? ? Hc HF3].
      destruct (IH HF3) as (sy & EB & SA & UB').
      destruct (alph_sym (a / 4)) as [I1 C1]; [dlia|]. destruct (alph_sym (a mod 4 * 16 + b / 16)) as [I2 C2]; [dlia|].
      destruct (alph_sym (b mod 16 * 4 + c / 64)) as [I3 C3]; [dlia|]. destruct (alph_sym (c mod 64)) as [I4 C4]; [dlia|].
      exists ([alph (a / 4); alph (a mod 4 * 16 + b / 16); alph (b mod 16 * 4 + c / 64); alph (c mod 64)] ++ sy).
      split; [|split; [cbn [app]; fa|]].
      + rewrite base64_3, EB by assumption. rewrite <- app_assoc. do 2 f_equal.
        cbn [length]. replace (S (S (S (length r)))) with (length r + 1 * 3)%nat by lia. now rewrite Nat.mod_add by lia.
      + cbn [app]. rewrite unbase64_4, UB', C1, C2, C3, C4 by assumption. cbn [app].
        f_equal; [dlia|f_equal; [dlia|f_equal; dlia]]. }
  destruct H as (sy & E & SA & U). exists sy. split; [|assumption].
  split; [assumption|]. split; [|split; [|assumption]].
  - pose proof (Nat.mod_upper_bound (3 - length x mod 3) 3 ltac:(lia)). lia.
  - rewrite base64_length. apply mod4_mul.
Qed.
