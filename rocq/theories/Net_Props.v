(** C26, C27, C28: IPv4 and IPv6 addresses and endpoints.
    Texts range over all sequences of non-negative values of the character type [t] (negative
    characters are a separate defect of the digit test, see [ipv4_negative_refuted]) shorter than 2^63. *)
From Verif Require Import Common Bits BitStream_Model BitStream_Spec Endian_Props Lexer_Model Lexer_Spec Lexer_Props
  Format_Model Format_Spec Format_Proofs Format_Props Strings_Model Strings_Spec Net_Model Net_Spec Net_Proofs Net6_Proofs.

Definition text (t : ctype) (s : list Z) : Prop := Forall (fun c => char_ok t c /\ 0 <= c) s /\ Z.of_nat (length s) < 2 ^ 63.

(** * C26 *)
Lemma memory_order hb h : 0 <= h < 2 ^ 32 -> in_memory hb (to_big_endian hb 4 h) = octets h /\ 0 <= to_big_endian hb 4 h < 2 ^ 32.
Proof. intros H. destruct hb; [split; [reflexivity|exact H]|]. apply (swap_octets h H). Qed.
Lemma memory_order_unique hb h a : 0 <= h < 2 ^ 32 -> 0 <= a < 2 ^ 32 -> in_memory hb a = octets h -> a = to_big_endian hb 4 h.
Proof.
  intros Hh Ha E. destruct (memory_order hb h Hh) as [E' H']. rewrite <- E' in E. unfold in_memory in E.
  destruct hb; [|apply (f_equal (@rev Z)) in E; rewrite !rev_involutive in E]; now apply octets_inj.
Qed.
Lemma inet_range_dval ps h : inet_aton (map dval ps) = Some h -> 0 <= h < 2 ^ 32.
Proof. intros E. now destruct (inet_small _ _ E (dval_nonneg ps)) as (_ & H & _). Qed.

(** For every text: accepted exactly when it is the dotted notation of one to four numbers, each taken
    modulo 2^64 (the lexer's accumulator wraps), and then the stored integer holds the four octets in
    network order in memory. *)
Theorem ipv4_parse_exact : forall t hb s a, In t ctypes -> text t s -> 0 <= a < 2 ^ 32 ->
  ipv4_from_string hb s = Ok (Some a) <->
  exists ps h, s = join 46 ps /\ Forall decimal_number ps /\
    inet_aton (map (fun p => number 10 p mod 2 ^ 64) ps) = Some h /\ in_memory hb a = octets h.
Proof.
  intros t hb s a Ht [HC HL] Ha. rewrite (ipv4_parse_lemma t hb s a Ht HC HL). split; intros (ps & h & ES & D & EI & EA); exists ps, h; repeat (split; [assumption|]).
  - subst a. apply memory_order. eapply inet_range_dval; eauto.
  - apply memory_order_unique; [eapply inet_range_dval; eauto|assumption|assumption].
Qed.

(** With numbers below 2^64 this is exactly inet_aton.  What is missing from C26: longer numbers (see
    [ipv4_wrap_refuted]). *)
Lemma part_in d ps : forall p, In p ps -> exists x y, join d ps = x ++ p ++ y.
Proof.
  induction ps as [|q ps IH]; intros p Hp; [contradiction|]. destruct Hp as [->|Hp].
  - destruct ps as [|r ps]; [exists [], []; cbn; now rewrite app_nil_r|]. rewrite join_cons by discriminate. exists [], (d :: join d (r :: ps)). reflexivity.
  - destruct (IH p Hp) as (x & y & E). destruct ps as [|r ps]; [contradiction|]. rewrite join_cons by discriminate.
    exists (q ++ d :: x), y. rewrite E. now rewrite <- app_assoc.
Qed.
Theorem ipv4_parse_inet_aton_partial : forall t hb s a, In t ctypes -> text t s -> 0 <= a < 2 ^ 32 ->
  numbers_fit 10 ascii_digit s ->
  ipv4_from_string hb s = Ok (Some a) <-> exists h, dotted s h /\ in_memory hb a = octets h.
Proof.
  intros t hb s a Ht HT Ha HF. rewrite (ipv4_parse_exact t hb s a Ht HT Ha).
  assert (E : forall ps, s = join 46 ps -> Forall decimal_number ps -> map (fun p => number 10 p mod 2 ^ 64) ps = map (number 10) ps).
  { intros ps ES D. apply map_ext_in. intros p Hp. apply Z.mod_small. destruct (part_in 46 ps p Hp) as (x & y & EP).
    rewrite Forall_forall in D. destruct (D p Hp) as [_ Hd]. split; [|eapply HF; [rewrite ES; exact EP|exact Hd]].
    destruct (number_bound 10 p ltac:(lia)) with (a := 0) as [H0 _]; [|lia|exact H0].
    eapply Forall_impl; [|exact Hd]. intros c Hc. unfold ascii_digit in Hc. unfold digit_value. destruct (Z.leb_spec c 57); lia. }
  split.
  - intros (ps & h & ES & D & EI & EM). exists h. split; [|exact EM]. exists ps. rewrite <- (E ps ES D). auto.
  - intros (h & (ps & ES & D & EI) & EM). exists ps, h. rewrite (E ps ES D). auto.
Qed.

(** No text makes the parser misbehave: it always returns. *)
Theorem ipv4_parse_total : forall t hb s, In t ctypes -> text t s -> exists o, ipv4_from_string hb s = Ok o.
Proof. intros t hb s Ht [HC HL]. now apply (ipv4_total_lemma t). Qed.

(** host_order is the number inet_aton defines. *)
Theorem ipv4_host_order : forall hb h a, 0 <= h < 2 ^ 32 -> 0 <= a < 2 ^ 32 -> in_memory hb a = octets h -> host_order hb a = h.
Proof.
  intros hb h a Hh Ha E. rewrite (memory_order_unique hb h a Hh Ha E). unfold host_order. destruct hb; [reflexivity|].
  apply (endian_swap_involutive 4 h); [unfold native_size; auto|exact Hh].
Qed.

(** network_order is the integer whose bytes in memory are the octets of host_order, the most significant first. *)
Theorem ipv4_network_order : forall hb a, 0 <= a < 2 ^ 32 -> in_memory hb (network_order a) = octets (host_order hb a).
Proof.
  intros hb a Ha. unfold network_order, host_order. destruct (memory_order hb a Ha) as (E & _). destruct hb; [reflexivity|]. unfold in_memory in *. rewrite <- E. apply rev_involutive.
Qed.
(** The special addresses: 0.0.0.0 and 255.255.255.255 on every host, 127.0.0.1 on a little-endian one. *)
Theorem special_addresses :
  (forall hb, in_memory hb (network_order in_addr_any) = [0; 0; 0; 0] /\ in_memory hb (network_order in_addr_broadcast) = [255; 255; 255; 255]) /\
  in_memory false (network_order in_addr_loopback) = [127; 0; 0; 1] /\ host_order false in_addr_loopback = 127 * 2 ^ 24 + 1 /\
  in6_addr_any = repeat 0 16 /\ in6_addr_loopback = repeat 0 15 ++ [1].
Proof. split; [intros []; split; reflexivity|]. repeat (split; [reflexivity|]). reflexivity. Qed.
(** On a big-endian host the loopback address is 1.0.0.127. *)
Theorem loopback_big_endian_refuted : in_memory true (network_order in_addr_loopback) = [1; 0; 0; 127].
Proof. reflexivity. Qed.

(** from_octets on a little-endian host. *)
Theorem ipv4_octets : forall a0 a1 a2 a3, Forall (fun b => 0 <= b < 256) [a0; a1; a2; a3] ->
  in_memory false (ipv4_from_octets a0 a1 a2 a3) = [a0; a1; a2; a3].
Proof.
  intros a0 a1 a2 a3 H. inversion H as [|? ? H0 HA]; subst. inversion HA as [|? ? H1 HB]; subst. inversion HB as [|? ? H2 HC]; subst. inversion HC as [|? ? H3 _]; subst.
  unfold ipv4_from_octets. rewrite !shl_small by (change (2 ^ 8) with 256; change (2 ^ 16) with 65536; change (2 ^ 24) with 16777216; change (2 ^ 32) with 4294967296; lia).
  assert (E : Z.lor (Z.lor (Z.lor a0 (a1 * 2 ^ 8)) (a2 * 2 ^ 16)) (a3 * 2 ^ 24) = a3 * 2 ^ 24 + (a2 * 2 ^ 16 + (a1 * 2 ^ 8 + a0))).
  { rewrite (Z.lor_comm a0). rewrite (lor_add (a1 * 2 ^ 8) 8 a0) by (try apply Z.mod_mul; change (2 ^ 8) with 256; lia).
    rewrite (Z.lor_comm (a1 * 2 ^ 8 + a0)). rewrite (lor_add (a2 * 2 ^ 16) 16) by (try apply Z.mod_mul; change (2 ^ 8) with 256; change (2 ^ 16) with 65536; lia).
    rewrite Z.lor_comm. apply (lor_add (a3 * 2 ^ 24) 24); try apply Z.mod_mul; change (2 ^ 8) with 256; change (2 ^ 16) with 65536; change (2 ^ 24) with 16777216; lia. }
  rewrite E. unfold in_memory, octets. cbn [rev app]. change (2 ^ 8) with 256; change (2 ^ 16) with 65536; change (2 ^ 24) with 16777216.
  f_equal; [dlia|f_equal; [dlia|f_equal; [dlia|f_equal; dlia]]].
Qed.

(** The formatter: the four octets from the low byte up, in decimal without leading zeros. *)
Lemma octet_range a k : 0 <= Z.land (Z.shiftr a k) 255 < 2 ^ 32.
Proof. change 255 with (2 ^ 8 - 1). rewrite land_mask by lia. pose proof (Z.mod_pos_bound (Z.shiftr a k) (2 ^ 8) ltac:(reflexivity)). change (2 ^ 8) with 256 in *. change (2 ^ 32) with 4294967296. lia. Qed.
Lemma octet_value a k : 0 <= k -> Z.land (Z.shiftr a k) 255 = a / 2 ^ k mod 256.
Proof. intros. change 255 with (2 ^ 8 - 1). rewrite land_mask by lia. now rewrite Z.shiftr_div_pow2. Qed.
Theorem ipv4_format_exact : forall a, 0 <= a < 2 ^ 32 -> exists d0 d1 d2 d3,
  ipv4_format a = Ok (join 46 [d0; d1; d2; d3]) /\
  Forall2 (positional 10 false) (rev (octets a)) [d0; d1; d2; d3].
Proof.
  intros a Ha.
  assert (ONE : forall v, 0 <= v < 2 ^ 32 -> exists d, format_integer 32 false char_max dec_field 0 v = Ok d /\ positional 10 false v d).
  { intros v Hv. destruct (plain_format 32 false char_max TDecimal v 10 ltac:(unfold native_int; auto) Hv eq_refl) as (d & E & P).
    assert (EN : (v <? 0) = false) by (apply Z.ltb_ge; lia). rewrite EN in E. rewrite Z.abs_eq in P by lia. exists d. split; [exact E|exact P]. }
  destruct (ONE _ (octet_range a 0)) as (d0 & E0 & P0). destruct (ONE _ (octet_range a 8)) as (d1 & E1 & P1).
  destruct (ONE _ (octet_range a 16)) as (d2 & E2 & P2). destruct (ONE _ (octet_range a 24)) as (d3 & E3 & P3).
  exists d0, d1, d2, d3. rewrite Z.shiftr_0_r in E0, P0. split.
  - unfold ipv4_format. rewrite E0, E1, E2, E3. cbn [bind]. rewrite !join_cons by discriminate. cbn [join app]. reflexivity.
  - assert (EO : rev (octets a) = [Z.land a 255; Z.land (Z.shiftr a 8) 255; Z.land (Z.shiftr a 16) 255; Z.land (Z.shiftr a 24) 255]).
    { rewrite !octet_value by lia. rewrite <- (Z.shiftr_0_r a) at 2. rewrite octet_value by lia. unfold octets. cbn [rev app].
      rewrite Z.pow_0_r, Z.div_1_r. do 3 f_equal. f_equal. symmetry. apply Z.mod_small. change (2 ^ 24) with 16777216. change (2 ^ 32) with 4294967296 in Ha. dlia. }
    rewrite EO. auto.
Qed.

(** On a little-endian host every address survives the round trip, and its text denotes its memory octets. *)
Lemma positional_decimal v d : positional 10 false v d -> decimal_number d /\ number 10 d = v.
Proof.
  intros (F & V & N & _). split; [|rewrite number_positional by auto; exact V]. split; [exact N|].
  eapply Forall_impl; [|exact F]. intros c Hc. unfold digit_of in Hc. unfold ascii_digit. lia.
Qed.
Lemma positional_digits_small v d n : positional 10 false v d -> 0 <= v < 10 ^ Z.of_nat n -> (0 < n)%nat -> (length d <= n)%nat.
Proof.
  intros (F & V & N & L) Hv Hn. destruct L as [L|L]; [lia|]. destruct d as [|c s]; [congruence|]. cbn [hd] in L.
  assert (HP : forall s, Forall (digit_of 10 false) s -> 0 <= positional_value 10 s).
  { clear. induction 1 as [|c s Hc Hs IH]; [cbn; lia|]. cbn [positional_value].
    assert (0 <= value_of_digit c) by (unfold digit_of in Hc; unfold value_of_digit; destruct (Z.leb_spec c 57), (Z.leb_spec c 90); lia).
    assert (0 <= 10 ^ Z.of_nat (length s)) by (apply Z.pow_nonneg; lia).
    assert (0 <= value_of_digit c * 10 ^ Z.of_nat (length s)) by (now apply Z.mul_nonneg_nonneg). lia. }
  inversion F as [|? ? Hc Hs]; subst. pose proof (HP s Hs). cbn [positional_value] in Hv.
  assert (H1 : 1 <= value_of_digit c) by (unfold digit_of in Hc; unfold value_of_digit; destruct (Z.leb_spec c 57), (Z.leb_spec c 90); lia).
  assert (HPow : 0 < 10 ^ Z.of_nat (length s)) by (apply Z.pow_pos_nonneg; lia).
  assert (1 * 10 ^ Z.of_nat (length s) <= value_of_digit c * 10 ^ Z.of_nat (length s)) by (apply Z.mul_le_mono_nonneg_r; lia).
  assert (HLt : 10 ^ Z.of_nat (length s) < 10 ^ Z.of_nat n) by lia. apply Z.pow_lt_mono_r_iff in HLt; [|lia|lia]. cbn [length]. lia.
Qed.
Lemma low_char t c : In t ctypes -> 0 <= c < 128 -> char_ok t c /\ 0 <= c.
Proof.
  intros Ht Hc. split; [|lia]. unfold ctypes in Ht. cbn [In] in Ht. unfold char_ok, in_range. decompose [or] Ht; try contradiction; subst; cbn -[Z.pow];
  change (2 ^ 7) with 128; change (2 ^ 8) with 256; change (2 ^ 16) with 65536; change (2 ^ 31) with 2147483648; change (2 ^ 32) with 4294967296; change (2 ^ (8 - 1)) with 128; change (2 ^ (32 - 1)) with 2147483648; lia.
Qed.
Lemma octets_bytes a : 0 <= a < 2 ^ 32 -> Forall (fun b => 0 <= b < 256) (octets a).
Proof.
  intros Ha. change (2 ^ 32) with 4294967296 in Ha. unfold octets. change (2 ^ 24) with 16777216. change (2 ^ 16) with 65536. change (2 ^ 8) with 256.
  repeat (constructor; [dlia|]). constructor.
Qed.
Lemma ipv4_text_shape t a : In t ctypes -> 0 <= a < 2 ^ 32 -> exists d0 d1 d2 d3, ipv4_format a = Ok (join 46 [d0; d1; d2; d3]) /\
  Forall2 (positional 10 false) (rev (octets a)) [d0; d1; d2; d3] /\ Forall decimal_number [d0; d1; d2; d3] /\
  map (number 10) [d0; d1; d2; d3] = rev (octets a) /\
  Forall (fun c => char_ok t c /\ 0 <= c) (join 46 [d0; d1; d2; d3]) /\ (length (join 46 [d0; d1; d2; d3]) <= 15)%nat /\
  ~ In 58 (join 46 [d0; d1; d2; d3]).
Proof.
  intros Ht Ha. destruct (ipv4_format_exact a Ha) as (d0 & d1 & d2 & d3 & E & F). exists d0, d1, d2, d3.
  pose proof (octets_bytes a Ha) as HB. apply Forall_rev in HB.
  split; [exact E|]. split; [exact F|].
  assert (D : Forall decimal_number [d0; d1; d2; d3] /\ map (number 10) [d0; d1; d2; d3] = rev (octets a) /\ Forall (fun d => (length d <= 3)%nat) [d0; d1; d2; d3]).
  { clear E. induction F as [|v d vs ds P F IH]; [repeat split; constructor|]. inversion HB as [|? ? Hv HB']; subst. destruct (IH HB') as (I1 & I2 & I3).
    destruct (positional_decimal v d P) as [D1 D2]. split; [constructor; assumption|]. split; [cbn [map]; now rewrite D2, I2|].
    constructor; [|assumption]. apply (positional_digits_small v d 3 P); [change (10 ^ Z.of_nat 3) with 1000|]; lia. }
  destruct D as (D & M & L3). split; [exact D|]. split; [exact M|].
  assert (DC : Forall (Forall ascii_digit) [d0; d1; d2; d3]) by (eapply Forall_impl; [|exact D]; intros d [_ Hd]; exact Hd).
  rewrite !join_cons by discriminate. cbn [join].
  inversion DC as [|? ? C0 DC1]; subst. inversion DC1 as [|? ? C1 DC2]; subst. inversion DC2 as [|? ? C2 DC3]; subst. inversion DC3 as [|? ? C3 _]; subst.
  inversion L3 as [|? ? L0 L31]; subst. inversion L31 as [|? ? L1 L32]; subst. inversion L32 as [|? ? L2 L33]; subst. inversion L33 as [|? ? L4 _]; subst.
  assert (CH : forall d, Forall ascii_digit d -> Forall (fun c => char_ok t c /\ 0 <= c) d) by (intros d Hd; eapply Forall_impl; [|exact Hd]; intros c Hc; apply low_char; [assumption|unfold ascii_digit in Hc; lia]).
  assert (NO : forall d, Forall ascii_digit d -> ~ In 58 d) by (intros d Hd HI; rewrite Forall_forall in Hd; specialize (Hd _ HI); unfold ascii_digit in Hd; lia).
  assert (DOT : char_ok t 46 /\ 0 <= 46) by (apply low_char; [assumption|lia]).
  split; [|split].
  - apply Forall_app. split; [now apply CH|]. constructor; [exact DOT|]. apply Forall_app. split; [now apply CH|]. constructor; [exact DOT|].
    apply Forall_app. split; [now apply CH|]. constructor; [exact DOT|]. now apply CH.
  - repeat (rewrite !app_length; cbn [length]). lia.
  - pose proof (NO _ C0). pose proof (NO _ C1). pose proof (NO _ C2). pose proof (NO _ C3).
    intros HI. repeat (apply in_app_or in HI; destruct HI as [HI|HI]; [contradiction|]; destruct HI as [HI|HI]; [discriminate|]). contradiction.
Qed.
Theorem ipv4_round_trip : forall a, 0 <= a < 2 ^ 32 -> exists s,
  ipv4_format a = Ok s /\ ipv4_from_string false s = Ok (Some a) /\
  exists h, dotted s h /\ in_memory false a = octets h.
Proof.
  intros a Ha. assert (Ht : In char_signed ctypes) by (cbn; auto).
  destruct (ipv4_text_shape char_signed a Ht Ha) as (d0 & d1 & d2 & d3 & E & _ & D & M & C & L & _).
  exists (join 46 [d0; d1; d2; d3]). split; [exact E|].
  pose proof (octets_bytes a Ha) as HB. apply Forall_rev in HB.
  set (ps := [d0; d1; d2; d3]) in *.
  assert (EI : exists h, inet_aton (map (number 10) ps) = Some h /\ in_memory false a = octets h).
  { rewrite M. unfold in_memory. destruct (rev (octets a)) as [|o0 [|o1 [|o2 [|o3 [|]]]]] eqn:EO; try (unfold octets in EO; discriminate).
    inversion HB as [|? ? B0 HB1]; subst. inversion HB1 as [|? ? B1 HB2]; subst. inversion HB2 as [|? ? B2 HB3]; subst. inversion HB3 as [|? ? B3 _]; subst.
    unfold inet_aton. change (2 ^ 8) with 256. destruct (Z.ltb_spec o0 256), (Z.ltb_spec o1 256), (Z.ltb_spec o2 256), (Z.ltb_spec o3 256); try lia. cbn [andb].
    eexists. split; [reflexivity|]. unfold octets. change (2 ^ 8) with 256. change (2 ^ 16) with 65536. change (2 ^ 24) with 16777216.
    f_equal; [dlia|f_equal; [dlia|f_equal; [dlia|f_equal; dlia]]]. }
  destruct EI as (h & EI & EM).
  split; [|exists h; split; [exists ps; auto|exact EM]].
  apply (ipv4_parse_exact char_signed false (join 46 ps) a Ht); [split; [exact C|]|exact Ha|].
  { change (2 ^ 63) with 9223372036854775808. lia. }
  exists ps, h. split; [reflexivity|]. split; [exact D|]. split; [|exact EM].
  assert (EMod : map (fun p => number 10 p mod 2 ^ 64) ps = map (number 10) ps); [|now rewrite EMod].
  transitivity (map (fun v => v mod 2 ^ 64) (map (number 10) ps)); [now rewrite map_map|]. rewrite M. transitivity (map (fun v => v) (rev (octets a))); [|now rewrite map_id].
  apply map_ext_in. intros v Hv. rewrite Forall_forall in HB. specialize (HB v Hv). apply Z.mod_small. change (2 ^ 64) with 18446744073709551616. lia.
Qed.

(** On a big-endian host the formatter prints the octets in the wrong order: the round trip fails for
    every address that is not a palindrome; here 1.2.3.4. *)
Theorem ipv4_big_endian_refuted :
  ipv4_from_string true [49; 46; 50; 46; 51; 46; 52] = Ok (Some 0x01020304) /\
  ipv4_format 0x01020304 = Ok [52; 46; 51; 46; 50; 46; 49] /\ in_memory true 0x01020304 = [1; 2; 3; 4].
Proof. split; [reflexivity|]. split; reflexivity. Qed.
(** Accepted although no part is in range: 18446744073709551617 = 2^64 + 1 is read as 0.0.0.1. *)
Theorem ipv4_wrap_refuted : let s := [49; 56; 52; 52; 54; 55; 52; 52; 48; 55; 51; 55; 48; 57; 53; 53; 49; 54; 49; 55] in
  ipv4_from_string false s = Ok (Some 0x01000000) /\ ~ exists h, dotted s h.
Proof.
  cbv zeta. split; [vm_compute; reflexivity|]. intros (h & ps & ES & D & EI).
  destruct ps as [|p [|q ps]].
  - discriminate.
  - cbn [join] in ES. subst p. cbn [map] in EI. vm_compute in EI. discriminate.
  - exfalso. assert (HI : In 46 (join 46 (p :: q :: ps))) by (rewrite join_cons by discriminate; apply in_or_app; right; now left).
    rewrite <- ES in HI. cbn in HI. decompose [or] HI; try discriminate. assumption.
Qed.
(** A signed negative character is taken as a digit (see C21): the text "5\xFF" is read as 0.0.0.1. *)
Theorem ipv4_negative_refuted :
  ipv4_from_string false [53; -1] = Ok (Some 0x01000000) /\ ~ exists h, dotted [53; -1] h.
Proof.
  split; [reflexivity|]. intros (h & ps & ES & D & EI). destruct ps as [|p [|q ps]]; [discriminate| |].
  - cbn [join] in ES. subst p. inversion D as [|? ? [_ HD] _]; subst. inversion HD as [|? ? _ HD']; subst. inversion HD' as [|? ? H _]; subst. unfold ascii_digit in H. lia.
  - assert (HI : In 46 (join 46 (p :: q :: ps))) by (rewrite join_cons by discriminate; apply in_or_app; right; now left).
    rewrite <- ES in HI. cbn in HI. decompose [or] HI; try discriminate. assumption.
Qed.

Example C26_case : ipv4_from_string false [49; 50; 55; 46; 49] = Ok (Some in_addr_loopback) /\ (* 127.1 *)
  dotted [49; 50; 55; 46; 49] 0x7f000001 /\ in_memory false in_addr_loopback = [127; 0; 0; 1] /\
  ipv4_from_string false [49; 46; 50; 53; 54; 46; 49; 46; 49] = Ok None (* 1.256.1.1 *).
Proof.
  split; [reflexivity|]. split; [|split; reflexivity]. exists [[49; 50; 55]; [49]]. split; [reflexivity|]. split; [|reflexivity].
  repeat (constructor; [split; [discriminate|repeat (constructor; [unfold ascii_digit; lia|]); constructor]|]). constructor.
Qed.

(** * C27 *)

(** For every text: total, and accepted exactly when it is a sequence of groups, colons and at most one
    "::" in the sense of [lenient]. *)
Theorem ipv6_accepts_exact : forall t s a, In t ctypes -> text t s ->
  (exists o, ipv6_from_string t s = Ok o) /\ (ipv6_from_string t s = Ok (Some a) <-> lenient s a).
Proof. intros t s a Ht [HC HL]. now apply ipv6_parse_lemma. Qed.

(** Every RFC 4291 text (hexadecimal forms) is accepted, with the bytes it denotes.  What is missing from
    C27: the converse is false, see [ipv6_rfc_refuted]. *)
Theorem ipv6_parse_rfc_partial : forall t s a, In t ctypes -> rfc4291 s a -> ipv6_from_string t s = Ok (Some a).
Proof.
  intros t s a Ht H. destruct (rfc_chars s a t Ht H) as [HC HL]. apply (ipv6_accepts_exact t s a Ht); [|now apply rfc_lenient].
  split; [exact HC|]. change (2 ^ 63) with 9223372036854775808. lia.
Qed.

(** The formatter produces RFC 4291 text for the address, and parsing it back yields the address. *)
Theorem ipv6_round_trip : forall t a, In t ctypes -> address_bytes a -> exists s,
  ipv6_format a = Ok s /\ rfc4291 s a /\ ipv6_from_string t s = Ok (Some a).
Proof.
  intros t a Ht HA. destruct (ipv6_format_rfc a HA) as (s & E & R). exists s. split; [exact E|]. split; [exact R|]. now apply ipv6_parse_rfc_partial.
Qed.

(** Texts accepted although RFC 4291 does not allow them: a leading single colon, ":::" , a group of
    more than four digits, a trailing colon after "::"; and the IPv4-embedded form is rejected. *)
Lemma join_head_colon gs r : Forall hex_group gs -> join 58 gs <> 58 :: r.
Proof.
  intros HG E. destruct gs as [|g gs]; [discriminate|]. inversion HG as [|? ? (N & _ & X) _]; subst. destruct g as [|c g]; [congruence|].
  assert (EC : c = 58) by (destruct gs; [cbn [join] in E; congruence|rewrite join_cons in E by discriminate; cbn [app] in E; congruence]). subst c.
  inversion X as [|? ? H _]; subst. unfold ascii_xdigit, ascii_digit in H. lia.
Qed.
Theorem ipv6_rfc_refuted :
  (* ":1:2:3:4:5:6:7:8" *)
  (exists s a, ipv6_from_string char_signed s = Ok (Some a) /\ s = [58;49;58;50;58;51;58;52;58;53;58;54;58;55;58;56] /\ ~ exists b, rfc4291 s b) /\
  (* ":::" *)
  (ipv6_from_string char_signed [58; 58; 58] = Ok (Some (repeat 0 16)) /\ ~ exists b, rfc4291 [58; 58; 58] b) /\
  (* "00001::" *)
  (exists a, ipv6_from_string char_signed [48; 48; 48; 48; 49; 58; 58] = Ok (Some a) /\ ~ exists b, rfc4291 [48; 48; 48; 48; 49; 58; 58] b) /\
  (* "::1.2.3.4" (RFC 4291 form 3) is rejected *)
  ipv6_from_string char_signed [58; 58; 49; 46; 50; 46; 51; 46; 52] = Ok None.
Proof.
  split; [|split; [|split]].
  - eexists _, [0;1;0;2;0;3;0;4;0;5;0;6;0;7;0;8]. split; [|split; [reflexivity|]]; [reflexivity|].
    intros (b & [(gs & _ & HG & E & _)|(ls & rs & _ & HL & _ & E & _)]).
    + symmetry in E. now apply join_head_colon in E.
    + destruct ls as [|l ls]; [discriminate|]. destruct (join 58 (l :: ls)) as [|c r] eqn:EJ; [discriminate|].
      cbn [app] in E. injection E as <- _. now apply join_head_colon in EJ.
  - split; [reflexivity|]. intros (b & [(gs & _ & HG & E & _)|(ls & rs & _ & HL & HR & E & _)]).
    + symmetry in E. now apply join_head_colon in E.
    + destruct (join 58 ls) as [|c r] eqn:EJ.
      * cbn [app] in E. injection E as E. symmetry in E. now apply join_head_colon in E.
      * cbn [app] in E. injection E as <- _. now apply join_head_colon in EJ.
  - exists (0 :: 1 :: repeat 0 14). split; [reflexivity|].
    intros (b & H). assert (G : exists g gs tail, hex_group g /\ [48; 48; 48; 48; 49; 58; 58] = g ++ tail /\ (tail = [] \/ exists r, tail = 58 :: r) /\ gs = tail).
    { destruct H as [(gs & L8 & HG & E & _)|(ls & rs & _ & HL & HR & E & _)].
      - destruct gs as [|g gs]; [discriminate|]. inversion HG; subst. exists g. rewrite E. destruct gs as [|h gs].
        + exists [], []. cbn [join]. rewrite app_nil_r. auto.
        + rewrite join_cons by discriminate. eexists _, _. split; [assumption|]. split; [reflexivity|]. split; [right; eauto|reflexivity].
      - destruct ls as [|g ls]; [cbn [join app] in E; discriminate|]. inversion HL; subst. exists g. rewrite E. destruct ls as [|h ls].
        + cbn [join]. eexists _, _. split; [assumption|]. split; [reflexivity|]. split; [right; eexists; reflexivity|reflexivity].
        + rewrite join_cons by discriminate. rewrite <- app_assoc. eexists _, _. split; [assumption|]. split; [reflexivity|]. split; [right; eexists; reflexivity|reflexivity]. }
    destruct G as (g & _ & tail & (N & L4 & X) & E & HT & _).
    destruct g as [|c0 [|c1 [|c2 [|c3 [|c4 g]]]]]; cbn [length] in L4; try lia; [congruence| | | |]; cbn [app] in E;
      (destruct HT as [->|(r & ->)]; [discriminate|]; injection E; intros; discriminate).
  - reflexivity.
Qed.

Example C27_case : let a := [0x20; 0x01; 0x0d; 0xb8; 0; 0; 0; 0; 0; 0; 0; 0; 0; 0; 0; 1] in
  address_bytes a /\ ipv6_format a = Ok [50; 48; 48; 49; 58; 100; 98; 56; 58; 58; 49] (* 2001:db8::1 *) /\
  ipv6_from_string char_signed [50; 48; 48; 49; 58; 100; 98; 56; 58; 58; 49] = Ok (Some a).
Proof.
  cbv zeta. split; [|split; vm_compute; reflexivity]. split; [reflexivity|]. repeat (constructor; [lia|]). constructor.
Qed.

(** * C28 *)
Lemma find_last_of_last s r ch : ~ In ch r -> find_last_of (s ++ ch :: r) ch = Some (length s).
Proof.
  intros HN. unfold find_last_of. rewrite rev_app_distr. cbn [rev]. rewrite <- app_assoc. cbn [app].
  assert (G : forall x y, ~ In ch x -> find_if (fun c => c =? ch) (x ++ ch :: y) = Some (length x)).
  { induction x as [|c x IH]; intros y HX; cbn [app find_if]; [now rewrite Z.eqb_refl|].
    destruct (Z.eqb_spec c ch) as [->|]; [elim HX; now left|]. rewrite IH by (intros H; apply HX; now right). reflexivity. }
  rewrite G by (now rewrite <- in_rev). cbn [option_map]. rewrite rev_length, app_length. cbn [length]. f_equal. lia.
Qed.
Lemma find_last_of_none s ch : ~ In ch s -> find_last_of s ch = None.
Proof.
  intros HN. unfold find_last_of. assert (G : forall x, ~ In ch x -> find_if (fun c => c =? ch) x = None).
  { induction x as [|c x IH]; intros HX; [reflexivity|]. cbn [find_if]. destruct (Z.eqb_spec c ch) as [->|]; [elim HX; now left|].
    rewrite IH by (intros H; apply HX; now right). reflexivity. }
  rewrite G by (now rewrite <- in_rev). reflexivity.
Qed.
Lemma last_split (ch : Z) s : ~ In ch s \/ exists x y, s = x ++ ch :: y /\ ~ In ch y.
Proof.
  induction s as [|c s IH]; [now left|]. destruct IH as [HN|(x & y & -> & HN)].
  - destruct (Z.eq_dec c ch) as [->|Hc]; [right; exists [], s; auto|]. left. intros [H|H]; auto.
  - right. exists (c :: x), y. auto.
Qed.
Lemma substr_prefix s r : substr (s ++ r) 0 (Some (length s)) = Ok s.
Proof. unfold substr. cbn [Nat.leb skipn]. now rewrite firstn_app, Nat.sub_diag, firstn_all, app_nil_r. Qed.
Lemma substr_suffix s c r : substr (s ++ c :: r) (length s + 1) None = Ok r.
Proof.
  unfold substr. rewrite app_length. cbn [length]. destruct (Nat.leb_spec (length s + 1) (length s + S (length r))); [|lia].
  rewrite skipn_app, skipn_all2 by lia. replace (length s + 1 - length s)%nat with 1%nat by lia. reflexivity.
Qed.
Lemma text_app t x y : text t (x ++ y) -> text t x /\ text t y.
Proof. intros [H L]. apply Forall_app in H. rewrite app_length in L. unfold text. split; (split; [tauto|lia]). Qed.

(** The port part. *)
Definition port_text (sp : list Z) (p : Z) : Prop := decimal_number sp /\ p = number 10 sp mod 2 ^ 64 /\ p < 2 ^ 16.
Lemma endpoint_finish_lemma t {A} (address : option A) sp : In t ctypes -> text t sp ->
  exists o, endpoint_finish address sp = Ok o /\
    forall a p, o = Some (a, p) <-> address = Some a /\ port_text sp p.
Proof.
  intros Ht [HC HL]. destruct (start_ok t sp HC HL) as [HO HR]. unfold endpoint_finish.
  destruct (exists_number_run t (Lexer sp 0) Ht HO) as (pre & rest & HRun).
  destruct (number_run t (Lexer sp 0) pre rest Ht HO HRun) as (l' & E & HO' & HR'). rewrite E. cbn [bind].
  rewrite peek_here by apply HO'. cbn [bind]. rewrite HR'. rewrite HR in HRun.
  assert (UNIQ : decimal_number sp -> pre = sp /\ rest = []).
  { intros [_ HD]. apply (is_run_unique ascii_digit sp pre rest sp []); [exact HRun|]. split; [now rewrite app_nil_r|]. split; [exact HD|exact I]. }
  destruct HRun as (ES & HD & _).
  destruct address as [x|]; [|eexists; split; [reflexivity|]; intros a p; split; [discriminate|intros [H _]; discriminate]].
  destruct pre as [|c pre'] eqn:EP; cbn [nonempty_val].
  - eexists. split; [reflexivity|]. intros a p. split; [discriminate|]. intros [_ [HDN _]]. destruct (UNIQ HDN) as [E0 _]. destruct HDN as [HN _]. congruence.
  - rewrite <- EP in *. assert (HNE : pre <> []) by (rewrite EP; discriminate). clear EP. destruct rest as [|d rest].
    + rewrite app_nil_r in ES. subst pre. pose proof (Z.mod_pos_bound (number 10 sp) (2 ^ 64) ltac:(reflexivity)) as HB.
      rewrite Z.gtb_ltb. change (2 ^ 16) with 65536. unfold port_text. change (2 ^ 16) with 65536.
      assert (HDN : decimal_number sp) by (split; [exact HNE|exact HD]).
      destruct (Z.ltb_spec 65535 (number 10 sp mod 2 ^ 64)) as [Hgt|Hle].
      * eexists. split; [reflexivity|]. intros a p. split; [discriminate|]. intros [_ (_ & -> & H)]. lia.
      * eexists. split; [reflexivity|]. intros a p.
        assert (EU : u16 (number 10 sp mod 2 ^ 64) = number 10 sp mod 2 ^ 64) by (apply Z.mod_small; change (2 ^ 16) with 65536; lia).
        rewrite EU. split.
        -- intros H. injection H as -> <-. split; [reflexivity|]. split; [exact HDN|]. split; [reflexivity|lia].
        -- intros [H (_ & -> & _)]. congruence.
    + eexists. split; [reflexivity|]. intros a p. split; [discriminate|]. intros [_ [HDN _]]. destruct (UNIQ HDN) as [_ E0]. discriminate.
Qed.

(** The accepted texts of IPv4 endpoints: an accepted address, a colon, a port. *)
Theorem endpoint4_parse_exact : forall t hb s, In t ctypes -> text t s -> exists o, endpoint4_from_string hb s = Ok o /\
  forall a p, o = Some (a, p) <-> exists sa sp, s = sa ++ [58] ++ sp /\ ipv4_from_string hb sa = Ok (Some a) /\ port_text sp p.
Proof.
  intros t hb s Ht HT. unfold endpoint4_from_string. cbn [app].
  destruct (last_split 58 s) as [HN|(x & y & -> & HN)].
  - rewrite find_last_of_none by assumption. eexists. split; [reflexivity|]. intros a p. split; [discriminate|].
    intros (sa & sp & -> & _). elim HN. apply in_or_app. right. now left.
  - rewrite find_last_of_last by assumption.
    assert (UNIQ : forall sa sp p, x ++ 58 :: y = sa ++ 58 :: sp -> port_text sp p -> sa = x /\ sp = y).
    { intros sa sp p E [[_ HD] _]. assert (HN' : ~ In 58 sp) by (intros HI; rewrite Forall_forall in HD; specialize (HD _ HI); unfold ascii_digit in HD; lia).
      pose proof (find_last_of_last x y 58 HN) as F1. pose proof (find_last_of_last sa sp 58 HN') as F2. rewrite E, F2 in F1. injection F1 as F1.
      apply (f_equal (firstn (length x))) in E as EF. rewrite <- F1 in EF at 2. rewrite !firstn_app, !Nat.sub_diag, !firstn_all in EF. cbn [firstn] in EF. rewrite !app_nil_r in EF.
      subst sa. apply app_inv_head in E. split; congruence. }
    apply text_app in HT. destruct HT as [HTx HTy]. change (58 :: y) with ([58] ++ y) in HTy. apply text_app in HTy. destruct HTy as [_ HTy].
    destruct (length x) as [|n] eqn:EX.
    + destruct x; [|discriminate]. eexists. split; [reflexivity|]. intros a p. split; [discriminate|].
      intros (sa & sp & E & EA & HP). destruct (UNIQ sa sp p E HP) as [-> _]. discriminate.
    + rewrite <- EX. destruct (Nat.eqb_spec (length x) (length (x ++ 58 :: y))) as [EQ|_]; [rewrite app_length in EQ; cbn [length] in EQ; lia|].
      rewrite substr_prefix. cbn [bind]. rewrite substr_suffix. cbn [bind].
      destruct (ipv4_parse_total t hb x Ht HTx) as (address & EA). rewrite EA. cbn [bind].
      destruct (endpoint_finish_lemma t address y Ht HTy) as (o & E & HS). exists o. split; [exact E|]. intros a p. rewrite HS. split.
      * intros [-> HP]. exists x, y. auto.
      * intros (sa & sp & ES & EA' & HP). destruct (UNIQ sa sp p ES HP) as [-> ->]. split; [congruence|exact HP].
Qed.

(** The same for IPv6, with brackets. *)
Lemma brackets v : starts_with v [91] && ends_with v [93] = true <-> exists inner, v = [91] ++ inner ++ [93].
Proof.
  rewrite andb_true_iff. unfold ends_with. split.
  - intros [HS HE]. destruct v as [|c v]; [discriminate|]. cbn [starts_with] in HS. rewrite andb_true_r in HS. apply Z.eqb_eq in HS. subst c.
    destruct (@exists_last _ (91 :: v) ltac:(discriminate)) as (w & z & EW). rewrite EW, rev_app_distr in HE. cbn [rev app starts_with] in HE.
    rewrite andb_true_r in HE. apply Z.eqb_eq in HE. subst z. destruct w as [|c w]; [discriminate|]. injection EW as <- ->. exists w. reflexivity.
  - intros (inner & ->). split; [reflexivity|]. rewrite app_assoc, rev_app_distr. reflexivity.
Qed.
Theorem endpoint6_parse_exact : forall t s, In t ctypes -> text t s -> exists o, endpoint6_from_string t s = Ok o /\
  forall a p, o = Some (a, p) <-> exists sa sp, s = [91] ++ sa ++ [93; 58] ++ sp /\ ipv6_from_string t sa = Ok (Some a) /\ port_text sp p.
Proof.
  intros t s Ht HT. unfold endpoint6_from_string.
  destruct (last_split 58 s) as [HN|(x & y & -> & HN)].
  - rewrite find_last_of_none by assumption. eexists. split; [reflexivity|]. intros a p. split; [discriminate|].
    intros (sa & sp & -> & _). elim HN. cbn [app]. right. apply in_or_app. right. right. now left.
  - rewrite find_last_of_last by assumption.
    assert (UNIQ : forall sa sp p, x ++ 58 :: y = [91] ++ sa ++ [93; 58] ++ sp -> port_text sp p -> x = [91] ++ sa ++ [93] /\ sp = y).
    { intros sa sp p E [[_ HD] _]. assert (HN' : ~ In 58 sp) by (intros HI; rewrite Forall_forall in HD; specialize (HD _ HI); unfold ascii_digit in HD; lia).
      assert (E' : x ++ 58 :: y = ([91] ++ sa ++ [93]) ++ 58 :: sp) by (rewrite E; cbn [app]; rewrite <- app_assoc; reflexivity). clear E. rename E' into E. set (w := [91] ++ sa ++ [93]) in *. clearbody w.
      pose proof (find_last_of_last x y 58 HN) as F1. pose proof (find_last_of_last w sp 58 HN') as F2. rewrite E, F2 in F1. injection F1 as F1.
      apply (f_equal (firstn (length x))) in E as EF. rewrite <- F1 in EF at 2. rewrite !firstn_app, !Nat.sub_diag, !firstn_all in EF. cbn [firstn] in EF. rewrite !app_nil_r in EF.
      subst w. apply app_inv_head in E. split; congruence. }
    apply text_app in HT. destruct HT as [HTx HTy]. change (58 :: y) with ([58] ++ y) in HTy. apply text_app in HTy. destruct HTy as [_ HTy].
    destruct (length x) as [|n] eqn:EX.
    + destruct x; [|discriminate]. eexists. split; [reflexivity|]. intros a p. split; [discriminate|].
      intros (sa & sp & E & EA & HP). destruct (UNIQ sa sp p E HP) as [EQ _]. discriminate.
    + rewrite <- EX. destruct (Nat.eqb_spec (length x) (length (x ++ 58 :: y))) as [EQ|_]; [rewrite app_length in EQ; cbn [length] in EQ; lia|].
      rewrite substr_prefix. cbn [bind]. rewrite substr_suffix. cbn [bind].
      destruct (starts_with x [91] && ends_with x [93]) eqn:EB.
      * apply brackets in EB. destruct EB as (inner & Ex).
        assert (ES : substr x 1 (Some (length x - 2)%nat) = Ok inner).
        { subst x. unfold substr. rewrite !app_length. cbn [length app]. destruct (Nat.leb_spec 1 (1 + (length inner + 1))); [|lia]. cbn [skipn].
          replace (1 + (length inner + 1) - 2)%nat with (length inner) by lia. now rewrite firstn_app, Nat.sub_diag, firstn_all, app_nil_r. }
        rewrite ES. cbn [bind]. assert (HTi : text t inner) by (subst x; apply text_app in HTx; destruct HTx as [_ HTx]; apply text_app in HTx; tauto).
        destruct (ipv6_accepts_exact t inner [] Ht HTi) as [(address & EA) _]. rewrite EA. cbn [bind].
        destruct (endpoint_finish_lemma t address y Ht HTy) as (o & E & HS). exists o. split; [exact E|]. intros a p. rewrite HS. split.
        -- intros [-> HP]. exists inner, y. split; [|auto]. rewrite Ex. cbn [app]. rewrite <- app_assoc. reflexivity.
        -- intros (sa & sp & Es & EA' & HP). destruct (UNIQ sa sp p Es HP) as [EX' ->]. rewrite Ex in EX'. cbn [app] in EX'. injection EX' as EX'.
           apply app_inv_tail in EX'. subst sa. split; [congruence|exact HP].
      * eexists. split; [reflexivity|]. intros a p. split; [discriminate|]. intros (sa & sp & Es & _ & HP). destruct (UNIQ sa sp p Es HP) as [EX' _].
        assert (X : starts_with x [91] && ends_with x [93] = true) by (apply brackets; eauto). congruence.
Qed.

(** Round trips. *)
Lemma port_round t p : In t ctypes -> 0 <= p < 2 ^ 16 -> exists sp, port_format p = Ok sp /\ port_text sp p /\
  Forall (fun c => char_ok t c /\ 0 <= c) sp /\ (length sp <= 5)%nat.
Proof.
  intros Ht Hp. destruct (plain_format 16 false char_max TDecimal p 10 ltac:(unfold native_int; auto) Hp eq_refl) as (d & E & P).
  assert (EN : (p <? 0) = false) by (apply Z.ltb_ge; lia). rewrite EN in E. rewrite Z.abs_eq in P by lia. cbn [app] in E. exists d. split; [exact E|].
  destruct (positional_decimal p d P) as [[N D] V]. split; [|split].
  - split; [split; assumption|]. split; [|lia]. rewrite V. symmetry. apply Z.mod_small. change (2 ^ 16) with 65536 in Hp. change (2 ^ 64) with 18446744073709551616. lia.
  - eapply Forall_impl; [|exact D]. intros c Hc. apply low_char; [assumption|]. unfold ascii_digit in Hc. lia.
  - apply (positional_digits_small p d 5 P); [change (10 ^ Z.of_nat 5) with 100000; change (2 ^ 16) with 65536 in Hp|]; lia.
Qed.
Theorem endpoint4_round_trip : forall a p, 0 <= a < 2 ^ 32 -> 0 <= p < 2 ^ 16 -> exists s,
  endpoint4_format (a, p) = Ok s /\ endpoint4_from_string false s = Ok (Some (a, p)).
Proof.
  intros a p Ha Hp. assert (Ht : In char_signed ctypes) by (cbn; auto).
  destruct (ipv4_text_shape char_signed a Ht Ha) as (d0 & d1 & d2 & d3 & E & _ & _ & _ & C & L & _).
  destruct (ipv4_round_trip a Ha) as (s & E' & R & _). rewrite E in E'. assert (OI : forall x y : list Z, Ok x = Ok y -> x = y) by congruence. apply OI in E'. rewrite E' in *. clear E'.
  destruct (port_round char_signed p Ht Hp) as (sp & EP & HP & CP & LP).
  exists (s ++ [58] ++ sp). split; [unfold endpoint4_format; cbn [fst snd]; rewrite E, EP; reflexivity|].
  destruct (endpoint4_parse_exact char_signed false (s ++ [58] ++ sp) Ht) as (o & EO & HS).
  { split; [|rewrite !app_length; cbn [length]; change (2 ^ 63) with 9223372036854775808; lia]. apply Forall_app. split; [exact C|]. constructor; [apply low_char; [assumption|lia]|exact CP]. }
  rewrite EO. f_equal. apply HS. exists s, sp. auto.
Qed.
Theorem endpoint6_round_trip : forall t a p, In t ctypes -> address_bytes a -> 0 <= p < 2 ^ 16 -> exists s,
  endpoint6_format (a, p) = Ok s /\ endpoint6_from_string t s = Ok (Some (a, p)).
Proof.
  intros t a p Ht Ha Hp. destruct (ipv6_round_trip t a Ht Ha) as (s & E & R & EP6). destruct (rfc_chars s a t Ht R) as [C L].
  destruct (port_round t p Ht Hp) as (sp & EP & HP & CP & LP).
  exists ([91] ++ s ++ [93; 58] ++ sp). split; [unfold endpoint6_format; cbn [fst snd]; rewrite E, EP; reflexivity|].
  destruct (endpoint6_parse_exact t ([91] ++ s ++ [93; 58] ++ sp) Ht) as (o & EO & HS).
  { split; [|rewrite !app_length; cbn [length]; change (2 ^ 63) with 9223372036854775808; lia]. constructor; [apply low_char; [assumption|lia]|]. apply Forall_app. split; [exact C|].
    constructor; [apply low_char; [assumption|lia]|]. constructor; [apply low_char; [assumption|lia]|exact CP]. }
  rewrite EO. f_equal. apply HS. exists s, sp. auto.
Qed.

(** The defaulted ordering is a strict total order, for both kinds of address. *)
Lemma compare_endpoint_strict {A} (ok : A -> Prop) (cmp : A -> A -> comparison) :
  strict_total ok (fun x y => cmp x y = Lt) -> (forall x y, ok x -> ok y -> (cmp x y = Eq <-> x = y)) ->
  strict_total (fun e => ok (fst e)) (fun x y => compare_endpoint cmp x y = Lt).
Proof.
  intros (HI & HTr & HTo) HE. unfold compare_endpoint. split; [|split].
  - intros [a p] Ha H. cbn [fst snd] in *. destruct (cmp a a) eqn:E; try discriminate; [|now apply (HI a)]. rewrite Z.compare_refl in H. discriminate.
  - intros [a p] [b q] [c r] Ha Hb Hc H1 H2. cbn [fst snd] in *.
    destruct (cmp a b) eqn:E1; try discriminate; destruct (cmp b c) eqn:E2; try discriminate.
    + apply HE in E1; [|assumption|assumption]. apply HE in E2; [|assumption|assumption]. subst b c.
      assert (EQ : cmp a a = Eq) by (apply HE; auto). rewrite EQ. rewrite Z.compare_lt_iff in *. lia.
    + apply HE in E1; [|assumption|assumption]. subst b. now rewrite E2.
    + apply HE in E2; [|assumption|assumption]. subst c. now rewrite E1.
    + now rewrite (HTr a b c Ha Hb Hc E1 E2).
  - intros [a p] [b q] Ha Hb. cbn [fst snd] in *. destruct (HTo a b Ha Hb) as [H|[->|H]]; [left; now rewrite H| |right; right; now rewrite H].
    assert (EQ : cmp b b = Eq) by (apply HE; auto). rewrite EQ. destruct (Z.lt_trichotomy p q) as [H|[->|H]];
      [left; now rewrite Z.compare_lt_iff|now right; left|right; right; now rewrite Z.compare_lt_iff].
Qed.
Lemma compare_bytes_eq a : forall b, compare_bytes a b = Eq <-> a = b.
Proof.
  induction a as [|x a IH]; intros [|y b]; cbn [compare_bytes]; try (split; discriminate); [tauto|].
  destruct (Z.compare_spec x y) as [->|H|H].
  - rewrite IH. split; [now intros ->|intros E; now injection E].
  - split; [discriminate|intros E; injection E; lia].
  - split; [discriminate|intros E; injection E; lia].
Qed.
Lemma compare_bytes_strict : strict_total (fun _ => True) (fun x y => compare_bytes x y = Lt).
Proof.
  split; [|split].
  - intros a _ H. assert (E : compare_bytes a a = Eq) by now apply compare_bytes_eq. congruence.
  - intros x y z _ _ _. revert y z. induction x as [|a x IH]; intros [|b y] [|c z]; cbn [compare_bytes]; try discriminate; auto.
    destruct (Z.compare_spec a b); try discriminate; destruct (Z.compare_spec b c); try discriminate; subst; intros H1 H2.
    + rewrite Z.compare_refl. eauto.
    + apply Z.compare_lt_iff in H0. now rewrite H0.
    + apply Z.compare_lt_iff in H. now rewrite H.
    + assert (HL : a ?= c = Lt) by (apply Z.compare_lt_iff; lia). now rewrite HL.
  - intros x y _ _. revert y. induction x as [|a x IH]; intros [|b y]; cbn [compare_bytes]; auto.
    destruct (Z.compare_spec a b) as [->|H|H]; [|auto|].
    + rewrite Z.compare_refl. destruct (IH y) as [H|[->|H]]; auto.
    + right. right. apply Z.compare_lt_iff in H. now rewrite H.
Qed.
Theorem endpoint_order : 
  strict_total (fun _ : Z * Z => True) (fun x y => compare_endpoint Z.compare x y = Lt) /\
  strict_total (fun _ : list Z * Z => True) (fun x y => compare_endpoint compare_bytes x y = Lt).
Proof.
  split.
  - apply (compare_endpoint_strict (fun _ => True) Z.compare); [|intros; apply Z.compare_eq_iff].
    split; [intros x _ H; rewrite Z.compare_refl in H; discriminate|]. split; [intros x y z _ _ _; rewrite !Z.compare_lt_iff; lia|].
    intros x y _ _. rewrite !Z.compare_lt_iff. lia.
  - apply (compare_endpoint_strict (fun _ => True) compare_bytes compare_bytes_strict). intros. apply compare_bytes_eq.
Qed.
(** The hand-written operator< of the macOS build is not an order: two endpoints, each less than the other. *)
Theorem endpoint_order_macos_refuted : exists x y : Z * Z, macos_less Z.compare x y = true /\ macos_less Z.compare y x = true.
Proof. exists (1, 2), (2, 1). split; reflexivity. Qed.

Example C28_case : endpoint6_format (repeat 0 15 ++ [1], 8080) = Ok [91; 58; 58; 49; 93; 58; 56; 48; 56; 48] (* [::1]:8080 *) /\
  address_bytes (repeat 0 15 ++ [1]) /\ endpoint4_from_string false [49; 58; 54; 53; 53; 51; 54] = Ok None (* 1:65536 *).
Proof.
  split; [vm_compute; reflexivity|]. split; [|vm_compute; reflexivity]. split; [reflexivity|]. cbn [repeat app]. repeat (constructor; [lia|]). constructor.
Qed.

Print Assumptions ipv4_parse_exact.
Print Assumptions ipv4_parse_inet_aton_partial.
Print Assumptions ipv4_parse_total.
Print Assumptions ipv4_host_order.
Print Assumptions ipv4_octets.
Print Assumptions ipv4_format_exact.
Print Assumptions ipv4_round_trip.
Print Assumptions ipv4_big_endian_refuted.
Print Assumptions ipv4_wrap_refuted.
Print Assumptions ipv4_negative_refuted.
Print Assumptions ipv6_accepts_exact.
Print Assumptions ipv6_parse_rfc_partial.
Print Assumptions ipv6_round_trip.
Print Assumptions ipv6_rfc_refuted.
Print Assumptions endpoint4_parse_exact.
Print Assumptions endpoint6_parse_exact.
Print Assumptions endpoint4_round_trip.
Print Assumptions endpoint6_round_trip.
Print Assumptions endpoint_order.
Print Assumptions endpoint_order_macos_refuted.
