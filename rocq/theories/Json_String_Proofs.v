(** C29: string literals. *)
From Verif Require Import Common Bits Unicode_Model Unicode_Spec Unicode_Proofs Format_Model Format_Spec Json_Model Json_Spec.

Definition hexv (c : Z) : option Z :=
  if (48 <=? c) && (c <=? 57) then Some (c - 48)
  else if (65 <=? c) && (c <=? 70) then Some (c - 55)
  else if (97 <=? c) && (c <=? 102) then Some (c - 87)
  else None.
Lemma hexv_spec c v : hexv c = Some v <-> hex_digit c v.
Proof.
  unfold hexv, hex_digit.
  destruct ((48 <=? c) && (c <=? 57)) eqn:E1; [|destruct ((65 <=? c) && (c <=? 70)) eqn:E2; [|destruct ((97 <=? c) && (c <=? 102)) eqn:E3]];
    rewrite ?andb_true_iff, ?andb_false_iff, ?Z.leb_le, ?Z.leb_gt in *;
    (split; [intros H; try discriminate; injection H as <-; lia|]); intros H; try (f_equal; lia); lia.
Qed.
Lemma hex_digit_range c v : hex_digit c v -> 0 <= v < 16.
Proof. unfold hex_digit. lia. Qed.

Lemma unescape_step n acc c r :
  unescape_digits (S n) acc (c :: r) =
  match hexv c with Some d => unescape_digits n (u32 (acc + d * 16 ^ Z.of_nat n)) r | None => (s_invalid_codepoint, c :: r) end.
Proof.
  cbn [unescape_digits].
  assert (E : forall x, Z.shiftl x (4 * Z.of_nat n) = x * 16 ^ Z.of_nat n).
  { intros x. rewrite Z.shiftl_mul_pow2 by lia. f_equal. rewrite Z.pow_mul_r by lia. reflexivity. }
  rewrite !E. unfold hexv. destruct ((48 <=? c) && (c <=? 57)); [reflexivity|].
  destruct ((65 <=? c) && (c <=? 70)); [reflexivity|]. destruct ((97 <=? c) && (c <=? 102)); reflexivity.
Qed.
Lemma unescape_end n acc : unescape_digits (S n) acc [] = (s_invalid_codepoint, []).
Proof. reflexivity. Qed.

Lemma hex4_range h v : hex4 h v -> 0 <= v < 65536.
Proof.
  intros (a & b & c & d & a' & b' & c' & d' & _ & Ha & Hb & Hc & Hd & ->).
  apply hex_digit_range in Ha, Hb, Hc, Hd. lia.
Qed.

Lemma digits4 it :
  (forall h v r, hex4 h v -> it = h ++ r -> unescape_digits 4 0 it = (v, r)) /\
  (forall v r, unescape_digits 4 0 it = (v, r) -> v <> s_invalid_codepoint -> exists h, hex4 h v /\ it = h ++ r).
Proof.
  split.
  - intros h v r (a & b & c & d & a' & b' & c' & d' & -> & Ha & Hb & Hc & Hd & ->) ->. cbn [app].
    pose proof (hex_digit_range _ _ Ha). pose proof (hex_digit_range _ _ Hb). pose proof (hex_digit_range _ _ Hc). pose proof (hex_digit_range _ _ Hd).
    apply hexv_spec in Ha, Hb, Hc, Hd.
    rewrite unescape_step, Ha, unescape_step, Hb, unescape_step, Hc, unescape_step, Hd.
    change (16 ^ Z.of_nat 3) with 4096. change (16 ^ Z.of_nat 2) with 256. change (16 ^ Z.of_nat 1) with 16. change (16 ^ Z.of_nat 0) with 1.
    rewrite (u32_small (0 + a' * 4096)), (u32_small (0 + a' * 4096 + b' * 256)), (u32_small (0 + a' * 4096 + b' * 256 + c' * 16)), u32_small by lia. destruct r; cbn [unescape_digits]; f_equal; lia.
  - intros v r E NV.
    destruct it as [|a it]; [rewrite unescape_end in E; congruence|]. rewrite unescape_step in E.
    destruct (hexv a) as [a'|] eqn:Ha; [|congruence].
    destruct it as [|b it]; [rewrite unescape_end in E; congruence|]. rewrite unescape_step in E.
    destruct (hexv b) as [b'|] eqn:Hb; [|congruence].
    destruct it as [|c it]; [rewrite unescape_end in E; congruence|]. rewrite unescape_step in E.
    destruct (hexv c) as [c'|] eqn:Hc; [|congruence].
    destruct it as [|d it]; [rewrite unescape_end in E; congruence|]. rewrite unescape_step in E.
    destruct (hexv d) as [d'|] eqn:Hd; [|congruence].
    change (16 ^ Z.of_nat 3) with 4096 in E. change (16 ^ Z.of_nat 2) with 256 in E. change (16 ^ Z.of_nat 1) with 16 in E. change (16 ^ Z.of_nat 0) with 1 in E.
    apply hexv_spec in Ha, Hb, Hc, Hd.
    pose proof (hex_digit_range _ _ Ha). pose proof (hex_digit_range _ _ Hb). pose proof (hex_digit_range _ _ Hc). pose proof (hex_digit_range _ _ Hd).
    rewrite (u32_small (0 + a' * 4096)), (u32_small (0 + a' * 4096 + b' * 256)), (u32_small (0 + a' * 4096 + b' * 256 + c' * 16)), u32_small in E by lia.
    assert (EV : v = a' * 4096 + b' * 256 + c' * 16 + d' /\ r = it) by (destruct it; cbn [unescape_digits] in E; split; [|congruence| |congruence]; injection E; lia).
    destruct EV as [-> ->]. exists [a; b; c; d]. split; [|reflexivity].
    exists a, b, c, d, a', b', c', d'. repeat split; assumption.
Qed.
Lemma digits4_ok h v r : hex4 h v -> unescape_digits 4 0 (h ++ r) = (v, r).
Proof. intros H. exact (proj1 (digits4 (h ++ r)) h v r H eq_refl). Qed.
Lemma digits4_inv it v r : unescape_digits 4 0 it = (v, r) -> v <> s_invalid_codepoint -> exists h, hex4 h v /\ it = h ++ r.
Proof. exact (proj2 (digits4 it) v r). Qed.

Lemma prefixed_u r : unescape_prefixed false (92 :: 117 :: r) = unescape_digits 4 0 r.
Proof. reflexivity. Qed.
Lemma prefixed_inv it v r : unescape_prefixed false it = (v, r) -> v <> s_invalid_codepoint ->
  exists h, hex4 h v /\ it = [92; 117] ++ h ++ r.
Proof.
  unfold unescape_prefixed. intros E NV.
  destruct it as [|c it]; [congruence|]. destruct (Z.eqb_spec c 92) as [->|]; cbn [negb] in E; [|congruence].
  destruct it as [|p it]; [congruence|]. destruct (Z.eqb_spec p 117) as [->|]; cbn [negb] in E; [|congruence].
  apply digits4_inv in E; [|assumption]. destruct E as (h & Hh & ->). now exists h.
Qed.

(** What unescape_codepoint accepts after a reverse solidus and 'u'. *)
Definition unicode_escape (r s it' : list Z) : Prop :=
  (exists h v, hex4 h v /\ scalar v /\ r = h ++ it' /\ s = utf8 v) \/
  (exists h l hv lv v, hex4 h hv /\ hex4 l lv /\ 0x10000 <= v <= 0x10ffff /\
     hv = 0xd800 + (v - 0x10000) / 1024 /\ lv = 0xdc00 + (v - 0x10000) mod 1024 /\
     r = h ++ [92; 117] ++ l ++ it' /\ s = utf8 v).

Lemma encode_utf8 sg v s : 0 <= v -> (encode_codepoint (U8 sg) v = Some s <-> scalar v /\ s = utf8 v).
Proof.
  intros Hv. unfold encode_codepoint. destruct (validate_codepoint v) eqn:E.
  - apply validate_scalar in E; [|assumption]. rewrite encode_form by assumption. cbn [form]. split; [intros H; injection H as <-; auto|intros [_ ->]; reflexivity].
  - split; [discriminate|]. intros [H _]. apply validate_scalar in H; [congruence|assumption].
Qed.

Lemma unescape_codepoint_iff sg r s it' :
  unescape_codepoint (U8 sg) (92 :: 117 :: r) = (Some s, it') <-> unicode_escape r s it'.
Proof.
  unfold unescape_codepoint. change (escaped_with (92 :: 117 :: r) 117) with true. cbv iota.
  unfold create_codepoint_from_surrogates. rewrite prefixed_u.
  unfold is_high_surrogate, is_low_surrogate, s_high_surrogate_min, s_high_surrogate_max, s_low_surrogate_min, s_low_surrogate_max.
  split.
  - destruct (unescape_digits 4 0 r) as [hv it1] eqn:E1. intros E.
    assert (NI : encode_codepoint (U8 sg) s_invalid_codepoint = None) by reflexivity.
    destruct ((hv >=? 55296) && (hv <=? 56319)) eqn:EH.
    + rewrite andb_true_iff, Z.geb_le, Z.leb_le in EH.
      destruct (unescape_prefixed false it1) as [lv it2] eqn:E2.
      destruct ((lv >=? 56320) && (lv <=? 57343)) eqn:EL.
      2: { rewrite NI in E. congruence. }
      rewrite andb_true_iff, Z.geb_le, Z.leb_le in EL.
      rewrite surrogates_ok in E by lia.
      apply digits4_inv in E1; [|unfold s_invalid_codepoint; lia]. destruct E1 as (h & Hh & ->).
      apply prefixed_inv in E2; [|unfold s_invalid_codepoint; lia]. destruct E2 as (l & Hl & ->).
      assert (EV : encode_codepoint (U8 sg) (65536 + (hv - 55296) * 1024 + (lv - 56320)) = Some s /\ it2 = it') by (split; congruence).
      destruct EV as [EV ->]. apply encode_utf8 in EV; [|lia]. destruct EV as [_ ->].
      right. exists h, l, hv, lv, (65536 + (hv - 55296) * 1024 + (lv - 56320)).
      split; [assumption|]. split; [assumption|]. split; [lia|]. split; [dlia|]. split; [dlia|]. split; reflexivity.
    + destruct ((hv >=? 56320) && (hv <=? 57343)) eqn:EL; [rewrite NI in E; congruence|].
      assert (EV : encode_codepoint (U8 sg) hv = Some s /\ it1 = it') by (split; congruence). destruct EV as [EV ->].
      apply digits4_inv in E1; [|intros ->; rewrite NI in EV; discriminate]. destruct E1 as (h & Hh & ->).
      pose proof (hex4_range _ _ Hh). apply encode_utf8 in EV; [|lia]. destruct EV as [HS ->].
      left. exists h, hv. auto.
  - intros [(h & v & Hh & HS & -> & ->)|(h & l & hv & lv & v & Hh & Hl & Hv & EH & EL & -> & ->)].
    + rewrite (digits4_ok _ _ _ Hh). pose proof (hex4_range _ _ Hh) as HR. pose proof HS as HS'. unfold scalar in HS.
      replace ((v >=? 55296) && (v <=? 56319)) with false by (zb; reflexivity).
      replace ((v >=? 56320) && (v <=? 57343)) with false by (zb; reflexivity).
      f_equal. apply encode_utf8; [lia|auto].
    + rewrite (digits4_ok _ _ _ Hh). assert (55296 <= hv <= 56319) by dlia. assert (56320 <= lv <= 57343) by dlia.
      replace ((hv >=? 55296) && (hv <=? 56319)) with true by (zb; reflexivity).
      cbn [app]. rewrite prefixed_u, (digits4_ok _ _ _ Hl).
      replace ((lv >=? 56320) && (lv <=? 57343)) with true by (zb; reflexivity).
      rewrite surrogates_ok by lia. f_equal. apply encode_utf8; [lia|].
      replace (65536 + (hv - 55296) * 1024 + (lv - 56320)) with v by dlia. split; [unfold scalar; lia|reflexivity].
Qed.

Lemma simple_escape_iff e c : simple_escape e = Some c <-> In (e, c) escapes.
Proof.
  unfold simple_escape, escapes. cbn [In]. split.
  - destruct (Z.eqb_spec e 34); [intros H; injection H; intros; subst; auto 10|].
    destruct (Z.eqb_spec e 92); [intros H; injection H; intros; subst; auto 10|].
    destruct (Z.eqb_spec e 47); [intros H; injection H; intros; subst; auto 10|]. cbn [orb].
    destruct (Z.eqb_spec e 98); [intros H; injection H; intros; subst; auto 10|].
    destruct (Z.eqb_spec e 102); [intros H; injection H; intros; subst; auto 10|].
    destruct (Z.eqb_spec e 110); [intros H; injection H; intros; subst; auto 10|].
    destruct (Z.eqb_spec e 114); [intros H; injection H; intros; subst; auto 10|].
    destruct (Z.eqb_spec e 116); [intros H; injection H; intros; subst; auto 10|]. discriminate.
  - intros H. decompose [or] H; try contradiction; match goal with E : (_, _) = (_, _) |- _ => injection E as <- <- end; reflexivity.
Qed.
Lemma escapes_not_u c : ~ In (117, c) escapes.
Proof. rewrite <- simple_escape_iff. discriminate. Qed.

Definition byte (u : Z) : Prop := 0 <= u < 256.

Lemma char_value_ctrl sg c : byte c -> ((char_value sg c >=? 0) && (char_value sg c <? 32)) = (c <? 32).
Proof.
  unfold byte. intros H. unfold char_value. destruct sg.
  - unfold signed. change (2 ^ 8) with 256. change (2 ^ (8 - 1)) with 128. rewrite Z.mod_small by lia. cbv zeta.
    destruct (Z.ltb_spec c 128).
    + replace (c >=? 0) with true by (symmetry; apply Z.geb_le; lia). reflexivity.
    + replace (c - 256 >=? 0) with false by (symmetry; rewrite Z.geb_leb; apply Z.leb_gt; lia). cbn [andb]. symmetry. apply Z.ltb_ge. lia.
  - replace (c >=? 0) with true by (symmetry; apply Z.geb_le; lia). reflexivity.
Qed.

Lemma option_map_some {A B} (f : A -> B) o b : option_map f o = Some b -> exists a, o = Some a /\ b = f a.
Proof. destruct o as [a|]; cbn; intros H; [|discriminate]. injection H as <-. eauto. Qed.

Lemma validate_string_sound sg : forall fuel it s, Forall byte it -> validate_string fuel sg it = Some s -> literal it s.
Proof.
  induction fuel as [|fuel IH]; intros it s HB E.
  - destruct it; [|discriminate]. injection E as <-. constructor.
  - destruct it as [|ch r]; [injection E as <-; constructor|]. cbn [validate_string] in E.
    inversion HB as [|? ? Hc Hr]; subst.
    destruct (Z.eqb_spec ch 92) as [->|N92].
    + destruct r as [|e r']; [discriminate|]. inversion Hr as [|? ? He Hr']; subst.
      destruct (simple_escape e) as [c|] eqn:ES.
      * apply option_map_some in E. destruct E as (t & E & ->). apply IH in E; [|assumption].
        apply lit_escape; [now apply simple_escape_iff|assumption].
      * destruct (Z.eqb_spec e 117) as [->|]; [|discriminate].
        destruct (unescape_codepoint (U8 sg) (92 :: 117 :: r')) as [[s1|] it'] eqn:EU; [|discriminate].
        apply option_map_some in E. destruct E as (t & E & ->).
        apply unescape_codepoint_iff in EU. destruct EU as [(h & v & Hh & HS & -> & ->)|(h & l & hv & lv & v & Hh & Hl & Hv & EH & EL & -> & ->)].
        -- apply IH in E; [|now apply Forall_app in Hr']. now apply (lit_unicode h v).
        -- apply IH in E; [|apply Forall_app in Hr'; destruct Hr' as [_ Hr']; apply Forall_app in Hr'; destruct Hr' as [_ Hr']; now apply Forall_app in Hr'].
           change (92 :: 117 :: h ++ [92; 117] ++ l ++ it') with ([92; 117] ++ h ++ [92; 117] ++ l ++ it').
           now apply (lit_surrogates h l hv lv v).
    + rewrite char_value_ctrl in E by assumption. destruct (Z.ltb_spec ch 32); [discriminate|].
      destruct (Z.eqb_spec ch 34); [discriminate|]. apply option_map_some in E. destruct E as (t & E & ->).
      apply IH in E; [|assumption]. now constructor.
Qed.

Lemma hex4_length h v : hex4 h v -> length h = 4%nat.
Proof. intros (a & b & c & d & a' & b' & c' & d' & -> & _). reflexivity. Qed.

Lemma validate_string_complete sg it s : literal it s -> forall fuel, Forall byte it -> (length it <= fuel)%nat ->
  validate_string fuel sg it = Some s.
Proof.
  induction 1 as [|c w s H1 H2 H3 HL IH|e c w s HI HL IH|h v w s Hh HS HL IH|h l hv lv v w s Hh Hl Hv EH EL HL IH];
    intros fuel HB HF.
  - destruct fuel; reflexivity.
  - destruct fuel as [|fuel]; [cbn in HF; lia|]. cbn [validate_string]. inversion HB as [|? ? Hc Hr]; subst.
    destruct (Z.eqb_spec c 92); [contradiction|]. rewrite char_value_ctrl by assumption.
    destruct (Z.ltb_spec c 32); [lia|]. destruct (Z.eqb_spec c 34); [contradiction|].
    rewrite IH; [reflexivity|assumption|cbn [length] in HF; lia].
  - destruct fuel as [|fuel]; [cbn in HF; lia|]. cbn [validate_string]. change (92 =? 92) with true. cbv iota.
    apply simple_escape_iff in HI. rewrite HI. inversion HB as [|? ? _ HB']; subst. inversion HB' as [|? ? _ HB2]; subst.
    rewrite IH; [reflexivity|assumption|cbn [length] in HF; lia].
  - cbn [app] in *. destruct fuel as [|fuel]; [cbn in HF; lia|]. cbn [validate_string]. change (92 =? 92) with true. cbv iota.
    change (simple_escape 117) with (@None Z). change (117 =? 117) with true. cbv iota.
    assert (EU : unescape_codepoint (U8 sg) (92 :: 117 :: h ++ w) = (Some (utf8 v), w)) by (apply unescape_codepoint_iff; left; exists h, v; auto).
    rewrite EU. inversion HB as [|? ? _ HB']; subst. inversion HB' as [|? ? _ HB2]; subst. apply Forall_app in HB2.
    rewrite IH; [reflexivity|tauto|cbn [length] in HF; rewrite app_length in HF; lia].
  - cbn [app] in *. destruct fuel as [|fuel]; [cbn in HF; lia|]. cbn [validate_string]. change (92 =? 92) with true. cbv iota.
    change (simple_escape 117) with (@None Z). change (117 =? 117) with true. cbv iota.
    assert (EU : unescape_codepoint (U8 sg) (92 :: 117 :: h ++ 92 :: 117 :: l ++ w) = (Some (utf8 v), w)).
    { apply unescape_codepoint_iff; right. exists h, l, hv, lv, v. repeat (split; [assumption|]). split; reflexivity. }
    rewrite EU. inversion HB as [|? ? _ HB']; subst. inversion HB' as [|? ? _ HB2]; subst. apply Forall_app in HB2. destruct HB2 as [_ HB2].
    inversion HB2 as [|? ? _ HB3]; subst. inversion HB3 as [|? ? _ HB4]; subst. apply Forall_app in HB4.
    rewrite IH; [reflexivity|tauto|cbn [length] in HF; rewrite app_length in HF; cbn [length] in HF; rewrite app_length in HF; lia].
Qed.

Lemma utf8_text_valid sg s : utf8_text s <-> valid (U8 sg) s.
Proof. reflexivity. Qed.
Lemma utf8_text_bytes s : utf8_text s -> Forall byte s.
Proof. intros (cs & HF & ->). exact (text_units (U8 true) cs HF). Qed.

Lemma construct_iff sg w s : Forall byte w -> (convert_to_string sg w = Some s <-> utf8_text w /\ literal w s).
Proof.
  intros HB. unfold convert_to_string.
  assert (EV : validate (U8 sg) w = true <-> utf8_text w) by (apply (validate_iff (U8 sg)); exact HB).
  destruct (validate (U8 sg) w).
  - split.
    + intros E. split; [now apply EV|]. now apply (validate_string_sound sg (length w)).
    + intros [_ HL]. now apply validate_string_complete.
  - split; [discriminate|]. intros [H _]. apply EV in H. discriminate.
Qed.


(** The result is again well-formed UTF-8. *)
Lemma utf8_cons v s : scalar v -> utf8_text s -> utf8_text (utf8 v ++ s).
Proof. intros Hv (cs & HF & ->). exists (v :: cs). split; [now constructor|reflexivity]. Qed.
Lemma utf8_nonempty x : utf8 x <> [].
Proof. exact (form_nonempty (U8 true) x). Qed.

Definition ascii (c : Z) : Prop := 0 <= c < 128.
Lemma ascii_head c r cs : Forall scalar cs -> ascii c -> c :: r = flat_map utf8 cs ->
  exists cs', cs = c :: cs' /\ r = flat_map utf8 cs'.
Proof.
  unfold ascii. intros HF Hc E. destruct HF as [|x cs Hx HF]; [discriminate|]. cbn [flat_map] in E.
  assert (D : decode_codepoint (U8 true) (c :: r) = (Some c, r)).
  { pose proof (decode_form (U8 true) c r) as D. rewrite form_ascii in D by lia. cbn [app] in D. apply D.
    - assert (HB : Forall byte (c :: r)). { rewrite E. exact (text_units (U8 true) (x :: cs) (Forall_cons _ Hx HF)). }
      now inversion HB.
    - unfold scalar. lia.
    - constructor; [unfold unit_ok; change (2 ^ 8) with 256; lia|constructor]. }
  rewrite E in D. change (utf8 x) with (form (U8 true) x) in D.
  rewrite decode_form in D; [|exact (text_units (U8 true) cs HF)|assumption|now apply form_units].
  assert (EX : x = c /\ flat_map utf8 cs = r) by (split; congruence). destruct EX as [-> <-]. now exists cs.
Qed.
Lemma ascii_prefix : forall a r cs, Forall scalar cs -> Forall ascii a -> a ++ r = flat_map utf8 cs ->
  exists cs', cs = a ++ cs' /\ r = flat_map utf8 cs'.
Proof.
  induction a as [|c a IH]; intros r cs HF Ha E; [exists cs; auto|]. inversion Ha; subst. cbn [app] in E.
  destruct (ascii_head c (a ++ r) cs HF) as (cs' & -> & E'); auto. inversion HF; subst.
  destruct (IH r cs') as (cs2 & -> & E2); auto. now exists cs2.
Qed.
Lemma hex4_ascii h v : hex4 h v -> Forall ascii h.
Proof.
  intros (a & b & c & d & a' & b' & c' & d' & -> & Ha & Hb & Hc & Hd & _). unfold hex_digit, ascii in *.
  repeat (constructor; [lia|]). constructor.
Qed.
Lemma literal_high : forall t w s, Forall (fun u => 128 <= u) t -> literal (t ++ w) s -> exists s', s = t ++ s' /\ literal w s'.
Proof.
  induction t as [|u t IHt]; intros w s Ht HL; [now exists s|]. inversion Ht; subst. cbn [app] in HL.
  inversion HL; subst; [|lia|lia|lia].
  match goal with H : literal (t ++ w) _ |- _ => apply IHt in H; [|assumption] end.
  match goal with H : exists _, _ |- _ => destruct H as (s' & -> & ?) end. now exists s'.
Qed.
Lemma utf8_high x : 128 <= x -> Forall (fun u => 128 <= u) (utf8 x).
Proof.
  intros Hx. unfold utf8. destruct (Z.ltb_spec x 128); [lia|].
  pose proof (Z.mod_pos_bound x 64 ltac:(lia)). pose proof (Z.mod_pos_bound (x / 64) 64 ltac:(lia)). pose proof (Z.mod_pos_bound (x / 4096) 64 ltac:(lia)).
  assert (0 <= x / 64) by dlia. assert (0 <= x / 4096) by dlia. assert (0 <= x / 262144) by dlia.
  destruct (x <? 2048); [|destruct (x <? 65536)]; repeat (constructor; [lia|]); constructor.
Qed.
Lemma utf8_ascii x : ascii x -> utf8 x = [x].
Proof. unfold ascii, utf8. intros H. destruct (Z.ltb_spec x 128); [reflexivity|lia]. Qed.
Lemma escape_ascii e c : In (e, c) escapes -> ascii e /\ ascii c.
Proof.
  unfold escapes, ascii. cbn [In]. intros H. decompose [or] H; try contradiction; match goal with E : (_, _) = (_, _) |- _ => injection E as <- <- end; lia.
Qed.

Lemma literal_text : forall n cs s, (length cs <= n)%nat -> Forall scalar cs -> literal (flat_map utf8 cs) s -> utf8_text s.
Proof.
  induction n as [|n IH]; intros cs s HL HF H.
  - destruct cs; [|cbn in HL; lia]. inversion H; subst. exists []. split; [constructor|reflexivity].
  - destruct HF as [|x cs Hx HF]; [inversion H; subst; exists []; split; [constructor|reflexivity]|].
    cbn [length] in HL. destruct (Z.ltb_spec x 128) as [Hl|Hl].
    + assert (Ax : ascii x) by (unfold ascii; unfold scalar in Hx; lia).
      cbn [flat_map] in H. rewrite utf8_ascii in H by assumption. cbn [app] in H.
      inversion H as [|c w t H1 H2 H3 HL' E1 E2|e c w t HI HL' E1 E2|h v w t Hh HS HL' E1 E2|h l hv lv v w t Hh Hlo Hv EH EL HL' E1 E2]; subst.
      * change (x :: t) with ([x] ++ t). rewrite <- (utf8_ascii x) by assumption. apply utf8_cons; [assumption|]. apply (IH cs); [lia|assumption|assumption].
      * match goal with E : _ = flat_map utf8 cs |- _ => rename E into EQ end. destruct (escape_ascii _ _ HI) as [Ae Ac]. destruct (ascii_head e w cs HF Ae EQ) as (cs' & -> & ->).
        change (c :: t) with ([c] ++ t). rewrite <- (utf8_ascii c) by assumption. inversion HF; subst. cbn [length] in HL.
        apply utf8_cons; [unfold ascii in Ac; unfold scalar; lia|]. apply (IH cs'); [lia|assumption|assumption].
      * match goal with E : _ = flat_map utf8 cs |- _ => rename E into EQ end. destruct (ascii_prefix (117 :: h) w cs HF) as (cs' & -> & ->); [constructor; [unfold ascii; lia|now apply (hex4_ascii h v)]|assumption|].
        apply Forall_app in HF. rewrite app_length in HL. apply utf8_cons; [assumption|]. apply (IH cs'); [lia|tauto|assumption].
      * match goal with E : _ = flat_map utf8 cs |- _ => rename E into EQ end. destruct (ascii_prefix ((117 :: h) ++ [92; 117] ++ l) w cs HF) as (cs' & -> & ->).
        { apply Forall_app. split; [constructor; [unfold ascii; lia|now apply (hex4_ascii h _ Hh)]|].
          apply Forall_app. split; [repeat (constructor; [unfold ascii; lia|]); constructor|now apply (hex4_ascii l _ Hlo)]. }
        { rewrite <- !app_assoc. exact EQ. }
        apply Forall_app in HF. rewrite app_length in HL. apply utf8_cons; [unfold scalar; lia|]. apply (IH cs'); [lia|tauto|assumption].
    + cbn [flat_map] in H. apply literal_high in H; [|now apply utf8_high]. destruct H as (s' & -> & H).
      apply utf8_cons; [assumption|]. apply (IH cs); [lia|assumption|assumption].
Qed.
Lemma construct_text sg w s : Forall byte w -> convert_to_string sg w = Some s -> utf8_text s.
Proof.
  intros HB E. apply construct_iff in E; [|assumption]. destruct E as [(cs & HF & ->) HL]. exact (literal_text (length cs) cs s (le_n _) HF HL).
Qed.

(** * Serialization *)
Definition short_escape (c : Z) : option Z :=
  if c =? 34 then Some 34 else if c =? 92 then Some 92 else if c =? 8 then Some 98 else if c =? 12 then Some 102
  else if c =? 10 then Some 110 else if c =? 13 then Some 114 else if c =? 9 then Some 116 else None.
Definition escaped (c : Z) : list Z := match short_escape c with Some e => [92; e] | None => escape_codepoint false c end.

Lemma write_escaped sg c rest : scalar c -> Forall byte rest ->
  write_escaped_character sg (utf8 c ++ rest) = Ok (escaped c, rest).
Proof.
  intros Hc HR. unfold escaped.
  assert (ASC : forall k, 0 <= k < 128 -> c = k -> utf8 c ++ rest = k :: rest).
  { intros k Hk ->. now rewrite utf8_ascii by exact Hk. }
  destruct (short_escape c) as [e|] eqn:ES.
  - unfold short_escape in ES.
    destruct (Z.eqb_spec c 34); [rewrite (ASC 34) by lia; now injection ES as <-|].
    destruct (Z.eqb_spec c 92); [rewrite (ASC 92) by lia; now injection ES as <-|].
    destruct (Z.eqb_spec c 8); [rewrite (ASC 8) by lia; now injection ES as <-|].
    destruct (Z.eqb_spec c 12); [rewrite (ASC 12) by lia; now injection ES as <-|].
    destruct (Z.eqb_spec c 10); [rewrite (ASC 10) by lia; now injection ES as <-|].
    destruct (Z.eqb_spec c 13); [rewrite (ASC 13) by lia; now injection ES as <-|].
    destruct (Z.eqb_spec c 9); [rewrite (ASC 9) by lia; now injection ES as <-|]. discriminate.
  - pose proof (decode_form (U8 sg) c rest HR Hc (form_units (U8 sg) c Hc)) as D. change (form (U8 sg) c) with (utf8 c) in D.
    destruct (utf8 c) as [|h t] eqn:EU; [now apply utf8_nonempty in EU|]. cbn [app] in *. unfold write_escaped_character.
    assert (HN : forall k, 0 <= k < 128 -> h = k -> c = k).
    { intros k Hk ->. destruct (Z.ltb_spec c 128) as [L|L].
      - rewrite utf8_ascii in EU by (unfold ascii; unfold scalar in Hc; lia). congruence.
      - pose proof (utf8_high c L) as HH. rewrite EU in HH. inversion HH; subst. lia. }
    unfold short_escape in ES. 
    destruct (Z.eqb_spec h 34) as [Eh|_]; [apply HN in Eh; [subst c; discriminate ES|lia]|].
    destruct (Z.eqb_spec h 92) as [Eh|_]; [apply HN in Eh; [subst c; discriminate ES|lia]|].
    destruct (Z.eqb_spec h 8) as [Eh|_]; [apply HN in Eh; [subst c; discriminate ES|lia]|].
    destruct (Z.eqb_spec h 12) as [Eh|_]; [apply HN in Eh; [subst c; discriminate ES|lia]|].
    destruct (Z.eqb_spec h 10) as [Eh|_]; [apply HN in Eh; [subst c; discriminate ES|lia]|].
    destruct (Z.eqb_spec h 13) as [Eh|_]; [apply HN in Eh; [subst c; discriminate ES|lia]|].
    destruct (Z.eqb_spec h 9) as [Eh|_]; [apply HN in Eh; [subst c; discriminate ES|lia]|].
    now rewrite D.
Qed.

Lemma escape_string_text sg : forall cs fuel, Forall scalar cs -> (length cs <= fuel)%nat ->
  escape_string fuel sg (flat_map utf8 cs) = Ok (flat_map escaped cs).
Proof.
  induction cs as [|c cs IH]; intros fuel HF HL; [destruct fuel; reflexivity|]. inversion HF; subst.
  destruct fuel as [|fuel]; [cbn in HL; lia|]. cbn [flat_map].
  destruct (utf8 c ++ flat_map utf8 cs) as [|h t] eqn:EU.
  { apply app_eq_nil in EU. destruct EU as [EU _]. now apply utf8_nonempty in EU. }
  cbn [escape_string]. rewrite <- EU. rewrite write_escaped; [|assumption|exact (text_units (U8 true) cs ltac:(assumption))].
  cbn [bind]. rewrite IH; [reflexivity|assumption|cbn [length] in HL; lia].
Qed.

Lemma escaped_printable c : scalar c -> Forall printable (escaped c).
Proof.
  intros Hc. unfold escaped. destruct (short_escape c) as [e|] eqn:E; [|now apply escape_printable].
  assert (printable e).
  { unfold short_escape in E. unfold printable.
    repeat match type of E with (if ?b then _ else _) = _ => destruct b; [injection E as <-; lia|] end. discriminate. }
  constructor; [unfold printable; lia|]. constructor; [assumption|constructor].
Qed.

Lemma hexd_digit d : 0 <= d < 16 -> hex_digit (hexd d) d.
Proof. intros H. unfold hex_digit. destruct (hexd_cases d H) as [[? ->]|[? ->]]; lia. Qed.
Lemma to_hex4 v : 0 <= v < 65536 -> hex4 (to_hex 4 v) v.
Proof.
  intros Hv. rewrite !to_hex_step. cbn [to_hex].
  change (16 ^ Z.of_nat 3) with 4096. change (16 ^ Z.of_nat 2) with 256. change (16 ^ Z.of_nat 1) with 16. change (16 ^ Z.of_nat 0) with 1.
  exists (hexd (v / 4096 mod 16)), (hexd (v / 256 mod 16)), (hexd (v / 16 mod 16)), (hexd (v / 1 mod 16)),
    (v / 4096 mod 16), (v / 256 mod 16), (v / 16 mod 16), (v / 1 mod 16).
  split; [reflexivity|]. repeat (split; [apply hexd_digit, Z.mod_pos_bound; lia|]). dlia.
Qed.
Lemma escaped_literal c w s : scalar c -> literal w s -> literal (escaped c ++ w) (utf8 c ++ s).
Proof.
  intros Hc HL. unfold escaped. destruct (short_escape c) as [e|] eqn:E.
  - assert (IN : In (e, c) escapes /\ ascii c).
    { unfold short_escape in E. unfold escapes, ascii. cbn [In].
      repeat match type of E with (if ?c =? ?k then _ else _) = _ => destruct (Z.eqb_spec c k); [injection E as <-; subst c; split; [auto 10|lia]|] end. discriminate. }
    destruct IN as [IN A]. rewrite utf8_ascii by assumption. cbn [app]. now apply lit_escape.
  - destruct (needs_escape c) eqn:EN.
    + unfold escape_codepoint. fold (needs_escape c). rewrite EN. unfold scalar in Hc. destruct (Z.leb_spec c 65535).
      * rewrite <- app_assoc. apply lit_unicode; [apply to_hex4; lia|unfold scalar; lia|assumption].
      * destruct (surrogate_parts c ltac:(lia)) as [-> ->]. rewrite <- !app_assoc.
        apply (lit_surrogates _ _ (0xd800 + (c - 0x10000) / 1024) (0xdc00 + (c - 0x10000) mod 1024)); [apply to_hex4; dlia|apply to_hex4; dlia|lia|reflexivity|reflexivity|assumption].
    + rewrite escape_plain by assumption. apply plain_range in EN. rewrite utf8_ascii by (unfold ascii; lia). cbn [app].
      constructor; [lia| | |assumption]; intros ->; discriminate E.
Qed.
Lemma escaped_all_literal cs : Forall scalar cs -> literal (flat_map escaped cs) (flat_map utf8 cs).
Proof.
  induction 1 as [|c cs Hc HF IH]; [constructor|]. cbn [flat_map]. now apply escaped_literal.
Qed.

(** serialize_string writes a printable ASCII literal of the value. *)
Lemma serialize_string_spec sg s : utf8_text s -> exists w, serialize_string sg s = Ok ([34] ++ w ++ [34]) /\
  Forall printable w /\ literal w s.
Proof.
  intros (cs & HF & ->). exists (flat_map escaped cs). unfold serialize_string.
  rewrite escape_string_text; [|assumption|exact (text_length (U8 true) cs)]. split; [reflexivity|].
  split; [|now apply escaped_all_literal].
  induction HF as [|c cs Hc _ IH]; [constructor|]. cbn [flat_map]. apply Forall_app. split; [now apply escaped_printable|assumption].
Qed.
Lemma printable_utf8 w : Forall printable w -> utf8_text w.
Proof.
  intros H. exists w. split.
  - eapply Forall_impl; [|exact H]. intros c Hc. unfold printable in Hc. unfold scalar. lia.
  - induction H as [|c w Hc _ IH]; [reflexivity|]. cbn [flat_map]. rewrite <- IH. rewrite utf8_ascii; [reflexivity|]. unfold printable in Hc. unfold ascii. lia.
Qed.
