(** Proofs about the integer formatter. *)
From Verif Require Import Common Bits Lexer_Model Lexer_Spec Lexer_Props Format_Model Format_Spec.

Lemma digit_char_spec base d : 2 <= base <= 36 -> 0 <= d < base ->
  digit_of base false (digit_char d) /\ value_of_digit (digit_char d) = d /\ (digit_char d = 48 -> d = 0).
Proof.
  intros Hb Hd. unfold digit_char, digit_of, value_of_digit. destruct (Z.ltb_spec d 10).
  - destruct (Z.leb_spec (48 + d) 57); [|lia]. repeat split; lia.
  - destruct (Z.leb_spec (87 + d) 57); [lia|]. destruct (Z.leb_spec (87 + d) 90); [lia|]. repeat split; lia.
Qed.

Lemma value_of_digit_range base up c : digit_of base up c -> 0 <= value_of_digit c < base.
Proof.
  unfold digit_of, value_of_digit. intros H.
  destruct (Z.leb_spec c 57), (Z.leb_spec c 90), up; lia.
Qed.

Lemma positional_value_app base a b : 0 <= base ->
  positional_value base (a ++ b) = positional_value base a * base ^ Z.of_nat (length b) + positional_value base b.
Proof.
  intros Hb. induction a as [|c a IH]; [cbn; lia|]. cbn [app positional_value].
  rewrite IH, app_length, Nat2Z.inj_add, Z.pow_add_r by lia. lia.
Qed.

Lemma positional_bound base up s : 2 <= base -> Forall (digit_of base up) s ->
  0 <= positional_value base s < base ^ Z.of_nat (length s).
Proof.
  intros Hb H. induction H as [|c s Hc Hs IH]; [cbn; lia|]. cbn [positional_value length].
  rewrite Nat2Z.inj_succ, Z.pow_succ_r by lia. apply value_of_digit_range in Hc.
  assert (0 < base ^ Z.of_nat (length s)) by (apply Z.pow_pos_nonneg; lia).
  assert (0 <= value_of_digit c * base ^ Z.of_nat (length s)) by (apply Z.mul_nonneg_nonneg; lia).
  assert (value_of_digit c * base ^ Z.of_nat (length s) <= (base - 1) * base ^ Z.of_nat (length s)) by (apply Z.mul_le_mono_nonneg_r; lia).
  lia.
Qed.

Lemma value_of_digit_inj base up c c' : digit_of base up c -> digit_of base up c' ->
  value_of_digit c = value_of_digit c' -> c = c'.
Proof.
  unfold digit_of, value_of_digit. intros H H'.
  destruct (Z.leb_spec c 57), (Z.leb_spec c 90), (Z.leb_spec c' 57), (Z.leb_spec c' 90), up; lia.
Qed.

Lemma positional_same_length base up s : 2 <= base -> forall s', length s = length s' ->
  Forall (digit_of base up) s -> Forall (digit_of base up) s' ->
  positional_value base s = positional_value base s' -> s = s'.
Proof.
  intros Hb. induction s as [|c s IH]; intros [|c' s'] HL H H' E; try discriminate; [reflexivity|].
  cbn [length positional_value] in *. injection HL as HL. inversion H as [|? ? Hc Hs]; subst. inversion H' as [|? ? Hc' Hs']; subst.
  pose proof (positional_bound base up s Hb Hs) as B. pose proof (positional_bound base up s' Hb Hs') as B'.
  rewrite <- HL in *. set (P := base ^ Z.of_nat (length s)) in *.
  assert (EV : value_of_digit c = value_of_digit c' /\ positional_value base s = positional_value base s').
  { apply (Z.div_mod_unique P); lia. }
  destruct EV as [EV EP]. f_equal; [eapply value_of_digit_inj; eauto|now apply IH].
Qed.

Lemma positional_unique_lemma base up v s s' : 2 <= base -> positional base up v s -> positional base up v s' -> s = s'.
Proof.
  intros Hb (F & V & N & L) (F' & V' & N' & L').
  assert (G : forall x y, positional base up v x -> positional base up v y -> (length x < length y)%nat -> False).
  { clear. intros x y (F & V & N & L) (F' & V' & N' & L') HL.
    destruct (Z.ltb_spec base 2) as [Hb|Hb].
    { destruct x as [|c x]; [congruence|]. inversion F as [|? ? Hc _]; subst. destruct y as [|c' y]; [congruence|].
      inversion F' as [|? ? Hc' HF']; subst. apply value_of_digit_range in Hc. cbn in HL, L'.
      destruct L' as [L'|L'].
      - lia.
      - unfold digit_of in Hc'. destruct up; lia. }
    pose proof (positional_bound base up x Hb F) as B.
    destruct y as [|c y]; [congruence|]. inversion F' as [|? ? Hc Hy]; subst. cbn [length] in *. cbn [positional_value] in V'.
    destruct x as [|c0 x]; [congruence|]. cbn [length] in *.
    destruct L' as [L'|L']; [lia|]. cbn [hd] in L'.
    pose proof (positional_bound base up y Hb Hy) as B'.
    assert (1 <= value_of_digit c).
    { apply value_of_digit_range in Hc as R. unfold digit_of in Hc. unfold value_of_digit in *. destruct (Z.leb_spec c 57); [lia|]. destruct (Z.leb_spec c 90); destruct up; lia. }
    assert (base ^ Z.of_nat (S (length x)) <= base ^ Z.of_nat (length y)) by (apply Z.pow_le_mono_r; lia).
    assert (1 * base ^ Z.of_nat (length y) <= value_of_digit c * base ^ Z.of_nat (length y)).
    { apply Z.mul_le_mono_nonneg_r; [apply Z.pow_nonneg|]; lia. }
    lia. }
  destruct (Nat.lt_trichotomy (length s) (length s')) as [H|[H|H]].
  - exfalso. apply (G s s'); unfold positional; auto.
  - eapply positional_same_length; eauto. congruence.
  - exfalso. apply (G s' s); unfold positional; auto.
Qed.

Lemma to_chars_spec n : forall base v acc, 2 <= base <= 36 -> (0 < n)%nat -> 0 <= v < base ^ Z.of_nat n ->
  exists s, to_chars n v base acc = Some (s ++ acc) /\ positional base false v s /\ (v <> 0 -> hd 0 s <> 48) /\
    count_digits n v base = Some (Z.of_nat (length s)).
Proof.
  induction n as [|n IH]; intros base v acc Hb Hn Hv; [lia|]. cbn [to_chars count_digits].
  pose proof (Z.mod_pos_bound v base ltac:(lia)) as Hm.
  destruct (digit_char_spec base (v mod base) Hb Hm) as (D1 & D2 & D3).
  destruct (Z.eqb_spec (v / base) 0) as [E|E].
  - exists [digit_char (v mod base)]. assert (EV : v mod base = v) by (apply Z.mod_small; dlia).
    split; [reflexivity|]. split; [|split; [|reflexivity]].
    + split; [constructor; [exact D1|constructor]|]. split; [|split; [discriminate|now left]].
      cbn [positional_value length]. rewrite D2. cbn. lia.
    + cbn [hd]. intros Hv0 H0. apply D3 in H0. lia.
  - destruct n as [|n].
    { exfalso. apply E. apply Z.div_small. change (Z.of_nat 1) with 1 in Hv. rewrite Z.pow_1_r in Hv. lia. }
    destruct (IH base (v / base) (digit_char (v mod base) :: acc) Hb ltac:(lia)) as (s & ET & (F & V & N & L) & H0 & EC).
    { split; [apply Z.div_pos; lia|]. apply Z.div_lt_upper_bound; [lia|].
      rewrite <- Z.pow_succ_r, <- Nat2Z.inj_succ by lia. lia. }
    exists (s ++ [digit_char (v mod base)]). rewrite ET, EC. cbn [option_map]. rewrite <- app_assoc. cbn [app].
    assert (HH : forall d, hd 0 (s ++ [d]) = hd 0 s) by (intros d; destruct s; [congruence|reflexivity]).
    split; [reflexivity|]. split; [|split].
    + split; [apply Forall_app; split; [exact F|constructor; [exact D1|constructor]]|].
      split.
      { rewrite positional_value_app by lia. cbn [positional_value length]. change (Z.of_nat 1) with 1. change (Z.of_nat 0) with 0.
        rewrite V, D2, Z.pow_1_r, Z.pow_0_r. rewrite (Z.div_mod v base) at 3 by lia. lia. }
      split; [now destruct s|]. right. rewrite HH. auto.
    + intros _. rewrite HH. auto.
    + rewrite app_length. cbn [length]. f_equal. lia.
Qed.

Lemma to_chars_64 base v : 2 <= base <= 36 -> 0 <= v < 2 ^ 64 ->
  exists s, to_chars 64 v base [] = Some s /\ positional base false v s /\
    count_digits 64 v base = Some (Z.of_nat (length s)).
Proof.
  intros Hb Hv. destruct (to_chars_spec 64 base v [] Hb ltac:(lia)) as (s & E & P & _ & C).
  - split; [lia|]. apply Z.lt_le_trans with (2 ^ 64); [lia|]. change (Z.of_nat 64) with 64. apply Z.pow_le_mono_l. lia.
  - exists s. rewrite app_nil_r in E. auto.
Qed.

(** Upper-casing hexadecimal digits. *)
Lemma to_upper_hex c : digit_of 16 false c ->
  digit_of 16 true (to_upper char_signed c) /\ value_of_digit (to_upper char_signed c) = value_of_digit c /\
  (to_upper char_signed c = 48 <-> c = 48).
Proof.
  intros H. assert (HO : char_ok char_signed c).
  { unfold char_ok, in_range. cbn [c_signed c_bits char_signed]. change (2 ^ (8 - 1)) with 128. unfold digit_of in H. lia. }
  destruct (to_upper_exact char_signed c ltac:(now left) HO) as [HU HN]. unfold ascii_lower in *.
  unfold digit_of in H. destruct (Z.leb_spec 97 c).
  - rewrite HU by lia. unfold digit_of, value_of_digit.
    destruct (Z.leb_spec (c - 32) 57), (Z.leb_spec (c - 32) 90), (Z.leb_spec c 57), (Z.leb_spec c 90); repeat split; lia.
  - rewrite HN by lia. unfold digit_of. repeat split; lia.
Qed.
Lemma positional_upper v s : positional 16 false v s -> positional 16 true v (map (to_upper char_signed) s).
Proof.
  intros (F & V & N & L). split; [|split; [|split]].
  - rewrite Forall_map. eapply Forall_impl; [|exact F]. intros c Hc. now apply to_upper_hex.
  - rewrite <- V. clear -F. induction F as [|c s Hc _ IH]; [reflexivity|]. cbn [map positional_value].
    rewrite map_length, IH. destruct (to_upper_hex c Hc) as (_ & -> & _). reflexivity.
  - now destruct s.
  - rewrite map_length. destruct L as [L|L]; [now left|right]. destruct s as [|c s]; [congruence|]. cbn [map hd] in *.
    inversion F; subst. now rewrite (proj2 (proj2 (to_upper_hex c ltac:(assumption)))).
Qed.

(** Whether the digits are upper case. *)
Definition upper_digits (spec : specifier) : bool :=
  match m_type spec, m_case spec with THex, CUpper => true | _, _ => false end.
Lemma append_number_spec spec v : 0 <= v < 2 ^ 64 ->
  exists s, append_number spec v (base_of (m_type spec)) = Ok s /\
    positional (base_of (m_type spec)) (upper_digits spec) v s /\
    count_digits 64 v (base_of (m_type spec)) = Some (Z.of_nat (length s)).
Proof.
  intros Hv. destruct (to_chars_64 (base_of (m_type spec)) v) as (s & E & P & C); [destruct (m_type spec); cbn; lia|exact Hv|].
  unfold append_number. rewrite E. unfold upper_digits.
  destruct (m_type spec) eqn:ET; try (exists s; split; [reflexivity|split; assumption]).
  destruct (m_case spec); [exists s; split; [reflexivity|split; assumption]|].
  exists (map (to_upper char_signed) s). split; [reflexivity|]. rewrite map_length. split; [now apply positional_upper|exact C].
Qed.

Lemma append_prefix_size spec neg : Z.of_nat (length (append_prefix spec neg)) = prefix_size spec neg.
Proof.
  unfold append_prefix, prefix_size. rewrite app_length. destruct neg, (m_sign spec), (m_alternate_form spec), (m_type spec), (m_case spec); reflexivity.
Qed.

Lemma padding_length n c : Z.of_nat (length (padding n c)) = Z.max 0 n.
Proof. unfold padding. rewrite repeat_length. lia. Qed.

Lemma align_length spec p prefix number : 0 <= p ->
  Z.of_nat (length (align_number spec p prefix number)) = p + Z.of_nat (length prefix) + Z.of_nat (length number).
Proof.
  intros Hp. unfold align_number. destruct (m_alignment spec); [destruct (m_zero_padding spec)| | |];
    rewrite !app_length, !Nat2Z.inj_add, !padding_length; try lia.
  pose proof (Z.div_mod p 2 ltac:(lia)) as E. pose proof (Z.mod_pos_bound p 2 ltac:(lia)).
  assert (0 <= p / 2) by (apply Z.div_pos; lia).
  destruct (Z.eqb_spec (p mod 2) 0); lia.
Qed.

(** The sign handling of format_integer: the absolute value and the sign of the integer. *)
Lemma abs_value w v : 8 <= w <= 64 -> - 2 ^ (w - 1) <= v < 2 ^ (w - 1) ->
  wrap w (wrap w (Z.lxor v (Z.shiftr v (w - 1))) + Z.land (Z.shiftr v (w - 1)) 1) = Z.abs v /\
  negb (Z.shiftr v (w - 1) =? 0) = (v <? 0).
Proof.
  intros Hw Hv. assert (E2 : 2 ^ w = 2 * 2 ^ (w - 1)) by (rewrite <- Z.pow_succ_r by lia; f_equal; lia).
  pose proof (pow2_pos (w - 1) ltac:(lia)) as P. rewrite Z.shiftr_div_pow2 by lia. unfold wrap.
  destruct (Z.ltb_spec v 0) as [Hn|Hn].
  - assert (ES : v / 2 ^ (w - 1) = -1) by (symmetry; apply Z.div_unique with (v + 2 ^ (w - 1)); lia).
    rewrite ES. split; [|reflexivity]. change (Z.land (-1) 1) with 1.
    rewrite Z.lxor_m1_r. unfold Z.lnot. rewrite Zplus_mod_idemp_l.
    replace (Z.pred (- v) + 1) with (- v) by lia.
    rewrite Z.mod_small by lia. lia.
  - assert (ES : v / 2 ^ (w - 1) = 0) by (apply Z.div_small; lia).
    rewrite ES. split; [|reflexivity]. rewrite Z.lxor_0_r, Z.land_0_l, Z.add_0_r, Z.mod_mod by lia.
    rewrite Z.mod_small by lia. lia.
Qed.

Lemma fold_number s : forall a, Forall (digit_of 10 false) s ->
  fold_left (fun a c => a * 10 + (c - 48)) s a = a * 10 ^ Z.of_nat (length s) + positional_value 10 s.
Proof.
  induction s as [|c s IH]; intros a H; [cbn; lia|]. inversion H as [|? ? Hc Hs]; subst. cbn [fold_left positional_value length].
  rewrite IH by assumption. rewrite Nat2Z.inj_succ, Z.pow_succ_r by lia.
  assert (EV : value_of_digit c = c - 48) by (unfold digit_of in Hc; unfold value_of_digit; destruct (Z.leb_spec c 57); lia).
  rewrite EV. lia.
Qed.
Lemma digits10 s : forallb (fun c => (48 <=? c) && (c <=? 57)) s = true <-> Forall (digit_of 10 false) s.
Proof.
  rewrite forallb_forall, Forall_forall. split; intros H c Hc; specialize (H c Hc).
  - apply andb_true_iff in H. rewrite !Z.leb_le in H. unfold digit_of. lia.
  - apply andb_true_iff. rewrite !Z.leb_le. unfold digit_of in H. lia.
Qed.
