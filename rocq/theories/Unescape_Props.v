(** Property C19, continued: exactly what unescape_all_codepoints accepts and produces, and exactly
    which texts escaping followed by unescaping restores. *)
From Verif Require Import Common Bits Unicode_Model Unicode_Spec Unicode_Proofs Unescape_Spec.

Lemma hex_digit_range c d : hex_digit c d -> 0 <= d < 16 /\
  ((48 <= c <= 57 /\ d = c - 48) \/ (65 <= c <= 70 /\ d = c - 55) \/ (97 <= c <= 102 /\ d = c - 87)).
Proof. intros H. destruct H; lia. Qed.
Lemma hex_number_range n cs v : hex_number n cs v -> 0 <= v < 16 ^ Z.of_nat n.
Proof.
  induction 1 as [|n c d cs v Hd _ IH]; [change (16 ^ Z.of_nat 0) with 1; lia|].
  apply hex_digit_range in Hd. rewrite Nat2Z.inj_succ, Z.pow_succ_r by lia.
  set (q := 16 ^ Z.of_nat n) in *. clearbody q. destruct Hd as [Hd _]. split; [|].
  - assert (0 <= d * q) by (apply Z.mul_nonneg_nonneg; lia). lia.
  - assert (d * q <= 15 * q) by (apply Z.mul_le_mono_nonneg_r; lia). lia.
Qed.

Lemma shift4 x n : Z.shiftl x (4 * Z.of_nat n) = x * 16 ^ Z.of_nat n.
Proof. rewrite Z.shiftl_mul_pow2 by lia. f_equal. rewrite Z.pow_mul_r by lia. reflexivity. Qed.

Lemma digits_forward n cs v r : hex_number n cs v -> forall acc,
  unescape_digits n (u32 acc) (cs ++ r) = (u32 (acc + v), r).
Proof.
  induction 1 as [|n c d cs v Hd _ IH]; intros acc.
  - cbn [app unescape_digits]. rewrite Z.add_0_r. destruct r; reflexivity.
  - cbn [app unescape_digits]. rewrite !shift4. apply hex_digit_range in Hd as [Hr Hd].
    assert (E : forall y, y = d -> unescape_digits n (u32 (u32 acc + y * 16 ^ Z.of_nat n)) (cs ++ r) =
                          (u32 (acc + (d * 16 ^ Z.of_nat n + v)), r)).
    { intros y ->. rewrite u32_u32_add, IH. do 2 f_equal. lia. }
    destruct Hd as [[? ?]|[[? ?]|[? ?]]]; zb; cbn [andb]; apply E; lia.
Qed.

Lemma digits_backward n : forall acc it v r, unescape_digits n (u32 acc) it = (v, r) -> v <> s_invalid_codepoint ->
  exists cs w, hex_number n cs w /\ it = cs ++ r /\ v = u32 (acc + w).
Proof.
  induction n as [|n IH]; intros acc it v r H HV.
  - cbn [unescape_digits] in H. exists [], 0. split; [constructor|]. rewrite Z.add_0_r.
    destruct it; injection H as <- <-; auto.
  - destruct it as [|c it]; cbn [unescape_digits] in H; [injection H as <- <-; congruence|].
    rewrite !shift4 in H.
    assert (K : forall d, hex_digit c d -> unescape_digits n (u32 (u32 acc + d * 16 ^ Z.of_nat n)) it = (v, r) ->
      exists cs w, hex_number (S n) cs w /\ c :: it = cs ++ r /\ v = u32 (acc + w)).
    { intros d Hd H'. rewrite u32_u32_add in H'. destruct (IH _ _ _ _ H' HV) as (cs & w & Hw & -> & ->).
      exists (c :: cs), (d * 16 ^ Z.of_nat n + w). split; [now constructor|]. split; [reflexivity|]. f_equal. lia. }
    destruct ((48 <=? c) && (c <=? 57)) eqn:E1.
    { apply andb_true_iff in E1. rewrite !Z.leb_le in E1. apply (K (c - 48)); [|exact H].
      replace c with (48 + (c - 48)) at 1 by lia. constructor. lia. }
    destruct ((65 <=? c) && (c <=? 70)) eqn:E2.
    { apply andb_true_iff in E2. rewrite !Z.leb_le in E2. apply (K (c - 55)); [|exact H].
      replace c with (65 + ((c - 55) - 10)) at 1 by lia. constructor. lia. }
    destruct ((97 <=? c) && (c <=? 102)) eqn:E3.
    { apply andb_true_iff in E3. rewrite !Z.leb_le in E3. apply (K (c - 87)); [|exact H].
      replace c with (97 + ((c - 87) - 10)) at 1 by lia. constructor. lia. }
    injection H as <- <-. congruence.
Qed.

Definition letter (upper : bool) : Z := if upper then 85 else 117.
Definition digits (upper : bool) : nat := if upper then 8%nat else 4%nat.

Lemma prefixed_forward upper cs v r : hex_number (digits upper) cs v ->
  unescape_prefixed upper (92 :: letter upper :: cs ++ r) = (v, r).
Proof.
  intros H. unfold unescape_prefixed. change (negb (92 =? 92)) with false. cbv iota.
  fold (letter upper). rewrite Z.eqb_refl. cbn [negb]. fold (digits upper).
  change 0 with (u32 0) at 1. rewrite (digits_forward _ _ _ r H). f_equal.
  apply hex_number_range in H. apply u32_small.
  assert (16 ^ Z.of_nat (digits upper) <= 4294967296) by (destruct upper; [change (16 ^ Z.of_nat (digits true)) with 4294967296|change (16 ^ Z.of_nat (digits false)) with 65536]; lia).
  lia.
Qed.
Lemma prefixed_u cs v r : hex_number 4 cs v -> unescape_prefixed false (92 :: 117 :: cs ++ r) = (v, r).
Proof. exact (prefixed_forward false cs v r). Qed.
Lemma prefixed_U cs v r : hex_number 8 cs v -> unescape_prefixed true (92 :: 85 :: cs ++ r) = (v, r).
Proof. exact (prefixed_forward true cs v r). Qed.
Lemma prefixed_backward upper it v r : unescape_prefixed upper it = (v, r) -> v <> s_invalid_codepoint ->
  exists cs, hex_number (digits upper) cs v /\ it = 92 :: letter upper :: cs ++ r.
Proof.
  intros H HV. unfold unescape_prefixed in H.
  destruct it as [|c it]; [injection H as <- <-; congruence|].
  destruct (Z.eqb_spec c 92) as [->|]; cbn [negb] in H; [|injection H as <- <-; congruence].
  destruct it as [|p it]; [injection H as <- <-; congruence|].
  fold (letter upper) in H. destruct (Z.eqb_spec p (letter upper)) as [->|]; cbn [negb] in H; [|injection H as <- <-; congruence].
  fold (digits upper) in H. change 0 with (u32 0) in H at 1.
  destruct (digits_backward _ _ _ _ _ H HV) as (cs & w & Hw & -> & ->).
  exists cs. split; [|reflexivity]. pose proof (hex_number_range _ _ _ Hw) as HR.
  replace (u32 (0 + w)) with w; [assumption|]. symmetry. apply u32_small.
  assert (16 ^ Z.of_nat (digits upper) <= 4294967296) by (destruct upper; [change (16 ^ Z.of_nat (digits true)) with 4294967296|change (16 ^ Z.of_nat (digits false)) with 65536]; lia).
  lia.
Qed.

Lemma encode_some e c s : 0 <= c < 2 ^ 32 -> encode_codepoint e c = Some s -> scalar c /\ s = form e c.
Proof.
  intros Hc H. unfold encode_codepoint in H. destruct (validate_codepoint c) eqn:EV; [|discriminate].
  change (2 ^ 32) with 4294967296 in Hc.
  apply validate_scalar in EV; [|lia]. split; [assumption|]. injection H as <-. now rewrite encode_form.
Qed.
Lemma encode_scalar e c : scalar c -> encode_codepoint e c = Some (form e c).
Proof.
  intros H. unfold encode_codepoint. assert (0 <= c < 4294967296) by (unfold scalar in H; lia).
  rewrite (proj2 (validate_scalar c ltac:(lia)) H). now rewrite encode_form.
Qed.
Lemma encode_invalid e : encode_codepoint e s_invalid_codepoint = None.
Proof. reflexivity. Qed.

(** The iterator moves over exactly one escape sequence. *)
Lemma escape_forward e s c r : escape_sequence s c ->
  starts_escape (s ++ r) /\ unescape_codepoint e (s ++ r) = (Some (form e c), r).
Proof.
  intros H. destruct H as [ds v Hd Hs|ds1 h ds2 l H1 H2 Hh Hl|ds v Hd Hs].
  - split; [cbn; auto|]. unfold unescape_codepoint. cbn [app].
    change (escaped_with (92 :: 117 :: ds ++ r) 117) with true. cbv iota.
    unfold create_codepoint_from_surrogates. rewrite (prefixed_u ds v r Hd).
    unfold is_high_surrogate, is_low_surrogate, s_high_surrogate_min, s_high_surrogate_max, s_low_surrogate_min, s_low_surrogate_max.
    unfold scalar in Hs.
    replace ((v >=? 55296) && (v <=? 56319)) with false by (destruct (Z.geb_spec v 55296), (Z.leb_spec v 56319); lia || reflexivity).
    replace ((v >=? 56320) && (v <=? 57343)) with false by (destruct (Z.geb_spec v 56320), (Z.leb_spec v 57343); lia || reflexivity).
    now rewrite encode_scalar.
  - split; [cbn; auto|]. unfold unescape_codepoint. cbn [app].
    change (escaped_with (92 :: 117 :: (ds1 ++ 92 :: 117 :: ds2) ++ r) 117) with true. cbv iota.
    unfold create_codepoint_from_surrogates.
    replace ((ds1 ++ 92 :: 117 :: ds2) ++ r) with (ds1 ++ 92 :: 117 :: ds2 ++ r) by (rewrite <- app_assoc; reflexivity).
    rewrite (prefixed_u ds1 h _ H1).
    unfold is_high_surrogate, is_low_surrogate, s_high_surrogate_min, s_high_surrogate_max, s_low_surrogate_min, s_low_surrogate_max.
    replace ((h >=? 55296) && (h <=? 56319)) with true by (destruct (Z.geb_spec h 55296), (Z.leb_spec h 56319); lia || reflexivity).
    rewrite (prefixed_u ds2 l _ H2).
    replace ((l >=? 56320) && (l <=? 57343)) with true by (destruct (Z.geb_spec l 56320), (Z.leb_spec l 57343); lia || reflexivity).
    rewrite surrogates_ok by lia. rewrite encode_scalar; [reflexivity|]. unfold scalar. lia.
  - split; [cbn; auto|]. unfold unescape_codepoint. cbn [app].
    change (escaped_with (92 :: 85 :: ds ++ r) 117) with false. change (escaped_with (92 :: 85 :: ds ++ r) 85) with true. cbv iota.
    rewrite (prefixed_U ds v r Hd). now rewrite encode_scalar.
Qed.

Lemma escape_backward e it s r : unescape_codepoint e it = (Some s, r) ->
  exists q c, escape_sequence q c /\ it = q ++ r /\ s = form e c.
Proof.
  unfold unescape_codepoint. destruct (escaped_with it 117) eqn:EU.
  - unfold create_codepoint_from_surrogates. destruct (unescape_prefixed false it) as [h it1] eqn:E1.
    destruct (is_high_surrogate h) eqn:EH.
    + destruct (unescape_prefixed false it1) as [l it2] eqn:E2.
      destruct (is_low_surrogate l) eqn:EL; [|intros H; injection H as H _; rewrite encode_invalid in H; discriminate].
      unfold is_high_surrogate, s_high_surrogate_min, s_high_surrogate_max in EH.
      unfold is_low_surrogate, s_low_surrogate_min, s_low_surrogate_max in EL.
      apply andb_true_iff in EH, EL. rewrite Z.geb_leb, !Z.leb_le in EH, EL.
      assert (HI : s_invalid_codepoint = 4294967295) by reflexivity.
      destruct (prefixed_backward _ _ _ _ E1 ltac:(lia)) as (c1 & Hc1 & ->).
      destruct (prefixed_backward _ _ _ _ E2 ltac:(lia)) as (c2 & Hc2 & ->).
      rewrite surrogates_ok by lia. rewrite encode_scalar by (unfold scalar; lia).
      intros H. injection H as <- <-. do 2 eexists.
      split; [apply (escape_pair c1 h c2 l); auto|]. split; [|reflexivity].
      cbn [letter app]. rewrite <- app_assoc. reflexivity.
    + destruct (is_low_surrogate h) eqn:EL; [intros H; injection H as H _; rewrite encode_invalid in H; discriminate|].
      intros H. injection H as H <-.
      destruct (Z.eq_dec h s_invalid_codepoint) as [->|HN]; [rewrite encode_invalid in H; discriminate|].
      destruct (prefixed_backward _ _ _ _ E1 HN) as (c1 & Hc1 & ->).
      pose proof (hex_number_range _ _ _ Hc1) as HR. change (16 ^ Z.of_nat (digits false)) with 65536 in HR.
      apply encode_some in H as [Hs ->]; [|change (2 ^ 32) with 4294967296; lia].
      do 2 eexists. split; [apply (escape_four c1 h); auto|]. split; reflexivity.
  - destruct (escaped_with it 85) eqn:EU'; [|intros H; injection H as H _; rewrite encode_invalid in H; discriminate].
    destruct (unescape_prefixed true it) as [v it1] eqn:E1. intros H. injection H as H <-.
    destruct (Z.eq_dec v s_invalid_codepoint) as [->|HN]; [rewrite encode_invalid in H; discriminate|].
    destruct (prefixed_backward _ _ _ _ E1 HN) as (c1 & Hc1 & ->).
    pose proof (hex_number_range _ _ _ Hc1) as HR. change (16 ^ Z.of_nat (digits true)) with 4294967296 in HR.
    apply encode_some in H as [Hs ->]; [|change (2 ^ 32) with 4294967296; lia].
    do 2 eexists. split; [apply (escape_eight c1 v); auto|]. split; reflexivity.
Qed.

Lemma escape_nonempty s c : escape_sequence s c -> (0 < length s)%nat.
Proof. intros H. destruct H; cbn [length]; lia. Qed.

Definition starts (u : Z) (it : list Z) : bool :=
  match it with p :: _ => (u =? 92) && ((p =? 117) || (p =? 85)) | [] => false end.
Lemma starts_iff u it : starts u it = true <-> starts_escape (u :: it).
Proof.
  destruct it as [|p it]; cbn [starts starts_escape]; [split; [discriminate|tauto]|].
  rewrite andb_true_iff, orb_true_iff, !Z.eqb_eq. tauto.
Qed.
Lemma unescape_step fuel e u it : unescape_all (S fuel) e (u :: it) =
  if starts u it then
    match unescape_codepoint e (u :: it) with
    | (Some s, it') => match unescape_all fuel e it' with Some out => Some (s ++ out) | None => None end
    | (None, _) => None
    end
  else match unescape_all fuel e it with Some out => Some (u :: out) | None => None end.
Proof. cbn [unescape_all]. destruct it as [|p it]; [reflexivity|]. unfold starts. destruct ((u =? 92) && ((p =? 117) || (p =? 85))); reflexivity. Qed.

Lemma unescape_backward e : forall fuel it out, unescape_all fuel e it = Some out -> unescaped (form e) it out.
Proof.
  induction fuel as [|fuel IH]; intros [|u it] out H; try discriminate; try (injection H as <-; constructor).
  rewrite unescape_step in H. destruct (starts u it) eqn:ES.
  - destruct (unescape_codepoint e (u :: it)) as [[s|] it'] eqn:EC; [|discriminate].
    destruct (unescape_all fuel e it') as [o|] eqn:ER; [|discriminate]. injection H as <-.
    apply escape_backward in EC as (q & c & Hq & -> & ->). constructor; auto.
  - destruct (unescape_all fuel e it) as [o|] eqn:ER; [|discriminate]. injection H as <-. constructor; auto.
    rewrite <- starts_iff. congruence.
Qed.
Lemma unescape_forward e it out : unescaped (form e) it out -> forall fuel, (length it <= fuel)%nat ->
  unescape_all fuel e it = Some out.
Proof.
  induction 1 as [|u it out HN _ IH|s c it out Hs _ IH]; intros fuel Hf.
  - destruct fuel; reflexivity.
  - destruct fuel as [|fuel]; [cbn in Hf; lia|]. cbn [length] in Hf. rewrite unescape_step.
    destruct (starts u it) eqn:ES; [apply starts_iff in ES; contradiction|]. now rewrite IH by lia.
  - destruct (escape_forward e s c it Hs) as [HSt HU]. pose proof (escape_nonempty s c Hs) as HL.
    rewrite app_length in Hf.
    destruct (s ++ it) as [|u t] eqn:E; [destruct s; [cbn in HL; lia|discriminate]|].
    destruct fuel as [|fuel]; [lia|]. rewrite unescape_step. rewrite (proj2 (starts_iff u t) HSt), HU.
    now rewrite IH by lia.
Qed.

(** * C19: unescaping, exactly: what it produces, and (as no [out] exists) what it refuses. *)
Theorem unescape_exact : forall e it out,
  unescape_all_codepoints e it = Some out <-> unescaped (form e) it out.
Proof.
  intros e it out. unfold unescape_all_codepoints. split.
  - apply unescape_backward.
  - intros H. now apply unescape_forward.
Qed.

(** The single-character function: one escape sequence is read, with the iterator left behind it, and
    anything else is refused. *)
Theorem unescape_one_exact : forall e it s rest,
  unescape_codepoint e it = (Some s, rest) <-> exists q c, escape_sequence q c /\ it = q ++ rest /\ s = form e c.
Proof.
  intros e it s rest. split; [apply escape_backward|]. intros (q & c & Hq & -> & ->).
  now apply escape_forward.
Qed.

(** In particular a text is refused as soon as some backslash-u is followed by something other than
    four hexadecimal digits, whatever surrounds it. *)

Theorem unescape_refuses : forall e pre it, (forall u, In u pre -> u <> 92) -> starts_escape it ->
  (forall q c r, escape_sequence q c -> it <> q ++ r) -> unescape_all_codepoints e (pre ++ it) = None.
Proof.
  intros e pre it Hpre Hst Hno. destruct (unescape_all_codepoints e (pre ++ it)) as [out|] eqn:E; [|reflexivity].
  exfalso. apply unescape_exact in E. revert out E. induction pre as [|u pre IH]; intros out E.
  - cbn [app] in E. inversion E as [E1 E2|u it' o HN H E1 E2|q c it' o Hq H E1 E2]; subst.
    + destruct Hst.
    + contradiction.
    + now apply (Hno q c it' Hq).
  - cbn [app] in E. inversion E as [|u' it' o HN H E1 E2|q c it' o Hq H E1 E2]; subst.
    + apply (IH ltac:(intros v Hv; apply Hpre; now right) o). assumption.
    + destruct Hq; injection E1 as E1 _; apply (Hpre u); auto; now left.
Qed.

(** * C19: escaping followed by unescaping *)
Lemma escaped_head upper cs x t : Forall scalar cs -> flat_map (escape_codepoint upper) cs = x :: t -> x <> 92 ->
  exists cs', cs = x :: cs' /\ t = flat_map (escape_codepoint upper) cs'.
Proof.
  intros HF H Hx. destruct cs as [|c cs]; [discriminate|]. inversion HF as [|? ? Hc HF']; subst. cbn [flat_map] in H.
  destruct (needs_escape c) eqn:EN.
  - destruct (escape_read U32 upper c (flat_map (escape_codepoint upper) cs) Hc EN) as (p & t' & E & _ & _).
    rewrite E in H. injection H as H _. congruence.
  - rewrite escape_plain in H by assumption. injection H as <- <-. now exists cs.
Qed.
Lemma escaped_digits upper n ds v : hex_number n ds v -> forall cs r, Forall scalar cs ->
  flat_map (escape_codepoint upper) cs = ds ++ r ->
  exists cs', cs = ds ++ cs' /\ r = flat_map (escape_codepoint upper) cs'.
Proof.
  induction 1 as [|n c d ds v Hd _ IH]; intros cs r HF H; [now exists cs|].
  cbn [app] in H. assert (c <> 92) by (apply hex_digit_range in Hd; lia).
  destruct (escaped_head upper cs c _ HF H ltac:(assumption)) as (cs1 & -> & E).
  inversion HF as [|? ? _ HF']; subst. destruct (IH cs1 r HF' (eq_sym E)) as (cs2 & -> & ->). now exists cs2.
Qed.
Lemma hex_number_length n ds v : hex_number n ds v -> length ds = n.
Proof. induction 1; cbn [length]; congruence. Qed.

Lemma unescaped_shorter e upper : forall n cs out, (length cs <= n)%nat -> Forall scalar cs ->
  unescaped (form e) (flat_map (escape_codepoint upper) cs) out ->
  exists cs', Forall scalar cs' /\ out = text (form e) cs' /\ (length cs' <= length cs)%nat /\
    (length cs' = length cs -> no_escape_lookalike cs).
Proof.
  induction n as [|n IH]; intros cs out Hn HF H.
  { destruct cs; [|cbn in Hn; lia]. cbn [flat_map] in H. inversion H as [E1 E2| |q c it o Hq H' E1 E2].
    - exists []. repeat split; constructor.
    - destruct Hq; discriminate. }
  destruct cs as [|c cs].
  { cbn [flat_map] in H. inversion H as [E1 E2| |q c it o Hq H' E1 E2].
    - exists []. repeat split; constructor.
    - destruct Hq; discriminate. }
  cbn [length] in Hn. inversion HF as [|? ? Hc HF']; subst. cbn [flat_map] in H.
  destruct (needs_escape c) eqn:EN.
  - destruct (escape_read e upper c (flat_map (escape_codepoint upper) cs) Hc EN) as (p & t & E & Hp & HU).
    rewrite E in H, HU. inversion H as [|u it o HS H' E1 E2|q c' it o Hq H' E1 E2]; subst.
    { exfalso. apply HS. cbn [starts_escape]. auto. }
    destruct (escape_forward e q c' it Hq) as [_ HU']. rewrite E1, HU in HU'. injection HU' as EF <-.
    destruct (IH cs o ltac:(lia) HF' H') as (cs' & HF1 & -> & HL & HN).
    exists (c :: cs'). split; [now constructor|]. cbn [text flat_map length]. rewrite EF.
    split; [reflexivity|]. split; [lia|]. intros HE. cbn [no_escape_lookalike]. split; [|apply HN; lia].
    intros ->. discriminate.
  - rewrite escape_plain in H by assumption. cbn [app] in H.
    inversion H as [|u it o HS H' E1 E2|q c' it o Hq H' E1 E2]; subst.
    + destruct (IH cs o ltac:(lia) HF' H') as (cs' & HF1 & -> & HL & HN).
      exists (c :: cs'). split; [now constructor|]. cbn [text flat_map length].
      apply plain_range in EN. rewrite form_ascii by lia.
      split; [reflexivity|]. split; [lia|]. intros HE. cbn [no_escape_lookalike]. split; [|apply HN; lia].
      intros ->. destruct cs as [|p cs]; [trivial|].
      cbn [flat_map] in HS.
      assert (K : needs_escape p = false -> ~ (p = 117 \/ p = 85)).
      { intros EP Hp. apply HS. rewrite escape_plain by assumption. cbn [app starts_escape]. auto. }
      destruct (Z.eq_dec p 117) as [->|]; [exfalso; apply K; auto|].
      destruct (Z.eq_dec p 85) as [->|]; [exfalso; apply K; auto|]. auto.
    + assert (SH : forall cs2, Forall scalar cs2 -> (length cs2 < length cs)%nat ->
        it = flat_map (escape_codepoint upper) cs2 -> scalar c' ->
        exists cs', Forall scalar cs' /\ form e c' ++ o = text (form e) cs' /\ (length cs' <= length (c :: cs))%nat /\
          (length cs' = length (c :: cs) -> no_escape_lookalike (c :: cs))).
      { intros cs2 HF2 Hl2 -> Hsc. destruct (IH cs2 o ltac:(lia) HF2 H') as (cs' & HF1 & -> & HL & _).
        exists (c' :: cs'). split; [now constructor|]. split; [reflexivity|]. cbn [length]. split; [lia|]. lia. }
      clear IH H H'.
      destruct Hq as [ds v Hd Hs|ds1 h ds2 l H1 H2 Hh Hl|ds v Hd Hs]; cbn [app] in E1; injection E1 as Ec E1; subst c; symmetry in E1.
      * destruct (escaped_head upper cs 117 _ HF' E1 ltac:(lia)) as (cs1 & -> & E2). symmetry in E2.
        inversion HF' as [|? ? _ HF1]; subst.
        destruct (escaped_digits upper 4 ds v Hd cs1 it HF1 E2) as (cs2 & -> & E3).
        apply Forall_app in HF1 as [_ HF2]. apply (SH cs2); auto. cbn [length]. rewrite app_length. lia.
      * destruct (escaped_head upper cs 117 _ HF' E1 ltac:(lia)) as (cs1 & -> & E2). symmetry in E2.
        inversion HF' as [|? ? _ HF1]; subst. rewrite <- app_assoc in E2. cbn [app] in E2.
        destruct (escaped_digits upper 4 ds1 h H1 cs1 _ HF1 E2) as (cs2 & -> & E3).
        apply Forall_app in HF1 as [_ HF2].
        destruct cs2 as [|c2 cs3]; [discriminate|]. inversion HF2 as [|? ? Hc2 HF3]; subst.
        cbn [flat_map] in E3. destruct (needs_escape c2) eqn:EN2.
        -- exfalso. destruct (escape_read e upper c2 (flat_map (escape_codepoint upper) cs3) Hc2 EN2) as (p & t & _ & _ & HU).
           rewrite <- E3 in HU. unfold unescape_codepoint in HU.
           change (escaped_with (92 :: 117 :: ds2 ++ it) 117) with true in HU. cbv iota in HU.
           unfold create_codepoint_from_surrogates in HU. rewrite (prefixed_u ds2 l _ H2) in HU.
           unfold is_high_surrogate, is_low_surrogate, s_high_surrogate_min, s_high_surrogate_max, s_low_surrogate_min, s_low_surrogate_max in HU.
           replace ((l >=? 55296) && (l <=? 56319)) with false in HU by (destruct (Z.geb_spec l 55296), (Z.leb_spec l 56319); lia || reflexivity).
           replace ((l >=? 56320) && (l <=? 57343)) with true in HU by (destruct (Z.geb_spec l 56320), (Z.leb_spec l 57343); lia || reflexivity).
           rewrite encode_invalid in HU. discriminate.
        -- rewrite escape_plain in E3 by assumption. cbn [app] in E3. injection E3 as E3a E3. symmetry in E3.
           destruct (escaped_head upper cs3 117 _ HF3 E3 ltac:(lia)) as (cs4 & -> & E4). symmetry in E4.
           inversion HF3 as [|? ? _ HF4]; subst.
           destruct (escaped_digits upper 4 ds2 l H2 cs4 it HF4 E4) as (cs5 & -> & E5).
           apply Forall_app in HF4 as [_ HF5]. apply (SH cs5); auto; [|unfold scalar; lia].
           cbn [length]. rewrite app_length. cbn [length]. rewrite app_length. lia.
      * destruct (escaped_head upper cs 85 _ HF' E1 ltac:(lia)) as (cs1 & -> & E2). symmetry in E2.
        inversion HF' as [|? ? _ HF1]; subst.
        destruct (escaped_digits upper 8 ds v Hd cs1 it HF1 E2) as (cs2 & -> & E3).
        apply Forall_app in HF1 as [_ HF2]. apply (SH cs2); auto. cbn [length]. rewrite app_length. lia.
Qed.

(** Each character is escaped in the documented form. *)
Lemma to_hex_number n v : hex_number n (to_hex n v) (v mod 16 ^ Z.of_nat n) /\ Forall lower_case (to_hex n v).
Proof.
  induction n as [|n [IH IH']].
  - cbn [to_hex]. change (16 ^ Z.of_nat 0) with 1. rewrite Z.mod_1_r. split; constructor.
  - rewrite to_hex_step, Nat2Z.inj_succ, Z.pow_succ_r by lia.
    assert (HP : 0 < 16 ^ Z.of_nat n) by (apply Z.pow_pos_nonneg; lia).
    pose proof (Z.mod_pos_bound (v / 16 ^ Z.of_nat n) 16 ltac:(lia)) as HD.
    rewrite (Z.mul_comm 16), Z.rem_mul_r by lia.
    set (d := v / 16 ^ Z.of_nat n mod 16) in *. clearbody d.
    replace (v mod 16 ^ Z.of_nat n + 16 ^ Z.of_nat n * d) with (d * 16 ^ Z.of_nat n + v mod 16 ^ Z.of_nat n) by lia.
    destruct (hexd_cases d HD) as [[H1 H2]|[H1 H2]]; split; constructor; auto; rewrite H2.
    + constructor. lia.
    + unfold lower_case. lia.
    + replace (87 + d) with (97 + (d - 10)) by lia. constructor. lia.
    + unfold lower_case. lia.
Qed.
Lemma to_hex_exact n v : 0 <= v < 16 ^ Z.of_nat n -> hex_number n (to_hex n v) v /\ Forall lower_case (to_hex n v).
Proof. intros H. destruct (to_hex_number n v) as [H1 H2]. rewrite Z.mod_small in H1 by assumption. auto. Qed.

Lemma escape_form upper c : scalar c -> escaped_as upper c (escape_codepoint upper c).
Proof.
  intros Hc. destruct (needs_escape c) eqn:EN.
  - unfold escape_codepoint. fold (needs_escape c). rewrite EN. unfold scalar in Hc.
    assert (Hr : 0 <= c < 32 \/ 127 <= c).
    { unfold needs_escape in EN. apply orb_true_iff in EN. rewrite Z.geb_leb, !Z.leb_le in EN. lia. }
    destruct (Z.leb_spec c 65535).
    + destruct (to_hex_exact 4 c) as [H1 H2]; [change (16 ^ Z.of_nat 4) with 65536; lia|]. cbn [app]. apply escaped_four; auto. lia.
    + destruct upper.
      * destruct (to_hex_exact 8 c) as [H1 H2]; [change (16 ^ Z.of_nat 8) with 4294967296; lia|]. cbn [app].
        apply escaped_eight; auto. lia.
      * destruct (surrogate_parts c ltac:(lia)) as [-> ->].
        pose proof (Z.mod_pos_bound (c - 65536) 1024 ltac:(lia)) as HM. assert (HD : 0 <= (c - 65536) / 1024 < 1024) by dlia.
        assert (EC : c = 0x10000 + (0xd800 + (c - 65536) / 1024 - 0xd800) * 1024 + (0xdc00 + (c - 65536) mod 1024 - 0xdc00)) by dlia.
        set (h := 0xd800 + (c - 65536) / 1024) in *. set (l := 0xdc00 + (c - 65536) mod 1024) in *.
        assert (Hh : 0xd800 <= h <= 0xdbff) by (subst h; lia). assert (Hl : 0xdc00 <= l <= 0xdfff) by (subst l; lia).
        clearbody h l. rewrite EC.
        destruct (to_hex_exact 4 h) as [H1 H2]; [change (16 ^ Z.of_nat 4) with 65536; lia|].
        destruct (to_hex_exact 4 l) as [H3 H4]; [change (16 ^ Z.of_nat 4) with 65536; lia|].
        cbn [app]. apply escaped_pair; auto.
  - rewrite escape_plain by assumption. apply plain_range in EN. now constructor.
Qed.

Theorem escape_forms : forall e upper cs out, Forall scalar cs ->
  escape_all_codepoints e upper (text (form e) cs) = Some out ->
  exists ss, Forall2 (escaped_as upper) cs ss /\ out = concat ss.
Proof.
  intros e upper cs out HF H. rewrite escape_text in H by assumption. injection H as <-.
  exists (map (escape_codepoint upper) cs). split; [|apply flat_map_concat_map].
  induction HF as [|c cs Hc _ IH]; [constructor|]. cbn [map]. constructor; [now apply escape_form|assumption].
Qed.

(** The texts restored are exactly those with no backslash directly before a 'u' or 'U'. *)
Theorem unescape_escape_iff : forall e upper cs out, Forall scalar cs ->
  escape_all_codepoints e upper (text (form e) cs) = Some out ->
  (unescape_all_codepoints e out = Some (text (form e) cs) <-> no_escape_lookalike cs).
Proof.
  intros e upper cs out HF H. rewrite escape_text in H by assumption. injection H as <-. split.
  - intros H. apply unescape_exact in H.
    destruct (unescaped_shorter e upper (length cs) cs _ (le_n _) HF H) as (cs' & HF' & E & _ & HN).
    apply HN. f_equal. symmetry. now apply (text_inj e).
  - intros HL. unfold unescape_all_codepoints. now apply unescape_escape.
Qed.

(** Mixed-case digits, both kinds of escape, a pair, and copied characters. *)
Example C19_unescape : unescaped (form (U8 true))
  ([65; 92; 110] ++ [92; 117; 48; 48; 65; 57] ++ [92; 85; 48; 48; 48; 49; 102; 51; 53; 53] ++
   (92 :: 117 :: [100; 56; 51; 67] ++ 92 :: 117 :: [100; 102; 53; 53]) ++ [92])
  ([65; 92; 110] ++ [0xc2; 0xa9] ++ [0xf0; 0x9f; 0x8d; 0x95] ++ [0xf0; 0x9f; 0x8d; 0x95] ++ [92]).
Proof. apply unescape_exact. vm_compute. reflexivity. Qed.
Example C19_refused :
  map (unescape_all_codepoints (U8 true)) [[92; 117; 48; 48; 65]; [92; 117; 48; 48; 65; 71]; [92; 117; 100; 56; 51; 99];
    [92; 117; 100; 102; 53; 53]; [92; 85; 48; 48; 49; 49; 48; 48; 48; 48]] = [None; None; None; None; None].
Proof. vm_compute. reflexivity. Qed.

Print Assumptions unescape_exact.
Print Assumptions unescape_one_exact.
Print Assumptions unescape_refuses.
Print Assumptions unescape_escape_iff.
Print Assumptions escape_forms.
