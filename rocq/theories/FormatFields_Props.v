(** C40, C41, C60, C69: what a replacement field shows for characters, booleans and floating-point values. *)
From Verif Require Import Common Bits Lexer_Model Format_Model Format_Spec Format_Proofs Format_Props FormatString_Model FormatString_Spec FormatString_Proofs FormatString_Props
  Float_Model Float_Spec Float_Proofs Float_Props FloatStream_Model FloatStream_Props.

(** Where a character is in its field: on the right unless an alignment says otherwise. *)
Definition placed_character (a : alignment) (left_ right_ : nat) : Prop :=
  match a with ALeft => left_ = O | ARight | ADefault => right_ = O | ACenter => (left_ <= right_ <= left_ + 1)%nat end.
(** The greatest value of a character type: 2^k - 1 (127, 255, 65535, 4294967295). *)
Definition char_maximum (cm : Z) : Prop := exists k, 0 <= k /\ cm = 2 ^ k - 1.

Lemma wrap_maximum w cm v : 0 <= w -> char_maximum cm -> 0 <= v < 2 ^ w -> (v >? wrap w cm) = (cm <? v).
Proof.
  intros Hw (k & Hk & ->) Hv. rewrite Z.gtb_ltb. unfold wrap. destruct (Z.le_gt_cases k w).
  - assert (2 ^ k <= 2 ^ w) by (apply Z.pow_le_mono_r; lia). assert (0 < 2 ^ k) by (apply Z.pow_pos_nonneg; lia). now rewrite Z.mod_small by lia.
  - assert (E : (2 ^ k - 1) mod 2 ^ w = 2 ^ w - 1).
    { assert (P : 2 ^ k = 2 ^ (k - w) * 2 ^ w) by (rewrite <- Z.pow_add_r by lia; f_equal; lia). assert (0 < 2 ^ w) by (apply Z.pow_pos_nonneg; lia).
      replace (2 ^ k - 1) with (2 ^ w - 1 + (2 ^ (k - w) - 1) * 2 ^ w) by lia. rewrite Z.mod_add by lia. apply Z.mod_small. lia. }
    rewrite E. assert (2 ^ w < 2 ^ k) by (apply Z.pow_lt_mono_r; lia). destruct (Z.ltb_spec (2 ^ w - 1) v), (Z.ltb_spec (2 ^ k - 1) v); try reflexivity; lia.
Qed.

(** An integer or character shown as a character: that character in its field; nothing if there is no such character. *)
Theorem character_shown : forall w sg cm spec width v, native_int w -> int_ok w sg v -> 0 <= width < 2 ^ 64 -> m_type spec = TCharacter -> char_maximum cm ->
  (0 <= v <= cm -> exists left_ right_, let fill := value_or (m_fill spec) 32 in
     format_integer w sg cm spec width v = Ok (repeat fill left_ ++ [v] ++ repeat fill right_) /\ placed_character (m_alignment spec) left_ right_ /\
     Z.of_nat (left_ + 1 + right_) = Z.max 1 width) /\
  (~ 0 <= v <= cm -> format_integer w sg cm spec width v = Ok []).
Proof.
  intros w sg cm spec width v Hw Hv Hwd Ht Hcm. rewrite (format_integer_unsigned w sg cm spec width v Hw Hv). unfold format_unsigned. rewrite Ht. unfold format_as_character.
  assert (W0 : 0 < w) by (unfold native_int in Hw; lia). assert (HB : 0 <= v -> 0 <= v < 2 ^ w).
  { intros H. assert (2 ^ (w - 1) <= 2 ^ w) by (apply Z.pow_le_mono_r; lia). destruct sg; cbn [int_ok] in Hv; lia. }
  split; intros H.
  - rewrite (proj2 (Z.ltb_ge v 0)) by lia. rewrite Z.abs_eq by lia. rewrite wrap_maximum by (assumption || lia || apply HB; lia). rewrite (proj2 (Z.ltb_ge cm v)) by lia. cbn [orb].
    set (p := if width >? 1 then width - 1 else 0). cbv zeta. assert (Hp : 0 <= p /\ p + 1 = Z.max 1 width) by (unfold p; rewrite Z.gtb_ltb; destruct (Z.ltb_spec 1 width); lia).
    clearbody p. unfold padding, placed_character. destruct (m_alignment spec).
    + exists (Z.to_nat p), O. split; [now cbn [repeat app]|lia].
    + exists O, (Z.to_nat p). split; [now cbn [repeat app]|lia].
    + exists (Z.to_nat p), O. split; [now cbn [repeat app]|lia].
    + exists (Z.to_nat (p / 2)), (Z.to_nat (if p mod 2 =? 0 then p / 2 else p / 2 + 1)). split; [reflexivity|].
      pose proof (Z.div_mod p 2 ltac:(lia)). pose proof (Z.mod_pos_bound p 2 ltac:(lia)). destruct (Z.eqb_spec (p mod 2) 0); lia.
  - destruct (Z.ltb_spec v 0); [reflexivity|]. rewrite Z.abs_eq by lia. rewrite wrap_maximum by (assumption || lia || apply HB; lia). now rewrite (proj2 (Z.ltb_lt cm v)) by lia.
Qed.

Lemma width_wanted args sp : Forall arg_ok args -> spec_ok sp -> resolve_width args sp 0 = wanted args (m_width sp) (m_width_position sp) 0.
Proof. intros HA (P1 & _). unfold resolve_width. destruct (m_width_position sp) as [q|]; [rewrite resolve_wanted by auto; reflexivity|]. now destruct (m_width sp). Qed.
Lemma precision_wanted args sp fb : Forall arg_ok args -> spec_ok sp -> resolve_precision args sp fb = wanted args (m_precision sp) (m_precision_position sp) fb.
Proof. intros HA (_ & P2 & _). unfold resolve_precision. destruct (m_precision_position sp) as [q|]; [rewrite resolve_wanted by auto; reflexivity|]. now destruct (m_precision sp). Qed.

(** A field for a character, or an integer with the presentation type c. *)
Theorem character_field : forall cm args sp w sg v x, Forall arg_ok args -> spec_ok sp -> char_maximum cm ->
  nth_error args (Z.to_nat (m_position sp)) = Some (ACharacter w sg v) \/ nth_error args (Z.to_nat (m_position sp)) = Some (AInteger w sg v) ->
  m_type sp = TCharacter -> field_output cm args sp x ->
  let fill := value_or (m_fill sp) 32 in
  (0 <= v <= cm /\ exists left_ right_, x = repeat fill left_ ++ [v] ++ repeat fill right_ /\ placed_character (m_alignment sp) left_ right_ /\
     Z.of_nat (length x) = Z.max 1 (wanted args (m_width sp) (m_width_position sp) 0)) \/
  (~ 0 <= v <= cm /\ x = []).
Proof.
  intros cm args sp w sg v x HA HSp HM HN HT (a & Ha & HX). cbv zeta.
  assert (HO : native_int w /\ int_ok w sg v /\ format_integer w sg cm sp (resolve_width args sp 0) v = Ok x).
  { destruct HN as [HN|HN]; rewrite HN in Ha; injection Ha as <-; rewrite Forall_forall in HA; apply nth_error_In in HN; destruct (HA _ HN); split; auto. }
  destruct HO as (Hw & Hv & E). pose proof (width_bounds args sp HA (proj1 (proj2 (proj2 HSp)))) as HW. rewrite width_wanted in * by assumption.
  destruct (character_shown w sg cm sp _ v Hw Hv HW HT HM) as (H1 & H2).
  assert (D : 0 <= v <= cm \/ ~ 0 <= v <= cm) by lia. destruct D as [D|D]; [left|right]; (split; [assumption|]).
  - destruct (H1 D) as (l & r & EF & PL & LN). cbv zeta in EF. exists l, r. rewrite EF in E. injection E as <-. split; [reflexivity|]. split; [assumption|]. rewrite !app_length. cbn [length]. rewrite !repeat_length. cbn [length Nat.add]. rewrite ?repeat_length. lia.
  - rewrite (H2 D) in E. congruence.
Qed.

(** A field for a boolean: the text true or false; with a presentation type for integers, 1 or 0. *)
Theorem boolean_field : forall cm args sp v x, Forall arg_ok args -> spec_ok sp -> nth_error args (Z.to_nat (m_position sp)) = Some (ABoolean v) -> field_output cm args sp x ->
  let fill := value_or (m_fill sp) 32 in let width := wanted args (m_width sp) (m_width_position sp) 0 in
  (m_type sp = TString -> exists left_ right_,
     let shown := firstn (Z.to_nat (wanted args (m_precision sp) (m_precision_position sp) (2 ^ 64 - 1))) (if v then [116; 114; 117; 101] else [102; 97; 108; 115; 101]) in
     x = repeat fill left_ ++ shown ++ repeat fill right_ /\ placed_text (m_alignment sp) left_ right_ /\ Z.of_nat (length x) = Z.max width (Z.of_nat (length shown))) /\
  (forall b, numeric_base (m_type sp) = Some b -> exists left_ zeros right_,
     let prefix := sign_text (m_sign sp) 0 ++ base_text (m_alternate_form sp) (m_type sp) (m_case sp) in
     x = repeat fill left_ ++ prefix ++ repeat 48 zeros ++ [if v then 49 else 48] ++ repeat fill right_ /\ placed (m_alignment sp) (m_zero_padding sp) left_ zeros right_ /\
     Z.of_nat (length x) = Z.max width (Z.of_nat (length prefix) + 1)).
Proof.
  intros cm args sp v x HA HSp HN (a & Ha & HX). rewrite HN in Ha. injection Ha as <-. cbn [format_arg] in HX. cbv zeta.
  pose proof (width_bounds args sp HA (proj1 (proj2 (proj2 HSp)))) as HW. rewrite width_wanted in * by assumption. rewrite precision_wanted in HX by assumption. unfold npos in HX. change 0xffffffffffffffff with (2 ^ 64 - 1) in HX.
  split.
  - intros HT. rewrite format_bool_text in HX by assumption. injection HX as <-. change 18446744073709551615 with (2 ^ 64 - 1).
    assert (HP : 0 <= wanted args (m_precision sp) (m_precision_position sp) (2 ^ 64 - 1)).
    { unfold wanted. destruct (m_precision_position sp) as [q|]; [|destruct (m_precision sp) as [k|] eqn:EK; [apply (proj2 (proj2 (proj2 HSp))) in EK; lia|lia]].
      destruct (nth_error args (Z.to_nat q)) as [[]|]; try lia; match goal with |- context [if ?v <? 0 then _ else _] => destruct (Z.ltb_spec v 0) end; lia. }
    destruct (format_string_value_exact sp _ (Some (wanted args (m_precision sp) (m_precision_position sp) (2 ^ 64 - 1))) (if v then [116; 114; 117; 101] else [102; 97; 108; 115; 101]) (proj1 HW)) as (l & r & E & PL & LN).
    { intros p Ep. injection Ep as <-. exact HP. }
    cbv zeta in *. exists l, r. rewrite E. auto.
  - intros b HB. assert (HT : m_type sp <> TString) by (intros E; rewrite E in HB; discriminate). unfold format_bool in HX.
    assert (HX' : format_integer 32 false cm sp (wanted args (m_width sp) (m_width_position sp) 0) (if v then 1 else 0) = Ok x) by (destruct (m_type sp); congruence || assumption).
    assert (I : int_ok 32 false (if v then 1 else 0)) by (cbn; destruct v; lia).
    destruct (format_integer_exact 32 false cm sp _ (if v then 1 else 0) b ltac:(unfold native_int; lia) I HW HB) as (l & z & r & d & E & HPos & PL & LN). cbv zeta in *. rewrite E in HX'. injection HX' as <-.
    assert (ED : d = [if v then 49 else 48]).
    { set (up := match m_case sp with CUpper => true | CLower => false end && (b =? 16)) in *.
      assert (B2 : 2 <= b) by (destruct (m_type sp); cbn in HB; try discriminate; injection HB as <-; lia).
      eapply positional_unique; [exact B2|exact HPos|]. split; [constructor; [left; destruct v; lia|constructor]|]. split; [destruct v; reflexivity|]. split; [discriminate|]. destruct v; cbn; lia. }
    subst d. exists l, z, r. assert (ES : sign_text (m_sign sp) (if v then 1 else 0) = sign_text (m_sign sp) 0) by (destruct v; reflexivity). rewrite ES in *.
    split; [reflexivity|]. split; [assumption|]. rewrite LN. rewrite app_length. cbn [length]. f_equal. lia.
Qed.

(** A field for a floating-point value, whose formatter is the one of C60 called with the width and precision of the field. *)
Theorem floating_field : forall cm args sp out size negative v x, Forall arg_ok args -> spec_ok sp -> nth_error args (Z.to_nat (m_position sp)) = Some (AFloating out) -> field_output cm args sp x ->
  let width := wanted args (m_width sp) (m_width_position sp) 0 in let precision := wanted args (m_precision sp) (m_precision_position sp) 6 in
  (exists buf, converted size sp (resolve_precision args sp 6) v buf /\ format_float sp (resolve_width args sp 0) (resolve_precision args sp 6) negative buf = Some (out sp)) ->
  Z.of_nat size < 2 ^ 32 -> 0 <= precision < 2 ^ 31 -> decimal_type (m_type sp) -> fits size (m_type sp) precision v ->
  (m_alternate_form sp = true -> is_finite v /\ (m_type sp = TGeneral -> no_leading_zeros v)) ->
  exists number left_ zeros right_, let fill := value_or (m_fill sp) 32 in let prefix := shown_sign (m_sign sp) negative in
    x = repeat fill left_ ++ prefix ++ repeat 48 zeros ++ in_case (m_case sp) number ++ repeat fill right_ /\
    printf_text (m_type sp) (m_alternate_form sp) (Z.to_nat precision) v number /\
    placed (m_alignment sp) (m_zero_padding sp) left_ zeros right_ /\ Z.of_nat (length x) = Z.max width (Z.of_nat (length (prefix ++ number))).
Proof.
  intros cm args sp out size neg v x HA HSp HN (a & Ha & HX). rewrite HN in Ha. injection Ha as <-. cbn [format_arg] in HX. injection HX as <-. cbv zeta. intros (buf & HC & HF) HS HP HT HFit HAlt.
  pose proof (width_bounds args sp HA (proj1 (proj2 (proj2 HSp)))) as HW. rewrite width_wanted in * by assumption. rewrite precision_wanted in * by assumption.
  destruct (float_formatted size sp _ _ neg v buf HS HW HP HT HC HFit HAlt) as (number & l & z & r & E & N & P & L). cbv zeta in *. exists number, l, z, r. rewrite E in HF. injection HF as HF. rewrite <- HF. auto.
Qed.
(** The same where the formatter uses a stream (C69); no limit on the length of the text, and every alternate form. *)
Theorem floating_field_stream_partial : forall cm args sp out printf negative v x, Forall arg_ok args -> spec_ok sp -> nth_error args (Z.to_nat (m_position sp)) = Some (AFloating out) -> field_output cm args sp x ->
  let width := wanted args (m_width sp) (m_width_position sp) 0 in let precision := wanted args (m_precision sp) (m_precision_position sp) 6 in
  out sp = fst (format_stream printf (is_finite_value v) sp (resolve_width args sp 0) (resolve_precision args sp 6) new_stream) -> c_library printf negative v precision ->
  width < 2 ^ 63 -> 0 <= precision < 2 ^ 31 -> decimal_type (m_type sp) -> (m_zero_padding sp = true -> m_alignment sp = ADefault) ->
  (m_sign sp = SNegativeOnlyWithPositivePadding -> forall number, printf_text (m_type sp) (m_alternate_form sp) (Z.to_nat precision) v number -> ~ In 43 number) ->
  exists number left_ zeros right_, let fill := value_or (m_fill sp) 32 in let prefix := shown_sign (m_sign sp) negative in
    x = repeat fill left_ ++ prefix ++ repeat 48 zeros ++ in_case (m_case sp) number ++ repeat fill right_ /\
    printf_text (m_type sp) (m_alternate_form sp) (Z.to_nat precision) v number /\
    placed (m_alignment sp) (m_zero_padding sp) left_ zeros right_ /\ Z.of_nat (length x) = Z.max width (Z.of_nat (length (prefix ++ number))).
Proof.
  intros cm args sp out printf neg v x HA HSp HN (a & Ha & HX). rewrite HN in Ha. injection Ha as <-. cbn [format_arg] in HX. injection HX as <-. cbv zeta. intros HF HC HW2 HP HT HZ HB.
  pose proof (width_bounds args sp HA (proj1 (proj2 (proj2 HSp)))) as HW. rewrite width_wanted in * by assumption. rewrite precision_wanted in * by assumption.
  destruct (stream_formatted_partial printf neg v sp _ _ HC HT (conj (proj1 HW) HW2) HP HZ HB) as (number & l & z & r & E & N & P & L). cbv zeta in *. exists number, l, z, r. rewrite HF, E. auto.
Qed.
(** The parser drops the zero padding when an alignment is given. *)
Theorem zero_padding_without_alignment : forall start n p f, m_zero_padding (field_specifier start n p f) = true -> m_alignment (field_specifier start n p f) = ADefault.
Proof. intros start n p f. unfold field_specifier. cbn [m_zero_padding m_alignment]. destruct (o_align _); [rewrite andb_false_r; discriminate|reflexivity]. Qed.

(** ** Examples: {:*>8.2f} with 1.5 shows ****1.50; {:>3c} with 65 shows A after two blanks. *)
Definition starred : specifier := Specifier 0 (Some 42) ARight SDefault false false (Some 8) None (Some 2) None false TFixed CLower 0 9.
Definition one_fifty : list Z := [49; 46; 53; 48].
Definition formatted_one_fifty (sp : specifier) : list Z := match format_float sp 8 2 false one_fifty with Some x => x | None => [] end.
Lemma one_fifty_text : printf_text TFixed false 2 one_and_a_half one_fifty.
Proof.
  exists [49], [53; 48]. split; [|reflexivity]. split; [constructor; [left; lia|apply Forall_nil]|]. split; [repeat (apply Forall_cons; [left; lia|]); apply Forall_nil|].
  split; [reflexivity|]. split; [discriminate|]. split; [now left|]. split; [vm_compute; congruence|vm_compute; discriminate].
Qed.
Example example_floating : exists x, field_output 127 [AFloating formatted_one_fifty] starred x /\ x = [42; 42; 42; 42; 49; 46; 53; 48] /\ spec_ok starred /\
  converted 64 starred 2 one_and_a_half one_fifty /\ fits 64 TFixed 2 one_and_a_half /\ format_float starred 8 2 false one_fifty = Some (formatted_one_fifty starred).
Proof.
  eexists. split; [eexists; split; reflexivity|]. split; [reflexivity|]. split; [split; [discriminate|split; [discriminate|split; intros w E; injection E as <-; lia]]|].
  split; [exists one_fifty; split; [exact one_fifty_text|reflexivity]|]. split; [exists one_fifty; split; [exact one_fifty_text|cbn; lia]|reflexivity].
Qed.
Definition as_character : specifier := Specifier 0 None ARight SDefault false false (Some 3) None None None false TCharacter CLower 0 6.
Example example_character : char_maximum 127 /\ field_output 127 [AInteger 32 true 65] as_character [32; 32; 65] /\ field_output 127 [AInteger 32 true 200] as_character [].
Proof. split; [exists 7; split; [lia|reflexivity]|]. split; eexists; split; reflexivity. Qed.
