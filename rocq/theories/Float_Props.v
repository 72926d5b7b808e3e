(** Property C60: floating-point formatting. *)
From Verif Require Import Common Bits Lexer_Model Lexer_Spec Lexer_Props Format_Model Format_Spec Format_Proofs Float_Model Float_Spec Float_Proofs.

(** ** The texts of the specification: every finite value has exactly one *)
Theorem printf_text_unique : forall t alternate p v s s', printf_text t alternate p v s -> printf_text t alternate p v s' -> s = s'.
Proof.
  intros t alternate p [m e| |] s s'; cbn [printf_text]; [|congruence..]. pose proof (denominator_pos e) as Hd. destruct t; try contradiction.
  - now apply scientific_text_unique. - now apply fixed_text_unique. - now apply general_text_unique.
Qed.
Theorem printf_text_exists : forall t alternate p v, decimal_type t -> (forall m e, v = Finite m e -> 0 <= m) -> exists s, printf_text t alternate p v s.
Proof.
  intros t alternate p [m e| |] HT HM; cbn [printf_text]; [|eexists; reflexivity..]. specialize (HM _ _ eq_refl). apply (numerator_nonneg m e) in HM. pose proof (denominator_pos e) as Hd.
  set (n := numerator m e) in *. set (d := denominator e) in *. clearbody n d. destruct HT as [-> |[-> | ->]].
  - destruct (fixed_exists p n d Hd HM) as (ip & fp & F). eexists. exists ip, fp. split; [assumption|reflexivity].
  - destruct (scientific_exists p n d Hd HM) as (x & c & fp & S). destruct (exponent_text_exists x) as (ex & X). eexists. exists x, c, fp, ex. split; [assumption|]. split; [assumption|reflexivity].
  - unfold general_text. set (P := Nat.max 1 p). destruct (scientific_exists (P - 1) n d Hd HM) as (x & c & fp & S).
    assert (HD : -4 <= x < Z.of_nat P \/ ~ -4 <= x < Z.of_nat P) by lia. destruct HD as [B|B].
    + destruct (fixed_exists (Z.to_nat (Z.of_nat P - 1 - x)) n d Hd HM) as (ip & fp' & F). destruct (without_zeros_exists alternate fp') as (fp1 & W).
      eexists. exists x, c, fp. split; [assumption|]. left. split; [assumption|]. exists ip, fp', fp1. split; [assumption|]. split; [assumption|reflexivity].
    + destruct (without_zeros_exists alternate fp) as (fp1 & W). destruct (exponent_text_exists x) as (ex & X).
      eexists. exists x, c, fp. split; [assumption|]. right. split; [assumption|]. exists fp1, ex. split; [assumption|]. split; [assumption|reflexivity].
Qed.

(** ** The formatter *)
Lemma align_parts spec p prefix number : 0 <= p -> exists left_ zeros right_, let fill := value_or (m_fill spec) 32 in
  align_number spec p prefix number = repeat fill left_ ++ prefix ++ repeat 48 zeros ++ number ++ repeat fill right_ /\ placed (m_alignment spec) (m_zero_padding spec) left_ zeros right_.
Proof.
  intros Hp. unfold align_number, padding, placed. destruct (m_alignment spec); [destruct (m_zero_padding spec)| | |].
  - exists O, (Z.to_nat p), O. cbn [repeat app]. rewrite app_nil_r. auto.
  - exists (Z.to_nat p), O, O. cbn [repeat app]. rewrite app_nil_r. auto.
  - exists O, O, (Z.to_nat p). cbn [repeat app]. auto.
  - exists (Z.to_nat p), O, O. cbn [repeat app]. rewrite app_nil_r. auto.
  - exists (Z.to_nat (p / 2)), O, (Z.to_nat (if p mod 2 =? 0 then p / 2 else p / 2 + 1)). cbn [repeat app]. split; [reflexivity|]. split; [reflexivity|].
    assert (0 <= p / 2) by (apply Z.div_pos; lia). destruct (p mod 2 =? 0); lia.
Qed.
Definition ascii (c : Z) : Prop := 0 <= c < 128.
Lemma upper_ascii l : Forall ascii l -> map (to_upper char_signed) l = in_case CUpper l.
Proof.
  induction 1 as [|c l H HF IH]; [reflexivity|]. cbn [map in_case] in *. rewrite IH. f_equal.
  destruct (to_upper_exact char_signed c ltac:(now left)) as (HU & HN); [unfold char_ok; cbn; unfold ascii in H; lia|]. unfold ascii_lower in *.
  destruct (Z.leb_spec 97 c), (Z.leb_spec c 122); cbn [andb]; (apply HU || apply HN); lia.
Qed.
Lemma in_case_app c a b : in_case c (a ++ b) = in_case c a ++ in_case c b.
Proof. destruct c; [reflexivity|]. apply map_app. Qed.
Lemma in_case_length c a : length (in_case c a) = length a.
Proof. destruct c; [reflexivity|]. apply map_length. Qed.
Lemma in_case_zeros c k : in_case c (repeat 48 k) = repeat 48 k.
Proof. destruct c; [reflexivity|]. cbn. induction k as [|k IH]; [reflexivity|]. cbn. now rewrite IH. Qed.

Lemma float_prefix_eq spec neg : float_prefix spec neg = shown_sign (m_sign spec) neg /\ float_prefix_size spec neg = Z.of_nat (length (shown_sign (m_sign spec) neg)).
Proof. unfold float_prefix, float_prefix_size, shown_sign. destruct neg, (m_sign spec); split; reflexivity. Qed.
Lemma int_precision_small p : 0 <= p < 2 ^ 31 -> int_precision p = p.
Proof.
  intros H. unfold int_precision, signed. change (2 ^ 31) with 2147483648 in H. change (2 ^ 32) with 4294967296. change (2 ^ (32 - 1)) with 2147483648. rewrite Z.mod_small by lia. destruct (Z.ltb_spec p 2147483648); lia.
Qed.
Definition upper_conversion (r : conversion) : conversion := Conversion (map (to_upper char_signed) (m_digits r)) (map (to_upper char_signed) (m_exponent r)) (m_append_decimal r) (m_zeroes_to_append r).

(** What is left to do once the conversion is known. *)
Lemma format_float_parts spec width precision neg buf r : 0 <= width < 2 ^ 64 ->
  convert_value spec (int_precision precision) buf = Some r -> 0 <= m_zeroes_to_append r -> Z.of_nat (length (float_number r)) < 2 ^ 63 ->
  exists left_ zeros right_, let fill := value_or (m_fill spec) 32 in let prefix := shown_sign (m_sign spec) neg in
    let out := repeat fill left_ ++ prefix ++ repeat 48 zeros ++ float_number r ++ repeat fill right_ in
    format_float spec width precision neg buf = Some out /\ placed (m_alignment spec) (m_zero_padding spec) left_ zeros right_ /\
    Z.of_nat (length out) = Z.max width (Z.of_nat (length (prefix ++ float_number r))).
Proof.
  intros Hw E HZ HL. unfold format_float. rewrite E. destruct (float_prefix_eq spec neg) as (EP & ES). rewrite EP, ES.
  set (prefix := shown_sign (m_sign spec) neg).
  assert (HP : (length prefix <= 1)%nat) by (unfold prefix, shown_sign; destruct neg, (m_sign spec); cbn; lia).
  assert (EN : Z.of_nat (length prefix) + Z.of_nat (length (m_digits r)) + Z.of_nat (length (m_exponent r)) + (if m_append_decimal r then 1 else 0) + m_zeroes_to_append r = Z.of_nat (length (prefix ++ float_number r))).
  { unfold float_number. rewrite !app_length, repeat_length. destruct (m_append_decimal r); cbn [length]; lia. }
  rewrite EN. assert (EU : u64 (Z.of_nat (length (prefix ++ float_number r))) = Z.of_nat (length (prefix ++ float_number r))).
  { apply Z.mod_small. rewrite app_length. change (2 ^ 64) with (2 * 2 ^ 63). lia. }
  rewrite EU. set (N := Z.of_nat (length (prefix ++ float_number r))) in *. clearbody prefix.
  destruct (align_parts spec (Z.max N width - N) prefix (float_number r)) as (l & z & q & EA & PL); [lia|]. cbv zeta in EA.
  exists l, z, q. cbv zeta. split; [now rewrite EA|]. split; [assumption|]. rewrite <- EA. rewrite align_length by lia. unfold N. rewrite app_length. lia.
Qed.

(** *** Without the alternate form: the text of std::to_chars, for every presentation type *)
Theorem float_text_shown : forall size spec width precision neg text buf, Z.of_nat size < 2 ^ 32 -> 0 <= width < 2 ^ 64 -> Forall ascii text -> (length text <= size)%nat -> to_chars_into size text buf -> m_alternate_form spec = false ->
  exists left_ zeros right_, let fill := value_or (m_fill spec) 32 in let prefix := shown_sign (m_sign spec) neg in
    let out := repeat fill left_ ++ prefix ++ repeat 48 zeros ++ in_case (m_case spec) text ++ repeat fill right_ in
    format_float spec width precision neg buf = Some out /\ placed (m_alignment spec) (m_zero_padding spec) left_ zeros right_ /\
    Z.of_nat (length out) = Z.max width (Z.of_nat (length (prefix ++ text))).
Proof.
  intros size spec width precision neg text buf HS Hw HA HL HB HAlt. unfold to_chars_into in HB. destruct (Nat.leb_spec (length text) size); [|lia]. subst buf.
  assert (EC : convert_value spec (int_precision precision) text = Some (Conversion (in_case (m_case spec) text) [] false 0)).
  { unfold convert_value. rewrite HAlt. destruct (m_case spec); [reflexivity|]. cbn [m_digits m_exponent m_append_decimal m_zeroes_to_append]. now rewrite upper_ascii. }
  assert (EN : float_number (Conversion (in_case (m_case spec) text) [] false 0) = in_case (m_case spec) text) by (unfold float_number; cbn; now rewrite app_nil_r).
  destruct (format_float_parts spec width precision neg text _ Hw EC) as (l & z & q & H1 & H2 & H3); [cbn; lia|rewrite EN, in_case_length; change (2 ^ 63) with (2 ^ 31 * 2 ^ 32); lia|].
  rewrite EN in *. exists l, z, q. cbv zeta in *. split; [assumption|]. split; [assumption|]. rewrite H3, !app_length, in_case_length. reflexivity.
Qed.

(** *** The characters of a text *)
Lemma digit_ascii l : decimal_digits l -> Forall ascii l /\ Forall (fun c => c <> 46) l /\ Forall (fun c => c <> 101) l /\ Forall (fun c => c <> 0) l.
Proof. intros H. repeat split; (eapply Forall_impl; [|exact H]); intros c Hc; unfold digit_of, ascii in *; lia. Qed.
Lemma exponent_text_chars x ex : exponent_text x ex -> exists r, ex = 101 :: r /\ Forall ascii r /\ Forall (fun c => c <> 46) r /\ Forall (fun c => c <> 101) r.
Proof.
  intros (ds & -> & (D & _)). apply digit_ascii in D. destruct D as (D1 & D2 & D3 & D4). eexists. split; [reflexivity|].
  repeat split; (constructor; [unfold ascii; destruct (x <? 0); lia|]); (apply Forall_app; split; [destruct (Z.abs x <? 10); [constructor; [unfold ascii; lia|constructor]|constructor]|assumption]).
Qed.
Lemma point_chars (Q : Z -> Prop) alt fp : Q 46 -> Forall Q fp -> Forall Q (point alt fp).
Proof. intros H F. unfold point. destruct fp; [destruct alt; auto|now constructor]. Qed.
Lemma without_zeros_sub fp fp' : without_zeros false fp fp' -> exists k, fp = fp' ++ repeat 48 k.
Proof. intros (k & E & _). now exists k. Qed.
Lemma fixed_parts p n d ip fp : fixed_digits p n d ip fp -> decimal_digits ip /\ decimal_digits fp.
Proof. intros (H1 & H2 & _). now split. Qed.
Lemma sub_digits fp fp' : without_zeros false fp fp' -> decimal_digits fp -> decimal_digits fp'.
Proof. intros W D. apply without_zeros_sub in W. destruct W as (k & ->). apply Forall_app in D. tauto. Qed.

(** A text without the alternate form: digits and perhaps a point, then perhaps an exponent. *)
Lemma text_parts t p m e text : printf_text t false p (Finite m e) text -> exists ip fp ex, text = ip ++ point false fp ++ ex /\
  decimal_digits ip /\ decimal_digits fp /\ (ex = [] \/ t <> TFixed /\ exists r, ex = 101 :: r /\ Forall ascii r /\ Forall (fun c => c <> 46) r /\ Forall (fun c => c <> 101) r) /\ (t = TFixed \/ t = TScientific \/ t = TGeneral).
Proof.
  cbn [printf_text]. destruct t; try contradiction.
  - intros (x & c & fp & ex & (D & _) & X & ->). inversion D as [|? ? Dc Df]; subst. exists [c], fp, ex. split; [reflexivity|]. split; [now constructor|]. split; [assumption|]. split; [|tauto]. right. split; [discriminate|]. now apply exponent_text_chars in X.
  - intros (ip & fp & F & ->). apply fixed_parts in F. destruct F. exists ip, fp, []. rewrite app_nil_r. auto 10.
  - intros (x & c & ds & (D & _) & [(B & ip & fp & fp' & F & W & ->)|(B & ds' & ex & W & X & ->)]).
    + apply fixed_parts in F. destruct F as (F1 & F2). exists ip, fp', []. rewrite app_nil_r. split; [reflexivity|]. split; [assumption|]. split; [eapply sub_digits; eassumption|]. auto.
    + inversion D as [|? ? Dc Df]; subst. exists [c], ds', ex. split; [reflexivity|]. split; [now constructor|]. split; [eapply sub_digits; eassumption|]. split; [|tauto]. right. split; [discriminate|]. now apply exponent_text_chars in X.
Qed.
Theorem printf_text_ascii : forall t p v text, printf_text t false p v text -> Forall ascii text.
Proof.
  intros t p [m e| |] text H; [|cbn in H; subst; repeat constructor; unfold ascii; lia..].
  apply text_parts in H. destruct H as (ip & fp & ex & -> & D1 & D2 & HX & _). apply Forall_app. split; [now apply digit_ascii|]. apply Forall_app. split; [apply point_chars; [unfold ascii; lia|now apply digit_ascii]|].
  destruct HX as [-> |(_ & r & -> & A & _)]; [constructor|constructor; [unfold ascii; lia|assumption]].
Qed.

(** *** The scan of the buffer *)
Definition has_point (l : list Z) : bool := existsb (fun c => c =? 46) l.
Lemma scan_app e a rest : forall pos r, e <> 46 -> Forall (fun c => c <> e) a ->
  scan_buffer e (a ++ rest) pos r = scan_buffer e rest (pos + length a) (Conversion (m_digits r) (m_exponent r) (m_append_decimal r && negb (has_point a)) (m_zeroes_to_append r)).
Proof.
  induction a as [|c a IH]; intros pos [g x b z] He H; cbn [app scan_buffer length has_point existsb m_digits m_exponent m_append_decimal m_zeroes_to_append].
  - rewrite Nat.add_0_r. cbn [negb]. now rewrite andb_true_r.
  - inversion H as [|? ? Hc Ha]; subst. replace (pos + S (length a))%nat with (S pos + length a)%nat by lia.
    destruct (Z.eqb_spec c 46) as [-> |N].
    + rewrite IH by assumption. cbn [orb negb m_digits m_exponent m_append_decimal m_zeroes_to_append]. now rewrite andb_false_r.
    + destruct (Z.eqb_spec c e); [contradiction|]. rewrite IH by assumption. reflexivity.
Qed.
Lemma has_point_no l : Forall (fun c => c <> 46) l -> has_point l = false.
Proof. induction 1 as [|c l H HF IH]; [reflexivity|]. cbn. destruct (Z.eqb_spec c 46); [contradiction|assumption]. Qed.
Lemma scan_text e a ex : e <> 46 -> Forall (fun c => c <> e) a -> ex = [] \/ (exists r, ex = e :: r /\ Forall (fun c => c <> 46) r /\ Forall (fun c => c <> e) r) ->
  scan_buffer e (a ++ ex) 0 (Conversion (a ++ ex) [] true 0) = Some (Conversion a ex (negb (has_point a)) 0).
Proof.
  intros He HA HX. rewrite scan_app by assumption. cbn [m_digits m_exponent m_append_decimal m_zeroes_to_append Nat.add andb].
  destruct HX as [-> |(r & -> & R1 & R2)]; [now rewrite app_nil_r|].
  cbn [scan_buffer m_digits m_exponent m_append_decimal m_zeroes_to_append]. destruct (Z.eqb_spec e 46); [contradiction|]. rewrite Z.eqb_refl. rewrite app_length.
  destruct (Nat.leb_spec (length a) (length a + length (e :: r))); [|lia]. rewrite firstn_app, Nat.sub_diag, firstn_all, firstn_O, app_nil_r. rewrite skipn_app, Nat.sub_diag, skipn_all, skipn_O. cbn [app].
  rewrite <- (app_nil_r r) at 1. rewrite scan_app by assumption. cbn [scan_buffer m_digits m_exponent m_append_decimal m_zeroes_to_append]. rewrite (has_point_no r R1). cbn [negb]. now rewrite andb_true_r.
Qed.

(** *** The alternate form *)
Lemma has_point_mantissa ip fp : decimal_digits ip -> has_point (ip ++ point false fp) = match fp with [] => false | _ => true end.
Proof.
  intros D. unfold has_point. rewrite existsb_app. fold (has_point ip). rewrite has_point_no by now apply digit_ascii. destruct fp; reflexivity.
Qed.
Definition cased (c : fcase) (r : conversion) : conversion := match c with CLower => r | CUpper => upper_conversion r end.
Lemma cased_number c r : Forall ascii (m_digits r) -> Forall ascii (m_exponent r) -> float_number (cased c r) = in_case c (float_number r).
Proof.
  intros A B. destruct c; [reflexivity|]. unfold float_number, cased, upper_conversion. cbn [m_digits m_exponent m_append_decimal m_zeroes_to_append]. rewrite !in_case_app, !upper_ascii, in_case_zeros by assumption. now destruct (m_append_decimal r).
Qed.
Lemma cased_zeroes c r : m_zeroes_to_append (cased c r) = m_zeroes_to_append r.
Proof. now destruct c. Qed.

(** ip . fp, the zeros and the exponent *)
Lemma alternate_number spec precision ip fp ex : m_alternate_form spec = true -> decimal_type (m_type spec) -> 0 <= precision < 2 ^ 31 -> Z.of_nat (length ip + length fp) < 2 ^ 32 ->
  decimal_digits ip -> decimal_digits fp -> ip <> [] ->
  (ex = [] \/ m_type spec <> TFixed /\ exists r, ex = 101 :: r /\ Forall ascii r /\ Forall (fun c => c <> 46) r /\ Forall (fun c => c <> 101) r) ->
  exists r, convert_value spec precision (ip ++ point false fp ++ ex) = Some r /\
    m_zeroes_to_append r = (if match m_type spec with TGeneral => true | _ => false end then Z.max 0 (precision - Z.of_nat (length ip + length fp)) else 0) /\
    float_number r = in_case (m_case spec) (ip ++ 46 :: fp ++ repeat 48 (Z.to_nat (m_zeroes_to_append r)) ++ ex).
Proof.
  intros HA HT HP HL D1 D2 HN HX. change (2 ^ 31) with 2147483648 in HP. change (2 ^ 32) with 4294967296 in HL.
  set (a := ip ++ point false fp). assert (AA : Forall ascii a) by (apply Forall_app; split; [now apply digit_ascii|apply point_chars; [unfold ascii; lia|now apply digit_ascii]]).
  set (e := exponent_char (m_type spec)).
  assert (ES : scan_buffer e (a ++ ex) 0 (Conversion (a ++ ex) [] true 0) = Some (Conversion a ex (negb (has_point a)) 0)).
  { apply scan_text.
    - unfold e. destruct HT as [-> |[-> | ->]]; discriminate.
    - apply digit_ascii in D1, D2. apply Forall_app. unfold e. destruct HT as [-> |[-> | ->]]; cbn [exponent_char]; (split; [tauto|apply point_chars; [lia|tauto]]).
    - destruct HX as [-> |(HF & r & -> & R1 & R2 & R3)]; [now left|right]. exists r. unfold e. destruct HT as [HT|[-> | ->]]; [contradiction|..]; cbn [exponent_char]; auto. }
  assert (AX : Forall ascii ex) by (destruct HX as [-> |(_ & r & -> & R1 & _)]; [constructor|constructor; [unfold ascii; lia|assumption]]).
  assert (EP : has_point a = match fp with [] => false | _ => true end) by now apply has_point_mantissa.
  assert (EL : Z.of_nat (length a) - (if negb (has_point a) then 0 else 1) = Z.of_nat (length ip + length fp)).
  { rewrite EP. unfold a, point. rewrite app_length. destruct fp; cbn [length negb]; lia. }
  assert (EZ : zeroes precision (Conversion a ex (negb (has_point a)) 0) = Z.max 0 (precision - Z.of_nat (length ip + length fp))).
  { unfold zeroes. cbn [m_digits m_append_decimal]. rewrite EL. unfold u64, wrap. change (2 ^ 64) with 18446744073709551616. rewrite !Z.mod_small by lia. rewrite Z.gtb_ltb. destruct (Z.ltb_spec (Z.of_nat (length ip + length fp)) precision); lia. }
  set (z := if match m_type spec with TGeneral => true | _ => false end then Z.max 0 (precision - Z.of_nat (length ip + length fp)) else 0).
  exists (cased (m_case spec) (Conversion a ex (negb (has_point a)) z)). split; [|split].
  - unfold convert_value. rewrite HA, app_assoc. fold a e. rewrite ES. cbn [m_digits m_exponent m_append_decimal m_zeroes_to_append].
    assert (EC : match m_type spec with TGeneral => Conversion a ex (negb (has_point a)) (zeroes precision (Conversion a ex (negb (has_point a)) 0)) | _ => Conversion a ex (negb (has_point a)) 0 end = Conversion a ex (negb (has_point a)) z).
    { unfold z. rewrite EZ. now destruct HT as [-> |[-> | ->]]. }
    rewrite EC. now destruct (m_case spec).
  - now rewrite cased_zeroes.
  - rewrite cased_number by assumption. rewrite cased_zeroes. f_equal. unfold float_number. cbn [m_digits m_exponent m_append_decimal m_zeroes_to_append]. rewrite EP. unfold a. destruct fp as [|c fp]; cbn [point negb app]; rewrite <- !app_assoc; [reflexivity|]. cbn [app]. reflexivity.
Qed.

(** The exponent of the values for which the zeros are counted right. *)
Lemma exponent_nonneg p n d x ds : 0 < d -> 0 <= n -> n = 0 \/ d <= n -> scientific_digits p n d x ds -> 0 <= x.
Proof.
  intros Hd Hn HV (_ & _ & [(_ & -> & _)|(HN & x0 & r & H1 & H2 & HR & HC)]); [lia|].
  assert (0 <= x0).
  { destruct (Z.le_gt_cases 0 x0) as [|G]; [assumption|exfalso]. apply H2. apply (at_least_mono n d _ 0); [assumption..|lia|]. unfold at_least_pow10. cbn. lia. }
  lia.
Qed.
Lemma exponent_small p n d x ds : 0 < d -> 0 < n -> 100000 * n <= 9 * d -> scientific_digits p n d x ds -> x < -4.
Proof.
  intros Hd Hn HV (_ & _ & [(-> & _)|(HN & x0 & r & H1 & H2 & HR & HC)]); [lia|].
  assert (x0 <= -5).
  { destruct (Z.le_gt_cases x0 (-5)) as [|G]; [assumption|exfalso]. apply (at_least_mono n d (-4)) in H1; [|lia..]. unfold at_least_pow10 in H1. cbn in H1. lia. }
  destruct HC as [(_ & -> & _)|(HE & -> & _)]; [lia|]. destruct (Z.eq_dec x0 (-5)) as [-> |]; [exfalso|lia].
  assert (HB : r <= 9 * 10 ^ Z.of_nat p).
  { apply (nearest_even_le _ _ _ _ (scaled_den_pos d _ Hd) HR). rewrite (Z.max_l (Z.of_nat p - -5) 0), (Z.max_r (- (Z.of_nat p - -5)) 0) by lia. rewrite Z.mul_1_r. replace (Z.of_nat p - -5) with (5 + Z.of_nat p) by lia. rewrite Z.pow_add_r by lia. change (10 ^ 5) with 100000.
    pose proof (pow10_pos (Z.of_nat p) ltac:(lia)). assert (100000 * n * 10 ^ Z.of_nat p <= 9 * d * 10 ^ Z.of_nat p) by (apply Z.mul_le_mono_nonneg_r; lia). lia. }
  rewrite HE, Z.pow_add_r in HB by lia. change (10 ^ 1) with 10 in HB. pose proof (pow10_pos (Z.of_nat p) ltac:(lia)). lia.
Qed.
(** 0, at least 1, or below 0.00009 *)
Definition no_leading_zeros (v : magnitude) : Prop :=
  match v with Finite m e => m = 0 \/ denominator e <= numerator m e \/ 100000 * numerator m e <= 9 * denominator e | _ => False end.
Definition is_finite (v : magnitude) : Prop := match v with Finite m _ => 0 <= m | _ => False end.

Lemma alternate_conversion spec precision m e text : m_alternate_form spec = true -> decimal_type (m_type spec) -> 0 <= precision < 2 ^ 31 -> Z.of_nat (length text) < 2 ^ 32 -> 0 <= m ->
  printf_text (m_type spec) false (Z.to_nat precision) (Finite m e) text -> (m_type spec = TGeneral -> no_leading_zeros (Finite m e)) ->
  exists number r, printf_text (m_type spec) true (Z.to_nat precision) (Finite m e) number /\ convert_value spec precision text = Some r /\ 0 <= m_zeroes_to_append r < 2 ^ 31 /\ float_number r = in_case (m_case spec) number /\
    (length number <= length text + 1 + Z.to_nat precision)%nat.
Proof.
  intros HA HT HP HL Hm HX HG.
  assert (GL : forall (ip fp ex : list Z), (length (ip ++ point false fp ++ ex) <= length ip + 1 + length fp + length ex)%nat /\ (length ip + length fp + length ex <= length (ip ++ point false fp ++ ex))%nat).
  { intros ip fp ex. unfold point. rewrite !app_length. destruct fp; cbn [length]; lia. }
  pose proof (denominator_pos e) as Hd. pose proof (numerator_nonneg m e Hm) as Hn.
  pose proof (alternate_number spec precision) as AN.
  destruct (m_type spec) eqn:ET; cbn [printf_text] in HX; try contradiction.
  - (* %e *)
    destruct HX as (x & c & fp & ex & S & X & ->). pose proof S as S0. destruct S as (D & L & _). inversion D as [|? ? Dc Df]; subst.
    destruct (GL [c] fp ex) as (G1 & G2). change (c :: point false fp ++ ex) with ([c] ++ point false fp ++ ex) in *.
    destruct (AN [c] fp ex) as (r & R1 & R2 & R3); [assumption..|cbn [length] in *; lia|constructor; [assumption|constructor]|assumption|discriminate|right; split; [discriminate|now apply exponent_text_chars in X]|].
    rewrite R2 in R3. cbn [Z.to_nat repeat app] in R3. exists (c :: point true fp ++ ex), r. split; [exists x, c, fp, ex; split; [exact S0|split; [assumption|reflexivity]]|]. split; [assumption|]. split; [rewrite R2; lia|]. split; [rewrite R3; f_equal; now destruct fp|].
    cbn [app length] in *. rewrite !app_length in *. unfold point in *. destruct fp; cbn [length] in *; lia.
  - (* %f *)
    destruct HX as (ip & fp & F & ->). pose proof F as F0. destruct F as (D1 & D2 & L & N & _). destruct (GL ip fp []) as (G1 & G2). rewrite app_nil_r in *.
    destruct (AN ip fp []) as (r & R1 & R2 & R3); [assumption..|cbn [length] in *; lia|assumption|assumption|assumption|now left|]. rewrite !app_nil_r in *.
    rewrite R2 in R3. cbn [Z.to_nat repeat app] in R3. rewrite app_nil_r in R3. exists (ip ++ point true fp), r. split; [exists ip, fp; split; [exact F0|reflexivity]|]. split; [assumption|]. split; [rewrite R2; lia|]. split; [rewrite R3; f_equal; now destruct fp|].
    rewrite !app_length in *. unfold point in *. destruct fp; cbn [length] in *; lia.
  - (* %g *)
    specialize (HG eq_refl). cbn [no_leading_zeros] in HG. unfold general_text in HX |- *. set (P := Nat.max 1 (Z.to_nat precision)) in *. destruct HX as (x & c & ds & S & HX).
    assert (HX2 : 0 <= x \/ x < -4).
    { destruct HG as [-> |[HG|HG]]; [left; apply (exponent_nonneg _ _ _ _ _ Hd Hn (or_introl eq_refl) S)|left; apply (exponent_nonneg _ _ _ _ _ Hd Hn (or_intror HG) S)|].
      destruct (Z.eq_dec (numerator m e) 0) as [EZ|NZ]; [left; apply (exponent_nonneg _ _ _ _ _ Hd Hn (or_introl EZ) S)|right; refine (exponent_small _ _ _ _ _ Hd _ HG S); lia]. }
    destruct HX as [(B & ip & fp & fp' & F & W & ->)|(B & ds' & ex & W & X & ->)].
    + assert (HB : 0 <= x < Z.of_nat P) by lia. assert (HPp : (0 < P)%nat) by (unfold P; lia). pose proof (general_length P _ _ x _ ip fp Hd Hn HPp HB S F) as HLen. destruct (fixed_parts _ _ _ _ _ F) as (D1 & D2). pose proof (sub_digits _ _ W D2) as D3. pose proof F as F0. destruct F as (_ & _ & _ & N & _).
      destruct (GL ip fp' []) as (G1 & G2). rewrite app_nil_r in *.
      destruct (AN ip fp' []) as (r & R1 & R2 & R3); [assumption..|cbn [length] in *; lia|assumption|assumption|assumption|now left|]. rewrite !app_nil_r in *.
      destruct (without_zeros_sub _ _ W) as (k & EK).
      assert (EZ : Z.to_nat (m_zeroes_to_append r) = k).
      { rewrite R2. assert (HK : length fp = (length fp' + k)%nat) by now rewrite EK, app_length, repeat_length.
        destruct (Z.eq_dec precision 0) as [-> |NZ]; [|unfold P in *; lia]. assert (length ip = 1 /\ length fp = 0)%nat by (assert (length ip <> 0)%nat by (destruct ip; [now elim N|discriminate]); unfold P in HLen; cbn in HLen; lia). cbn in *. lia. }
      rewrite EZ, <- EK in R3. exists (ip ++ point true fp), r. split.
      { exists x, c, ds. split; [assumption|]. left. split; [assumption|]. exists ip, fp, fp. split; [assumption|]. split; reflexivity. }
      split; [assumption|]. split; [rewrite R2; lia|]. split; [rewrite R3; f_equal; now destruct fp|].
      assert (LP : (length (point true fp) <= 1 + length fp)%nat) by (unfold point; destruct fp; cbn [length]; lia). assert (length ip <> 0)%nat by (destruct ip; [now elim N|discriminate]). rewrite !app_length in *. unfold P in HLen. lia.
    + pose proof S as S0. destruct S as (D & L & C). inversion D as [|? ? Dc Df]; subst. pose proof (sub_digits _ _ W Df) as D3.
      destruct (GL [c] ds' ex) as (G1 & G2). change (c :: point false ds' ++ ex) with ([c] ++ point false ds' ++ ex) in *.
      destruct (AN [c] ds' ex) as (r & R1 & R2 & R3); [assumption..|cbn [length] in *; lia|constructor; [assumption|constructor]|assumption|discriminate|right; split; [discriminate|now apply exponent_text_chars in X]|].
      destruct (without_zeros_sub _ _ W) as (k & EK). cbn [length] in *.
      assert (EZ : Z.to_nat (m_zeroes_to_append r) = k).
      { rewrite R2. assert (HK : length ds = (length ds' + k)%nat) by now rewrite EK, app_length, repeat_length. unfold P in *. lia. }
      assert (E3 : 46 :: ds' ++ repeat 48 k ++ ex = (46 :: ds) ++ ex) by (rewrite EK; cbn [app]; now rewrite <- app_assoc).
      rewrite EZ in R3. cbn [app] in R3. exists (c :: point true ds ++ ex), r. split.
      { exists x, c, ds. split; [exact S0|]. right. split; [assumption|]. exists ds, ex. split; [reflexivity|]. split; [assumption|reflexivity]. }
      split; [assumption|]. split; [rewrite R2; lia|]. split.
      { rewrite R3. f_equal. cbn [app]. f_equal. rewrite E3. now destruct ds. }
      assert (LP : (length (point true ds) <= 1 + length ds)%nat) by (unfold point; destruct ds; cbn [length]; lia). cbn [app length] in *. rewrite !app_length in *. unfold P in L. lia.
Qed.

(** *** The main theorem *)
(** What the call of std::to_chars leaves in the buffer of [size] characters. *)
Definition converted (size : nat) (spec : specifier) (precision : Z) (v : magnitude) (buf : list Z) : Prop :=
  exists text, printf_text (chars_format (m_type spec)) false (requested_precision (int_precision precision)) v text /\ to_chars_into size text buf.
(** The text is no longer than the buffer. *)
Definition fits (size : nat) (t : ftype) (precision : Z) (v : magnitude) : Prop := exists text, printf_text t false (Z.to_nat precision) v text /\ (length text <= size)%nat.

Lemma chars_format_decimal t : decimal_type t -> chars_format t = t.
Proof. intros [-> |[-> | ->]]; reflexivity. Qed.
Lemma requested_precision_small p : 0 <= p < 2 ^ 31 -> requested_precision (int_precision p) = Z.to_nat p.
Proof. intros H. rewrite int_precision_small by assumption. unfold requested_precision. destruct (Z.ltb_spec p 0); [lia|reflexivity]. Qed.

Theorem float_formatted : forall size spec width precision negative v buf,
  Z.of_nat size < 2 ^ 32 -> 0 <= width < 2 ^ 64 -> 0 <= precision < 2 ^ 31 -> decimal_type (m_type spec) ->
  converted size spec precision v buf -> fits size (m_type spec) precision v ->
  (m_alternate_form spec = true -> is_finite v /\ (m_type spec = TGeneral -> no_leading_zeros v)) ->
  exists number left_ zeros right_, let fill := value_or (m_fill spec) 32 in let prefix := shown_sign (m_sign spec) negative in
    let out := repeat fill left_ ++ prefix ++ repeat 48 zeros ++ in_case (m_case spec) number ++ repeat fill right_ in
    format_float spec width precision negative buf = Some out /\ printf_text (m_type spec) (m_alternate_form spec) (Z.to_nat precision) v number /\
    placed (m_alignment spec) (m_zero_padding spec) left_ zeros right_ /\ Z.of_nat (length out) = Z.max width (Z.of_nat (length (prefix ++ number))).
Proof.
  intros size spec width precision neg v buf HS Hw HP HT (text & HX & HB) (text' & HX' & HL) HA.
  rewrite chars_format_decimal, requested_precision_small in HX by assumption. pose proof (printf_text_unique _ _ _ _ _ _ HX HX') as <-.
  destruct (m_alternate_form spec) eqn:EA.
  - destruct (HA eq_refl) as (HF & HG). destruct v as [m e| |]; [|contradiction..]. cbn [is_finite] in HF.
    unfold to_chars_into in HB. destruct (Nat.leb_spec (length text) size); [|lia]. subst buf.
    destruct (alternate_conversion spec precision m e text EA HT HP) as (number & r & N1 & N2 & N3 & N4 & N5); [lia|assumption..|].
    rewrite <- (int_precision_small precision HP) in N2.
    destruct (format_float_parts spec width precision neg text r Hw N2) as (l & z & q & H1 & H2 & H3); [lia| |].
    { rewrite N4, in_case_length. change (2 ^ 63) with 9223372036854775808. change (2 ^ 31) with 2147483648 in *. change (2 ^ 32) with 4294967296 in *. lia. }
    cbv zeta in *. rewrite N4 in *. exists number, l, z, q. split; [assumption|]. split; [assumption|]. split; [assumption|]. rewrite H3, !app_length, in_case_length. reflexivity.
  - destruct (float_text_shown size spec width precision neg text buf HS Hw (printf_text_ascii _ _ _ _ HX) HL HB EA) as (l & z & q & H1 & H2 & H3).
    exists text, l, z, q. auto.
Qed.

(** *** When the text fits *)
Lemma exponent_text_length x ex : - 1000 < x < 1000 -> exponent_text x ex -> (length ex <= 5)%nat.
Proof.
  intros HX (ds & -> & (D & V & N & C)). cbn [length]. rewrite app_length.
  assert (HL : (length ds <= 3)%nat).
  { destruct C as [C|C]; [lia|]. pose proof (canonical_ge ds [] D (Forall_nil _) N C) as G. rewrite app_nil_r, V in G. cbn [length] in G. rewrite Nat.add_0_r in G.
    assert (Z.of_nat (length ds - 1) < 3) by (apply (Z.pow_lt_mono_r_iff 10); [lia|lia|]; change (10 ^ 3) with 1000; lia). lia. }
  destruct (Z.ltb_spec (Z.abs x) 10); [|cbn; lia]. cbn [length].
  destruct C as [C|C]; [lia|]. pose proof (canonical_ge ds [] D (Forall_nil _) N C) as G. rewrite app_nil_r, V in G. cbn [length] in G. rewrite Nat.add_0_r in G.
  assert (Z.of_nat (length ds - 1) < 1) by (apply (Z.pow_lt_mono_r_iff 10); [lia|lia|]; change (10 ^ 1) with 10; lia). lia.
Qed.
Lemma fixed_bound p n d k : 0 < d -> 0 <= n -> 0 <= k -> n <= 10 ^ k * d -> forall ip fp, fixed_digits p n d ip fp -> Z.of_nat (length ip) <= k + 1.
Proof.
  intros Hd Hn Hk HB ip fp (D1 & D2 & L & N & C & R). destruct C as [C|C]; [rewrite C; lia|].
  pose proof (canonical_ge ip fp D1 D2 N C) as G. pose proof (pow10_pos (Z.of_nat p) ltac:(lia)).
  assert (HR : positional_value 10 (ip ++ fp) <= 10 ^ (k + Z.of_nat p)).
  { apply (nearest_even_le _ _ _ _ Hd R). rewrite Z.pow_add_r by lia. assert (n * 10 ^ Z.of_nat p <= 10 ^ k * d * 10 ^ Z.of_nat p) by (apply Z.mul_le_mono_nonneg_r; lia). lia. }
  assert (Z.of_nat (length ip + length fp - 1) <= k + Z.of_nat p) by (apply (Z.pow_le_mono_r_iff 10); lia). rewrite L in *. lia.
Qed.
Lemma below_pow10 n d x : 0 <= x -> ~ at_least_pow10 n d x -> n <= 10 ^ x * d.
Proof. intros H. unfold at_least_pow10. rewrite (Z.max_l x 0), (Z.max_r (- x) 0) by lia. lia. Qed.
Lemma scientific_exponent p n d x ds : 0 < d -> 0 <= n -> at_least_pow10 n d (-999) \/ n = 0 -> ~ at_least_pow10 n d 999 -> scientific_digits p n d x ds -> - 1000 < x < 1000.
Proof.
  intros Hd Hn H1 H2 (_ & _ & [(_ & -> & _)|(HN & x0 & r & H3 & H4 & HR & HC)]); [lia|].
  assert (-999 <= x0) by (destruct (Z.le_gt_cases (-999) x0) as [|G]; [assumption|exfalso; apply H4; destruct H1 as [H1|H1]; [apply (at_least_mono n d _ (-999)); (assumption || lia)|lia]]).
  assert (x0 < 999) by (destruct (Z.lt_ge_cases x0 999) as [|G]; [assumption|exfalso; apply H2; apply (at_least_mono n d _ x0); (assumption || lia)]).
  lia.
Qed.
Lemma scientific_above p n d x ds : 0 < d -> 0 <= n -> scientific_digits p n d x ds -> ~ at_least_pow10 n d (x + 1).
Proof.
  intros Hd Hn (_ & _ & [(-> & -> & _)|(HN & x0 & r & H3 & H4 & HR & HC)]) G; [unfold at_least_pow10 in G; cbn in G; lia|].
  apply H4. apply (at_least_mono n d _ (x + 1)); (assumption || lia).
Qed.
Lemma without_zeros_length fp fp' : without_zeros false fp fp' -> (length fp' <= length fp)%nat.
Proof. intros W. apply without_zeros_sub in W. destruct W as (k & ->). rewrite app_length. lia. Qed.
Lemma point_length alt (fp : list Z) : (length (point alt fp) <= 1 + length fp)%nat.
Proof. unfold point. destruct fp; [destruct alt|]; cbn [length]; lia. Qed.
Lemma scientific_text_length p n d s : 0 < d -> 0 <= n -> at_least_pow10 n d (-999) \/ n = 0 -> ~ at_least_pow10 n d 999 -> scientific_text false p n d s -> (length s <= p + 7)%nat.
Proof.
  intros Hd Hn H1 H2 (x & c & fp & ex & S & X & ->). pose proof (scientific_exponent _ _ _ _ _ Hd Hn H1 H2 S) as B. pose proof (exponent_text_length _ _ B X). destruct S as (_ & L & _). cbn [length] in *. rewrite app_length. pose proof (point_length false fp). lia.
Qed.
Lemma general_text_length p n d s : 0 < d -> 0 <= n -> at_least_pow10 n d (-999) \/ n = 0 -> ~ at_least_pow10 n d 999 -> general_text false p n d s -> (length s <= Nat.max 1 p + 6)%nat.
Proof.
  intros Hd Hn H1 H2. unfold general_text. set (P := Nat.max 1 p). assert (HP : (0 < P)%nat) by (unfold P; lia). clearbody P.
  intros (x & c & ds & S & [(B & ip & fp & fp' & F & W & ->)|(B & ds' & ex & W & X & ->)]).
  - pose proof (without_zeros_length _ _ W). pose proof (point_length false fp'). rewrite app_length.
    destruct (Z.le_gt_cases 0 x) as [HX|HX].
    + assert (HB : 0 <= x < Z.of_nat P) by lia. pose proof (general_length P n d x _ ip fp Hd Hn HP HB S F). lia.
    + pose proof (scientific_above _ _ _ _ _ Hd Hn S) as HA.
      assert (HA0 : ~ at_least_pow10 n d 0) by (intros G; apply HA; apply (at_least_mono n d _ 0); (assumption || lia)).
      apply below_pow10 in HA0; [|lia]. pose proof (fixed_bound _ _ _ 0 Hd Hn ltac:(lia) HA0 ip fp F). destruct F as (_ & _ & L & _). lia.
  - pose proof (scientific_exponent _ _ _ _ _ Hd Hn H1 H2 S) as BX. pose proof (exponent_text_length _ _ BX X). destruct S as (_ & L & _). cbn [length] in *. rewrite app_length. pose proof (without_zeros_length _ _ W). pose proof (point_length false ds'). lia.
Qed.

(** Values of the type double, and of its buffer. *)
Definition double (m e : Z) : Prop := 0 <= m < 2 ^ 53 /\ -1074 <= e <= 971.
Definition double_buffer : nat := buffer_size 53.
Lemma double_small m e : double m e -> (at_least_pow10 (numerator m e) (denominator e) (-999) \/ numerator m e = 0) /\ ~ at_least_pow10 (numerator m e) (denominator e) 999.
Proof.
  intros (Hm & He). unfold at_least_pow10, numerator, denominator. change (Z.max (-999) 0) with 0. change (Z.max (- -999) 0) with 999. change (Z.max 999 0) with 999. change (Z.max (- 999) 0) with 0.
  change (10 ^ 0) with 1. rewrite !Z.mul_1_r. set (T := 10 ^ 999).
  assert (HT1 : 2 ^ 1074 <= T) by (apply Z.leb_le; vm_compute; reflexivity). assert (HT2 : 2 ^ 53 * 2 ^ 971 < T) by (apply Z.ltb_lt; vm_compute; reflexivity). clearbody T.
  assert (P1 : 0 < 2 ^ Z.max e 0) by (apply Z.pow_pos_nonneg; lia). assert (P2 : 0 < 2 ^ Z.max (- e) 0) by (apply Z.pow_pos_nonneg; lia).
  assert (B1 : 2 ^ Z.max e 0 <= 2 ^ 971) by (apply Z.pow_le_mono_r; lia). assert (B2 : 2 ^ Z.max (- e) 0 <= 2 ^ 1074) by (apply Z.pow_le_mono_r; lia).
  set (A := 2 ^ Z.max e 0) in *. set (B := 2 ^ Z.max (- e) 0) in *. set (C := 2 ^ 1074) in *. set (D := 2 ^ 971) in *. set (F := 2 ^ 53) in *. clearbody A B C D F. split.
  - destruct (Z.eq_dec m 0) as [-> |NZ]; [now right|left]. assert (1 <= m * A) by (assert (1 * A <= m * A) by (apply Z.mul_le_mono_nonneg_r; lia); lia). assert (1 * T <= m * A * T) by (apply Z.mul_le_mono_nonneg_r; lia). lia.
  - intros H. assert (m * A <= F * D) by (apply Z.mul_le_mono_nonneg; lia). assert (1 * T <= B * T) by (apply Z.mul_le_mono_nonneg_r; lia). lia.
Qed.
Theorem double_fits : forall m e p, double m e -> 0 <= p <= 46 -> fits double_buffer TGeneral p (Finite m e) /\ fits double_buffer TScientific p (Finite m e).
Proof.
  intros m e p H HP. destruct (double_small m e H) as (B1 & B2). pose proof (denominator_pos e) as Hd. assert (Hm : 0 <= m) by apply H. pose proof (numerator_nonneg m e Hm) as Hn. unfold double_buffer, buffer_size. split.
  - destruct (printf_text_exists TGeneral false (Z.to_nat p) (Finite m e)) as (s & S); [unfold decimal_type; tauto|intros ? ? E; now injection E as <- <-|].
    exists s. split; [assumption|]. pose proof (general_text_length _ _ _ _ Hd Hn B1 B2 S). lia.
  - destruct (printf_text_exists TScientific false (Z.to_nat p) (Finite m e)) as (s & S); [unfold decimal_type; tauto|intros ? ? E; now injection E as <- <-|].
    exists s. split; [assumption|]. pose proof (scientific_text_length _ _ _ _ Hd Hn B1 B2 S). lia.
Qed.
Theorem fixed_fits : forall size m e p k, 0 <= m -> 0 <= k -> numerator m e <= 10 ^ k * denominator e -> 0 <= p -> k + 2 + p <= Z.of_nat size -> fits size TFixed p (Finite m e).
Proof.
  intros size m e p k Hm Hk HB HP HS. pose proof (denominator_pos e) as Hd. pose proof (numerator_nonneg m e Hm) as Hn.
  destruct (printf_text_exists TFixed false (Z.to_nat p) (Finite m e)) as (s & S); [unfold decimal_type; tauto|intros ? ? E; now injection E as <- <-|].
  exists s. split; [assumption|]. destruct S as (ip & fp & F & ->). pose proof (fixed_bound _ _ _ k Hd Hn Hk HB ip fp F). destruct F as (_ & _ & L & _). rewrite app_length. pose proof (point_length false fp). lia.
Qed.
Theorem special_fits : forall size t p v, v = Infinity \/ v = NotANumber -> (3 <= size)%nat -> fits size t p v.
Proof. intros size t p v [-> | ->] H; eexists; (split; [reflexivity|exact H]). Qed.

(** *** What goes wrong *)
(** A text longer than the buffer is never shown. *)
Lemma long_text_length size spec precision negative text buf out : (size < length text)%nat -> m_alternate_form spec = false -> Z.of_nat size < 2 ^ 32 -> to_chars_into size text buf ->
  format_float spec 0 precision negative buf = Some out -> out <> shown_sign (m_sign spec) negative ++ in_case (m_case spec) text.
Proof.
  intros HL HA HS HB HF E. unfold to_chars_into in HB. destruct (Nat.leb_spec (length text) size); [lia|].
  assert (EC : exists r, convert_value spec (int_precision precision) buf = Some r /\ m_zeroes_to_append r = 0 /\ length (float_number r) = size).
  { unfold convert_value. rewrite HA. destruct (m_case spec); eexists; (split; [reflexivity|]); (split; [reflexivity|]); unfold float_number; cbn; rewrite app_nil_r, ?map_length; assumption. }
  destruct EC as (r & E1 & E2 & E3).
  destruct (format_float_parts spec 0 precision negative buf r) as (l & z & q & H1 & H2 & H3); [lia|assumption|lia|rewrite E3; change (2 ^ 63) with (2 ^ 31 * 2 ^ 32); lia|].
  cbv zeta in *. rewrite HF in H1. injection H1 as H1. rewrite <- H1, E in H3. rewrite !app_length, in_case_length, E3 in H3. lia.
Qed.
Theorem large_fixed_refuted : forall m e negative spec buf out, double m e -> 10 ^ 46 * denominator e <= numerator m e -> m_type spec = TFixed -> m_alternate_form spec = false ->
  converted double_buffer spec 6 (Finite m e) buf -> format_float spec 0 6 negative buf = Some out ->
  ~ exists number, printf_text TFixed false 6 (Finite m e) number /\ out = shown_sign (m_sign spec) negative ++ in_case (m_case spec) number.
Proof.
  intros m e neg spec buf out HD HV HT HA (text & HX & HB) HF (number & HN & ->).
  rewrite HT in HX. cbn [chars_format] in HX. rewrite requested_precision_small in HX by lia. change (Z.to_nat 6) with 6%nat in HX. pose proof (printf_text_unique _ _ _ _ _ _ HX HN) as ->.
  refine (long_text_length double_buffer spec 6 neg number buf _ _ HA _ HB HF eq_refl); [|unfold double_buffer, buffer_size; lia].
  destruct HN as (ip & fp & F & ->). pose proof (denominator_pos e) as Hd. destruct F as (D1 & D2 & L & N & C & R).
  assert (G : 10 ^ (46 + Z.of_nat 6) <= positional_value 10 (ip ++ fp)).
  { apply (nearest_even_ge _ _ _ _ Hd R). rewrite Z.pow_add_r by lia. pose proof (pow10_pos (Z.of_nat 6) ltac:(lia)). assert (10 ^ 46 * denominator e * 10 ^ Z.of_nat 6 <= numerator m e * 10 ^ Z.of_nat 6) by (apply Z.mul_le_mono_nonneg_r; lia). lia. }
  assert (B : decimal_digits (ip ++ fp)) by (apply Forall_app; now split). apply (positional_bound 10 false) in B; [|lia].
  assert (HL : 46 + Z.of_nat 6 < Z.of_nat (length (ip ++ fp))) by (apply (Z.pow_lt_mono_r_iff 10); lia).
  rewrite app_length in *. unfold point. destruct fp as [|c fp]; [discriminate L|]. cbn [length] in *. unfold double_buffer, buffer_size. lia.
Qed.

(** {:#} of infinity is inf.000 *)
Theorem alternate_infinity_refuted : forall size spec negative buf, (3 <= size)%nat -> Z.of_nat size < 2 ^ 32 -> m_type spec = TGeneral -> m_alternate_form spec = true -> converted size spec 6 Infinity buf ->
  format_float spec 0 6 negative buf = Some (shown_sign (m_sign spec) negative ++ in_case (m_case spec) [105; 110; 102; 46; 48; 48; 48]).
Proof.
  intros size spec neg buf HS HS2 HT HA (text & HX & HB). rewrite HT in HX. cbn in HX. subst text. unfold to_chars_into in HB. destruct (Nat.leb_spec (length [105; 110; 102]) size) as [_|G]; [|cbn in G; lia]. subst buf.
  assert (EC : convert_value spec (int_precision 6) [105; 110; 102] = Some (cased (m_case spec) (Conversion [105; 110; 102] [] true 3))).
  { unfold convert_value. rewrite HA, HT. destruct (m_case spec); reflexivity. }
  assert (EN : float_number (cased (m_case spec) (Conversion [105; 110; 102] [] true 3)) = in_case (m_case spec) [105; 110; 102; 46; 48; 48; 48]) by (destruct (m_case spec); reflexivity).
  destruct (format_float_parts spec 0 6 neg [105; 110; 102] _ ltac:(lia) EC) as (l & z & q & H1 & H2 & H3); [rewrite cased_zeroes; cbn; lia|rewrite EN, in_case_length; cbn; lia|].
  cbv zeta in *. rewrite EN in *. rewrite H1. f_equal. assert (HZ : l = O /\ z = O /\ q = O).
  { rewrite !app_length, !repeat_length, in_case_length in H3. cbn [length] in H3. lia. }
  destruct HZ as (-> & -> & ->). cbn [repeat app]. now rewrite app_nil_r.
Qed.

Lemma zeros_value k : positional_value 10 (repeat 48 k) = 0.
Proof. induction k as [|k IH]; [reflexivity|]. cbn [repeat positional_value]. rewrite IH. reflexivity. Qed.
Lemma zeros_digits k : decimal_digits (repeat 48 k).
Proof. induction k as [|k IH]; [constructor|]. cbn. constructor; [left; lia|assumption]. Qed.
(** One half: 0.5 and zeros up to [p] significant digits. *)
Lemma half_text alternate p : (0 < p)%nat -> printf_text TGeneral alternate p (Finite 1 (-1)) ([48; 46; 53] ++ if alternate then repeat 48 (p - 1) else []).
Proof.
  intros Hp. cbn [printf_text]. change (numerator 1 (-1)) with 1. change (denominator (-1)) with 2. unfold general_text. replace (Nat.max 1 p) with p by lia.
  assert (EV : forall k, positional_value 10 (53 :: repeat 48 k) = 5 * 10 ^ Z.of_nat k) by (intros k; cbn [positional_value]; rewrite zeros_value, repeat_length; unfold value_of_digit; cbn; lia).
  assert (D5 : forall k, decimal_digits (53 :: repeat 48 k)) by (intros k; constructor; [left; lia|apply zeros_digits]).
  pose proof (pow10_pos (Z.of_nat (p - 1)) ltac:(lia)) as HP.
  exists (-1), 53, (repeat 48 (p - 1)). split.
  - split; [apply D5|]. split; [cbn; rewrite repeat_length; lia|]. right. split; [lia|]. exists (-1), (5 * 10 ^ Z.of_nat (p - 1)). split; [unfold at_least_pow10; cbn; lia|]. split; [unfold at_least_pow10; cbn; lia|]. split.
    + unfold nearest_scaled. rewrite (Z.max_l (Z.of_nat (p - 1) - -1) 0), (Z.max_r (- (Z.of_nat (p - 1) - -1)) 0) by lia. replace (Z.of_nat (p - 1) - -1) with (1 + Z.of_nat (p - 1)) by lia. rewrite Z.pow_add_r by lia. change (10 ^ 1) with 10. change (10 ^ 0) with 1.
      split; [|intros G; exfalso]; replace (5 * 10 ^ Z.of_nat (p - 1) * (2 * 1) - 1 * (10 * 10 ^ Z.of_nat (p - 1))) with 0 in * by lia; cbn in *; lia.
    + left. split; [rewrite Z.pow_add_r by lia; change (10 ^ 1) with 10; lia|]. split; [reflexivity|apply EV].
  - left. split; [lia|]. exists [48], (53 :: repeat 48 (p - 1)), (53 :: if alternate then repeat 48 (p - 1) else []). split; [|split].
    + split; [constructor; [left; lia|constructor]|]. split; [apply D5|]. split; [cbn [length]; rewrite repeat_length; lia|]. split; [discriminate|]. split; [now left|].
      cbn [app]. replace (positional_value 10 (48 :: 53 :: repeat 48 (p - 1))) with (5 * 10 ^ Z.of_nat (p - 1)) by (rewrite <- EV; reflexivity).
      replace (Z.of_nat (Z.to_nat (Z.of_nat p - 1 - -1))) with (1 + Z.of_nat (p - 1)) by lia. rewrite Z.pow_add_r by lia. change (10 ^ 1) with 10.
      split; [|intros G; exfalso]; replace (5 * 10 ^ Z.of_nat (p - 1) * 2 - 1 * (10 * 10 ^ Z.of_nat (p - 1))) with 0 in * by lia; cbn in *; lia.
    + destruct alternate; [reflexivity|]. exists (p - 1)%nat. split; [reflexivity|]. right. discriminate.
    + destruct alternate; reflexivity.
Qed.
(** {:#.pg} of 0.5 shows one digit too few, for every precision of two or more. *)
Theorem alternate_half_refuted : forall size spec negative precision buf, (3 <= size)%nat -> Z.of_nat size < 2 ^ 32 -> m_type spec = TGeneral -> m_alternate_form spec = true -> 2 <= precision < 2 ^ 31 ->
  converted size spec precision (Finite 1 (-1)) buf ->
  printf_text TGeneral true (Z.to_nat precision) (Finite 1 (-1)) ([48; 46; 53] ++ repeat 48 (Z.to_nat (precision - 1))) /\
  format_float spec 0 precision negative buf = Some (shown_sign (m_sign spec) negative ++ [48; 46; 53] ++ repeat 48 (Z.to_nat (precision - 2))).
Proof.
  intros size spec neg precision buf HS HS2 HT HA HP (text & HX & HB). split.
  { replace (Z.to_nat (precision - 1)) with (Z.to_nat precision - 1)%nat by lia. apply (half_text true). lia. }
  rewrite HT in HX. cbn [chars_format] in HX. rewrite requested_precision_small in HX by lia. pose proof (half_text false (Z.to_nat precision) ltac:(lia)) as HX'. cbn [app] in HX'. pose proof (printf_text_unique _ _ _ _ _ _ HX HX') as ->.
  unfold to_chars_into in HB. destruct (Nat.leb_spec (length [48; 46; 53]) size) as [_|G]; [|cbn in G; lia]. subst buf.
  destruct (alternate_number spec precision [48] [53] []) as (r & R1 & R2 & R3); [assumption|rewrite HT; unfold decimal_type; tauto|lia|cbn; lia|constructor; [left; lia|constructor]|constructor; [left; lia|constructor]|discriminate|now left|].
  rewrite HT in R2. cbn [point app length Nat.add] in R1, R2, R3. assert (EZ : Z.to_nat (m_zeroes_to_append r) = Z.to_nat (precision - 2)) by (rewrite R2; lia). rewrite EZ, app_nil_r in R3.
  assert (EN : float_number r = [48; 46; 53] ++ repeat 48 (Z.to_nat (precision - 2))).
  { rewrite R3. change (48 :: 46 :: 53 :: repeat 48 (Z.to_nat (precision - 2))) with ([48; 46; 53] ++ repeat 48 (Z.to_nat (precision - 2))). rewrite in_case_app, in_case_zeros. now destruct (m_case spec). }
  rewrite <- (int_precision_small precision) in R1 by lia.
  destruct (format_float_parts spec 0 precision neg [48; 46; 53] r ltac:(lia) R1) as (l & z & q & H1 & H2 & H3); [rewrite R2; lia| |].
  { rewrite EN, app_length, repeat_length. change (2 ^ 63) with 9223372036854775808. change (2 ^ 31) with 2147483648 in *. cbn [length]. lia. }
  cbv zeta in *. rewrite EN in *. rewrite H1. f_equal. assert (HZ : l = O /\ z = O /\ q = O).
  { rewrite !app_length, !repeat_length in H3. cbn [length] in H3. lia. }
  destruct HZ as (-> & -> & ->). cbn [repeat]. now rewrite app_nil_r.
Qed.

(** A precision of 2^32 is taken for 0: {:.4294967296f} of 1.5 is 2. *)
Theorem precision_refuted : forall spec negative buf, m_type spec = TFixed -> m_alternate_form spec = false -> converted double_buffer spec (2 ^ 32) (Finite 3 (-1)) buf ->
  format_float spec 0 (2 ^ 32) negative buf = Some (shown_sign (m_sign spec) negative ++ [50]) /\ ~ printf_text TFixed false (Z.to_nat (2 ^ 32)) (Finite 3 (-1)) [50].
Proof.
  intros spec neg buf HT HA (text & HX & HB).
  assert (EP : requested_precision (int_precision (2 ^ 32)) = O) by reflexivity. rewrite HT in HX. cbn [chars_format] in HX. rewrite EP in HX.
  assert (HX' : printf_text TFixed false 0 (Finite 3 (-1)) [50]).
  { exists [50], []. split; [|reflexivity]. split; [constructor; [left; lia|constructor]|]. split; [constructor|]. split; [reflexivity|]. split; [discriminate|]. split; [now left|]. split; [cbn; lia|]. intros _. now exists 1. }
  pose proof (printf_text_unique _ _ _ _ _ _ HX HX') as ->. split.
  - destruct (float_text_shown double_buffer spec 0 (2 ^ 32) neg [50] buf) as (l & z & q & H1 & H2 & H3); [unfold double_buffer, buffer_size; lia|lia|constructor; [unfold ascii; lia|constructor]|unfold double_buffer, buffer_size; cbn; lia|assumption..|].
    cbv zeta in *. rewrite H1. f_equal. assert (HZ : l = O /\ z = O /\ q = O).
    { rewrite !app_length, !repeat_length, in_case_length in H3. cbn [length] in H3. lia. }
    destruct HZ as (-> & -> & ->). cbn [repeat app]. rewrite app_nil_r. now destruct (m_case spec).
  - assert (G : (0 < Z.to_nat (2 ^ 32))%nat) by (apply Nat2Z.inj_lt; rewrite Z2Nat.id; lia). generalize dependent (Z.to_nat (2 ^ 32)). intros k G (ip & fp & (_ & _ & L & N & _) & E).
    destruct fp as [|c fp]; [cbn in L; lia|]. apply (f_equal (@length Z)) in E. rewrite app_length in E. cbn [point length] in E. lia.
Qed.

(** ** {} of a double: the shortest form of printf's %g, with six digits *)
Definition plain_float : specifier := Specifier 0 None ADefault SDefault false false None None None None false TGeneral CLower 0 0.
Theorem default_double_shown : forall m e negative buf, double m e -> converted double_buffer plain_float 6 (Finite m e) buf ->
  exists number, printf_text TGeneral false 6 (Finite m e) number /\ format_float plain_float 0 6 negative buf = Some ((if negative then [45] else []) ++ number).
Proof.
  intros m e neg buf H HC. destruct (double_fits m e 6 H ltac:(lia)) as (HF & _).
  destruct (float_formatted double_buffer plain_float 0 6 neg (Finite m e) buf) as (number & l & z & q & H1 & H2 & H3 & H4); [unfold double_buffer, buffer_size; lia|lia|lia|unfold decimal_type; cbn; tauto|assumption|assumption|discriminate|].
  cbv zeta in *. cbn [plain_float m_type m_alternate_form m_sign m_case m_alignment m_zero_padding m_fill value_or in_case] in *. exists number. split; [exact H2|]. rewrite H1. f_equal.
  assert (HZ : l = O /\ z = O /\ q = O). { rewrite !app_length, !repeat_length in H4. lia. }
  destruct HZ as (-> & -> & ->). cbn [repeat app]. rewrite app_nil_r. now destruct neg.
Qed.

(** ** Examples *)
(** "{:*^+12.2E}" of 2.5 *)
Example float_run : exists buf, converted double_buffer (Specifier 0 (Some 42) ACenter SAlways false false (Some 12) None (Some 2) None false TScientific CUpper 0 0) 2 (Finite 5 (-1)) buf /\
  format_float (Specifier 0 (Some 42) ACenter SAlways false false (Some 12) None (Some 2) None false TScientific CUpper 0 0) 12 2 false buf =
    Some [42; 43; 50; 46; 53; 48; 69; 43; 48; 48; 42; 42]. (* *+2.50E+00** *)
Proof.
  exists [50; 46; 53; 48; 101; 43; 48; 48]. split; [|reflexivity]. exists [50; 46; 53; 48; 101; 43; 48; 48]. split; [|reflexivity]. cbn [chars_format m_type].
  change (requested_precision (int_precision 2)) with 2%nat. exists 0, 50, [53; 48], [101; 43; 48; 48]. split; [|split; [|reflexivity]].
  - split; [repeat (constructor; [left; lia|]); constructor|]. split; [reflexivity|]. right. split; [cbn; lia|]. exists 0, 250. unfold at_least_pow10. split; [cbn; lia|]. split; [cbn; lia|]. split; [|left; cbn; lia].
    split; [cbn; lia|]. intros _. now exists 125.
  - exists [48]. split; [reflexivity|]. split; [constructor; [left; lia|constructor]|]. split; [reflexivity|]. split; [discriminate|now left].
Qed.
(** "{:#.0f}" of 2.5: half goes to the even digit, and the point stays. *)
Example float_run2 : printf_text TFixed true 0 (Finite 5 (-1)) [50; 46] /\
  format_float (Specifier 0 None ADefault SDefault true false None None (Some 0) None false TFixed CLower 0 0) 0 0 false [50] = Some [50; 46].
Proof.
  split; [|reflexivity]. exists [50], []. split; [|reflexivity]. split; [constructor; [left; lia|constructor]|]. split; [constructor|]. split; [reflexivity|]. split; [discriminate|]. split; [now left|]. split; [cbn; lia|]. intros _. now exists 1.
Qed.
(** 2^200 is a double whose %f has 68 characters. *)
Example large_fixed : double 1 200 /\ 10 ^ 46 * denominator 200 <= numerator 1 200 /\ exists buf, converted double_buffer (Specifier 0 None ADefault SDefault false false None None None None false TFixed CLower 0 0) 6 (Finite 1 200) buf.
Proof.
  split; [unfold double; lia|]. split; [vm_compute; discriminate|].
  destruct (printf_text_exists TFixed false 6 (Finite 1 200)) as (s & S); [unfold decimal_type; tauto|intros ? ? E; injection E as <- <-; lia|].
  exists (if (length s <=? double_buffer)%nat then s else repeat 0 double_buffer), s. split; [exact S|]. unfold to_chars_into. destruct (length s <=? double_buffer)%nat; [reflexivity|]. reflexivity.
Qed.
