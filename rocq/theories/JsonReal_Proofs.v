(** Proofs for C71: the texts of long doubles, their shape, and what is read back from them. *)
From Coq Require Import SpecFloat QArith Qabs Qpower Qfield Lqa.
From Verif Require Import Common Unicode_Spec Format_Model Format_Spec Format_Proofs Format_Props Float_Model Float_Spec Float_Proofs Float_Props Json_Model JsonFloat_Model JsonFloat_Props FloatRead_Spec FloatRead_Model FloatRead_Proofs FloatRead_Text_Proofs FloatRead_Props FloatRound_Props FloatPrint_Proofs Json_String_Proofs Json_Spec JsonReal_Spec.
Local Open Scope Z_scope.

(** * The text fits the buffer *)
Lemma exponent_text_length4 x ex : - 10000 < x < 10000 -> exponent_text x ex -> (length ex <= 6)%nat.
Proof.
  intros HX (ds & -> & (D & V & N & C)). cbn [length]. rewrite app_length.
  assert (HL : (length ds <= 4)%nat).
  { destruct C as [C|C]; [lia|]. pose proof (canonical_ge ds [] D (Forall_nil _) N C) as G. rewrite app_nil_r, V in G. cbn [length] in G. rewrite Nat.add_0_r in G.
    assert (Z.of_nat (length ds - 1) < 4) by (apply (Z.pow_lt_mono_r_iff 10); [lia|lia|]; change (10 ^ 4) with 10000; lia). lia. }
  destruct (Z.ltb_spec (Z.abs x) 10); [|cbn; lia]. cbn [length].
  destruct C as [C|C]; [lia|]. pose proof (canonical_ge ds [] D (Forall_nil _) N C) as G. rewrite app_nil_r, V in G. cbn [length] in G. rewrite Nat.add_0_r in G.
  assert (Z.of_nat (length ds - 1) < 1) by (apply (Z.pow_lt_mono_r_iff 10); [lia|lia|]; change (10 ^ 1) with 10; lia). lia.
Qed.
Lemma scientific_exponent4 k p n d x ds : 0 < d -> 0 <= n -> at_least_pow10 n d (- k) \/ n = 0 -> ~ at_least_pow10 n d k -> 0 <= k -> scientific_digits p n d x ds -> - k <= x <= k.
Proof.
  intros Hd Hn H1 H2 Hk (_ & _ & [(_ & -> & _)|(HN & x0 & r & H3 & H4 & HR & HC)]); [lia|].
  assert (- k <= x0) by (destruct (Z.le_gt_cases (- k) x0) as [|G]; [assumption|exfalso; apply H4; destruct H1 as [H1|H1]; [apply (at_least_mono n d _ (- k)); (assumption || lia)|lia]]).
  assert (x0 < k) by (destruct (Z.lt_ge_cases x0 k) as [|G]; [assumption|exfalso; apply H2; apply (at_least_mono n d _ x0); (assumption || lia)]).
  lia.
Qed.
Lemma general_text_length4 p n d s : 0 < d -> 0 <= n -> at_least_pow10 n d (-9999) \/ n = 0 -> ~ at_least_pow10 n d 9999 -> general_text false p n d s -> (length s <= Nat.max 1 p + 7)%nat.
Proof.
  intros Hd Hn H1 H2. unfold general_text. set (P := Nat.max 1 p). assert (HP : (0 < P)%nat) by (unfold P; lia). clearbody P.
  intros (x & c & ds & S & [(B & ip & fp & fp' & F & W & ->)|(B & ds' & ex & W & X & ->)]).
  - pose proof (without_zeros_length _ _ W). pose proof (point_length false fp'). rewrite app_length.
    destruct (Z.le_gt_cases 0 x) as [HX|HX].
    + assert (HB : 0 <= x < Z.of_nat P) by lia. pose proof (general_length P n d x _ ip fp Hd Hn HP HB S F). lia.
    + pose proof (scientific_above _ _ _ _ _ Hd Hn S) as HA.
      assert (HA0 : ~ at_least_pow10 n d 0) by (intros G; apply HA; apply (at_least_mono n d _ 0); (assumption || lia)).
      apply below_pow10 in HA0; [|lia]. pose proof (fixed_bound _ _ _ 0 Hd Hn ltac:(lia) HA0 ip fp F). destruct F as (_ & _ & L & _). lia.
  - assert (K : 0 <= 9999) by lia. pose proof (scientific_exponent4 9999 _ _ _ _ _ Hd Hn H1 H2 K S) as BX. assert (BX' : - 10000 < x < 10000) by lia. pose proof (exponent_text_length4 _ _ BX' X). destruct S as (_ & L & _). cbn [length] in *. rewrite app_length. pose proof (without_zeros_length _ _ W). pose proof (point_length false ds'). lia.
Qed.
Lemma pow10_above k : 0 <= k -> 2 ^ (3 * k) <= 10 ^ k.
Proof. intros H. rewrite Z.pow_mul_r by lia. apply Z.pow_le_mono_l. lia. Qed.
Lemma wide_small ld s m e : long_double ld -> value_of ld (S754_finite s m e) ->
  at_least_pow10 (numerator (Zpos m) e) (denominator e) (-9999) /\ ~ at_least_pow10 (numerator (Zpos m) e) (denominator e) 9999.
Proof.
  intros (HF & HP & HE) HV. destruct (value_bounds ld s m e HF HV) as (B1 & B2 & _). unfold format_ok in HF. unfold emin in B2. set (p := prec ld) in *. set (E := emax ld) in *. clearbody p E.
  unfold at_least_pow10, numerator, denominator. change (Z.max (-9999) 0) with 0. change (Z.max (- -9999) 0) with 9999. change (Z.max 9999 0) with 9999. change (Z.max (- 9999) 0) with 0.
  change (10 ^ 0) with 1. rewrite !Z.mul_1_r. pose proof (pow10_above 9999 ltac:(lia)) as HT. change (3 * 9999) with 29997 in HT. set (T := 10 ^ 9999) in *. clearbody T.
  assert (P1 : 0 < 2 ^ Z.max e 0) by (apply Z.pow_pos_nonneg; lia). assert (P2 : 0 < 2 ^ Z.max (- e) 0) by (apply Z.pow_pos_nonneg; lia).
  assert (B3 : 2 ^ Z.max (- e) 0 <= 2 ^ 29997) by (apply Z.pow_le_mono_r; lia).
  assert (B4 : 2 ^ p * 2 ^ Z.max e 0 <= 2 ^ 29997) by (rewrite <- Z.pow_add_r by lia; apply Z.pow_le_mono_r; lia).
  set (A := 2 ^ Z.max e 0) in *. set (B := 2 ^ Z.max (- e) 0) in *. set (C := 2 ^ 29997) in *. set (D := 2 ^ p) in *. clearbody A B C D. split.
  - assert (1 <= Zpos m * A) by (assert (1 * A <= Zpos m * A) by (apply Z.mul_le_mono_nonneg_r; lia); lia). assert (1 * T <= Zpos m * A * T) by (apply Z.mul_le_mono_nonneg_r; lia). lia.
  - intros H. assert (Zpos m * A < D * A) by (apply Z.mul_lt_mono_pos_r; lia). assert (1 * T <= B * T) by (apply Z.mul_le_mono_nonneg_r; lia). lia.
Qed.
Lemma zero_text : printf_text TGeneral false 6 (Finite 0 0) [48].
Proof.
  exists 0, 48, [48; 48; 48; 48; 48]. split.
  - split; [repeat (apply Forall_cons; [left; lia|]); apply Forall_nil|]. split; [reflexivity|]. left. split; [reflexivity|]. split; reflexivity.
  - left. split; [lia|]. exists [48], [48; 48; 48; 48; 48], []. split; [|split; [exists 5%nat; split; [reflexivity|now left]|reflexivity]].
    split; [constructor; [left; lia|constructor]|]. split; [repeat (apply Forall_cons; [left; lia|]); apply Forall_nil|]. split; [reflexivity|]. split; [discriminate|]. split; [now left|]. split; [vm_compute; discriminate|intros _; exists 0; reflexivity].
Qed.
Lemma long_fits ld f : long_double ld -> value_of ld f -> fits (buffer_size (Z.to_nat (prec ld))) TGeneral 6 (magnitude_of f).
Proof.
  intros HL HV. pose proof HL as (_ & HP & _). unfold buffer_size. destruct f as [s|s| |s m e]; cbn [magnitude_of].
  - exists [48]. split; [exact zero_text|cbn [length]; lia].
  - apply special_fits; [now left|lia].
  - apply special_fits; [now right|lia].
  - destruct (wide_small ld s m e HL HV) as (B1 & B2). exists (print_general 6 (numerator (Zpos m) e) (denominator e)). pose proof (print_general_correct 6 (Zpos m) e ltac:(lia)) as S. split; [exact S|]. cbn [printf_text] in S.
    assert (HN : 0 <= numerator (Zpos m) e) by (apply numerator_nonneg; lia). pose proof (general_text_length4 _ _ _ _ (denominator_pos e) HN (or_introl B1) B2 S) as H. change (Nat.max 1 6) with 6%nat in H. lia.
Qed.
(** What {} writes. *)
Lemma library_writes ld read fp f : library ld read fp -> long_double ld -> value_of ld f ->
  exists number, printf_text TGeneral false 6 (magnitude_of f) number /\ print_fp fp f = (if sign_of f then [45] else []) ++ number.
Proof.
  intros (_ & HW) HL HV. destruct (HW f HV) as (buf & HC & HO). pose proof HL as (HF & HP' & HE). unfold format_ok in HF.
  destruct (float_formatted (buffer_size (Z.to_nat (prec ld))) plain_float 0 6 (sign_of f) (magnitude_of f) buf) as (number & l & z & q & H1 & H2 & H3 & H4); [unfold buffer_size; lia|lia|lia|unfold decimal_type; cbn; tauto|assumption|exact (long_fits ld f HL HV)|discriminate|].
  cbv zeta in *. cbn [plain_float m_type m_alternate_form m_sign m_case m_alignment m_zero_padding m_fill value_or in_case] in *. exists number. split; [exact H2|]. rewrite HO in H1. injection H1 as ->.
  assert (HZ : l = O /\ z = O /\ q = O). { rewrite !app_length, !repeat_length in H4. lia. }
  destruct HZ as (-> & -> & ->). cbn [repeat app]. rewrite app_nil_r. now destruct (sign_of f).
Qed.

(** * The shape of texts *)
Lemma digits_no c l : Forall (digit_of 10 false) l -> ~ digit_of 10 false c -> ~ In c l.
Proof. intros F N H. rewrite Forall_forall in F. exact (N (F c H)). Qed.
Lemma not_digit c : c < 48 \/ 57 < c < 97 -> ~ digit_of 10 false c.
Proof. unfold digit_of. lia. Qed.
Lemma exponent_chars x ex c : exponent_suffix 101 69 x ex -> In c ex -> c = 101 \/ c = 69 \/ c = 43 \/ c = 45 \/ digit_of 10 false c.
Proof.
  intros [(-> & _)|(e & sign & ds & He & -> & _ & D & S)] H; [destruct H|]. destruct H as [<- |H]; [tauto|]. apply in_app_iff in H. destruct H as [H|H].
  - destruct S as [([-> | ->] & _)|(-> & _)]; destruct H as [<- |[]] || destruct H; tauto.
  - rewrite Forall_forall in D. right. right. right. right. exact (D c H).
Qed.
Lemma exponent_no_point x ex : exponent_suffix 101 69 x ex -> ~ In 46 ex.
Proof. intros H I. destruct (exponent_chars _ _ _ H I) as [E|[E|[E|[E|E]]]]; try discriminate E. revert E. apply not_digit. lia. Qed.
Lemma exponent_is x ex : exponent_suffix 101 69 x ex -> ex = [] \/ is_exponent ex.
Proof. intros [(-> & _)|(e & sign & ds & [-> | ->] & -> & _)]; [now left| |]; right; eexists; [left|right]; reflexivity. Qed.
Lemma digits_no_exponent l : Forall (digit_of 10 false) l -> no_exponent l.
Proof. intros F. split; apply (digits_no _ _ F); unfold digit_of; lia. Qed.
Lemma real_is_decimal q w : real_text q w -> decimal_text q w.
Proof.
  intros (ip & fr & x & ex & (N & D & C) & F & X & _ & -> & E). exists ip, fr, x, (ip ++ match fr with [] => [] | _ => 46 :: fr end), ex. split; [now rewrite app_assoc|].
  split; [|now split]. split; [exact D|]. split; [exact F|]. split; [destruct ip; [now destruct N|discriminate]|]. destruct fr; [left; split; [reflexivity|apply app_nil_r]|now right].
Qed.
(** A real number has the shape the parser looks for. *)
Lemma real_shape q w : real_text q w -> starts_like_integer w /\ float_shape w /\ Forall (fun c => ~ stop c) w /\ Forall byte w /\ unsigned_part w = w.
Proof.
  intros (ip & fr & x & ex & (N & D & C) & F & X & NE & -> & E). destruct ip as [|d ip]; [now destruct N|]. inversion D as [|? ? Dd Dip]; subst.
  assert (HC : forall c, In c ((d :: ip) ++ match fr with [] => [] | _ => 46 :: fr end ++ ex) -> c = 101 \/ c = 69 \/ c = 43 \/ c = 45 \/ c = 46 \/ digit_of 10 false c).
  { intros c H. apply in_app_iff in H. destruct H as [H|H]; [rewrite Forall_forall in D; pose proof (D c H); tauto|]. apply in_app_iff in H. destruct H as [H|H].
    - destruct fr as [|f fr]; [destruct H|]. destruct H as [<- |H]; [tauto|]. rewrite Forall_forall in F. pose proof (F c H) as H1. unfold decimal_digit in H1. tauto.
    - pose proof (exponent_chars _ _ _ X H). tauto. }
  split; [|split; [|split; [|split]]].
  - exists d, (ip ++ match fr with [] => [] | _ => 46 :: fr end ++ ex). split; [reflexivity|]. split; [assumption|]. intros ->. destruct ip as [|c ip].
    + cbn [app]. destruct fr as [|f fr]; [|cbn [app]; apply not_digit; lia]. cbn [app]. destruct (exponent_is _ _ X) as [-> |(r & [-> | ->])]; [exact I|unfold digit_of; lia..].
    + exfalso. destruct C as [C|C]; [discriminate C|now destruct C].
  - destruct fr as [|f fr].
    + right. exists (d :: ip), ex. split; [reflexivity|]. split; [now apply digits_no_exponent|]. destruct NE as [NE|NE]; [now destruct NE|]. split; [destruct (exponent_is _ _ X); [now destruct NE|assumption]|].
      intros H. apply in_app_iff in H. destruct H as [H|H]; [apply (digits_no 46 _ D); [apply not_digit; lia|assumption]|exact (exponent_no_point _ _ X H)].
    + left. exists (d :: ip), (f :: fr), ex. split; [reflexivity|]. split; [apply (digits_no 46 _ D), not_digit; lia|]. split; [now apply digits_no_exponent|]. split; [discriminate|]. split; [now apply digits_no_exponent|]. exact (exponent_is _ _ X).
  - apply Forall_forall. intros c H. apply HC in H. unfold stop, white, digit_of in *. lia.
  - apply Forall_forall. intros c H. apply HC in H. unfold byte, digit_of in *. lia.
  - unfold digit_of in Dd. cbn [app unsigned_part]. destruct (Z.eqb_spec d 45); [lia|reflexivity].
Qed.
Lemma split_at (c : Z) a b a' b' : ~ In c a -> ~ In c a' -> a ++ c :: b = a' ++ c :: b' -> a = a' /\ b = b'.
Proof.
  revert a'. induction a as [|x a IH]; intros a' N N' E; destruct a' as [|x' a'].
  - injection E as ->. auto.
  - injection E as <- _. destruct N'. now left.
  - injection E as -> _. destruct N. now left.
  - injection E as <- E. destruct (IH a') as (-> & ->); [intros H; apply N; now right|intros H; apply N'; now right|assumption|]. auto.
Qed.
(** And a text of that shape which the conversion function understands is a real number. *)
Lemma shape_real q w : starts_like_integer w -> float_shape w -> decimal_text q w -> real_text q w.
Proof.
  intros (d & r & EW & Dd & ND) SH (ip & fp & x & mt & ex & EM & (F1 & F2 & NN & HM) & HX & EQ).
  assert (NIP : ip <> []). { intros ->. destruct HM as [(-> & ->)| ->]; [now destruct NN|]. cbn [app] in EM. rewrite EW in EM. injection EM as E _. subst d. revert Dd. apply not_digit. lia. }
  assert (DEC : decimal ip).
  { split; [assumption|]. split; [exact F1|]. destruct ip as [|c ip]; [now destruct NIP|]. assert (EC : c = d) by (destruct HM as [(_ & ->)| ->]; rewrite EW in EM; injection EM as E _; congruence). subst c. cbn [hd length].
    destruct (Z.eq_dec d 48) as [E48|]; [left|now right]. specialize (ND E48). destruct ip as [|c ip]; [reflexivity|exfalso]. assert (ER : exists r', r = c :: r') by (destruct HM as [(_ & ->)| ->]; rewrite EW in EM; injection EM as E; eexists; exact E). destruct ER as (r' & ->). inversion F1 as [|? ? _ F1']; subst. inversion F1' as [|? ? HC _]; subst. exact (ND HC). }
  assert (PIP : ~ In 46 ip) by (apply (digits_no 46 _ F1), not_digit; lia).
  destruct HM as [(-> & ->)| ->].
  - (* no point *)
    exists ip, [], x, ex. split; [assumption|]. split; [constructor|]. split; [assumption|]. split; [|split; [exact EM|exact EQ]].
    right. intros ->. rewrite app_nil_r in EM. rewrite EM in SH. pose proof (digits_no_exponent ip F1) as (N1 & N2). destruct SH as [(ip' & fr & ex' & E & _)|(ip' & ex' & E & _ & (r' & H) & _)].
    + apply PIP. rewrite E. apply in_app_iff. right. now left.
    + rewrite E in N1, N2. destruct H as [-> | ->]; [apply N1|apply N2]; apply in_app_iff; right; now left.
  - destruct fp as [|f fp].
    + exfalso. rewrite <- app_assoc in EM. cbn [app] in EM. destruct SH as [(ip' & fr & ex' & E & N1 & _ & NF & (N2 & N3) & _)|(ip' & ex' & E & _ & _ & N)].
      * rewrite EM in E. cbn [app] in E. destruct (split_at 46 _ _ _ _ PIP N1 E) as (_ & E2). destruct fr as [|c fr]; [now destruct NF|]. destruct (exponent_is _ _ HX) as [-> |(r' & [-> | ->])]; [discriminate E2|injection E2 as <- _; apply N2; now left|injection E2 as <- _; apply N3; now left].
      * apply N. rewrite EM. apply in_app_iff. right. now left.
    + exists ip, (f :: fp), x, ex. split; [assumption|]. split; [exact F2|]. split; [assumption|]. split; [left; discriminate|]. split; [now rewrite EM, <- app_assoc|exact EQ].
Qed.
(** %g writes an integer or a real number. *)
Lemma general_shape m e s : 0 <= m -> printf_text TGeneral false 6 (Finite m e) s -> decimal s \/ exists q, real_text q s.
Proof.
  intros Hm (x & c & ds & (SD & SL & _) & [(B & ip & fp & fp' & (F1 & F2 & L & N & C & _) & W & ->)|(B & ds' & ex & W & X & ->)]).
  - destruct fp' as [|f fp'].
    + left. cbn [point]. rewrite app_nil_r. split; [assumption|]. now split.
    + right. eexists. exists ip, (f :: fp'), 0, []. split; [split; [assumption|now split]|]. split; [exact (without_zeros_digits _ _ _ W F2)|]. split; [now left|]. split; [left; discriminate|]. split; [cbn [point app]; now rewrite app_nil_r|reflexivity].
  - right. inversion SD as [|? ? Dc Dds]; subst. eexists. exists [c], ds', x, ex. split; [split; [discriminate|split; [constructor; [assumption|constructor]|now left]]|]. split; [exact (without_zeros_digits _ _ _ W Dds)|]. split; [now apply exponent_reads|].
    split; [right; destruct X as (? & -> & _); discriminate|]. split; [|reflexivity]. cbn [app]. now destruct ds'.
Qed.
Lemma decimal_text_same q q' s : decimal_text q s -> decimal_text q' s -> (q == q')%Q.
Proof.
  intros H H'. destruct (proj2 decimal_scanner _ _ H) as (a & b & E1 & E2). destruct (proj2 decimal_scanner _ _ H') as (a' & b' & E3 & E4). rewrite E1 in E3. injection E3 as <- <-. now rewrite E2, E4.
Qed.
Lemma decimal_is_text s : decimal s -> decimal_text (inject_Z (positional_value 10 s)) s.
Proof.
  intros (N & D & C). exists s, [], 0, s, []. rewrite app_nil_r. split; [reflexivity|]. split; [split; [exact D|split; [constructor|split; [rewrite ?app_nil_r; assumption|now left]]]|]. split; [now left|]. cbn [length]. rewrite ?app_nil_r. change ((10 # 1) ^ (0 - Z.of_nat 0))%Q with 1%Q. ring.
Qed.

(** * Reading *)
Lemma negated_value ff f : value_of ff f -> value_of ff (negated f).
Proof. destruct f; auto. Qed.
Lemma negated_number f : (number_of (negated f) == - number_of f)%Q.
Proof. destruct f as [s|s| |s m e]; try reflexivity. cbn [negated]. rewrite !number_finite. destruct s; cbn [negb]; ring. Qed.
Lemma read_real ld tiny read q w g : format_ok ld -> underflow_policy ld tiny -> conversion ld tiny read -> real_text q w -> (q < limit ld)%Q -> tiny q = false -> nearest ld q g -> sign_of g = false ->
  read w = Some g /\ read (45 :: w) = Some (negated g).
Proof.
  intros HF HT HC HR HL HY HN HS. assert (S : stands_for ld tiny decimal_text w g) by (left; exists q; split; [now apply real_is_decimal|auto]).
  assert (C1 : convert_charconv ld tiny w = Some g) by (apply charconv_exact; [assumption..|now left]).
  assert (C2 : convert_charconv ld tiny (45 :: w) = Some (negated g)) by (apply charconv_exact; [assumption..|right; exists w, g; auto]).
  destruct HC as [HC|HC]; rewrite !HC; [auto|]. split; apply stod_reads_more; assumption.
Qed.
Lemma real_tokens fp q w g : real_text q w -> parse_fp fp w = Some g -> token fp w (JFloat g).
Proof.
  intros HR HP. destruct (real_shape q w HR) as (S1 & S2 & S3 & _ & S5). apply tok_float; [now rewrite S5|now rewrite S5|assumption|assumption].
Qed.
Lemma real_tokens_minus fp q w g : real_text q w -> parse_fp fp (45 :: w) = Some g -> token fp (45 :: w) (JFloat g).
Proof.
  intros HR HP. destruct (real_shape q w HR) as (S1 & S2 & S3 & _ & _). apply tok_float; [exact S1|exact S2| |assumption]. constructor; [unfold stop, white; lia|assumption].
Qed.

(** * One number *)
Lemma within_range ld v q : (2 * smallest_normal ld <= v)%Q -> (2 * v <= limit ld)%Q -> within (p10 5) v q -> (smallest_normal ld <= q /\ q < limit ld /\ 0 < q)%Q.
Proof.
  intros H1 H2 HW. unfold within in HW. change (p10 5) with (100000 # 1)%Q in HW. assert (N0 : (0 < smallest_normal ld)%Q) by apply p2_pos.
  assert (L1 : (q - v <= Qabs (q - v))%Q) by apply Qle_Qabs. assert (L2 : (- (q - v) <= Qabs (q - v))%Q) by (rewrite <- Qabs_opp; apply Qle_Qabs). split; [|split]; lra.
Qed.
Lemma integer_again sg (s : bool) w : decimal w -> 0 < positional_value 10 w < 2 ^ 63 ->
  exists j, (forall fp, token fp ((if s then [45] else []) ++ w) j) /\ (forall fp, serialize fp sg j = Ok ((if s then [45] else []) ++ w)) /\ number_in j (inject_Z (if s then - positional_value 10 w else positional_value 10 w)).
Proof.
  intros HD HV. set (v := positional_value 10 w) in *. pose proof HD as (N & D & C). destruct s.
  - exists (JSigned (- v)). split; [intros fp; apply tok_integer; apply (int_signed w HD); fold v; lia|]. split; [|reflexivity]. intros fp. cbn [serialize].
    destruct (plain_format 64 true 127 TDecimal (- v) 10) as (d & E & P); [right; right; right; reflexivity|unfold int_ok; lia|reflexivity|]. change (plain_field TDecimal) with integer_field in E. rewrite E. rewrite (proj2 (Z.ltb_lt (- v) 0)) by lia.
    rewrite (positional_unique 10 false v w d); [reflexivity|lia|split; [exact D|auto]|]. replace (Z.abs (- v)) with v in P by lia. exact P.
  - exists (JUnsigned v). split; [intros fp; apply tok_integer; apply (int_unsigned w HD); fold v; lia|]. split; [|reflexivity]. intros fp. cbn [serialize].
    destruct (plain_format 64 false 127 TDecimal v 10) as (d & E & P); [right; right; right; reflexivity|unfold int_ok; lia|reflexivity|]. change (plain_field TDecimal) with integer_field in E. rewrite E. rewrite (proj2 (Z.ltb_ge v 0)) by lia.
    rewrite (positional_unique 10 false v w d); [reflexivity|lia|split; [exact D|auto]|]. replace (Z.abs v) with v in P by lia. exact P.
Qed.
Lemma decimal_bytes w : decimal w -> Forall byte w.
Proof. intros (_ & D & _). eapply Forall_impl; [|exact D]. intros c H. unfold digit_of in H. unfold byte. lia. Qed.
Lemma float_again ld tiny read fp sg f : long_double ld -> underflow_policy ld tiny -> conversion ld tiny read -> library ld read fp -> value_of ld f -> moderate ld f ->
  exists j, token fp (print_fp fp f) j /\ Forall byte (print_fp fp f) /\ near f j /\ serialize fp sg j = Ok (print_fp fp f).
Proof.
  intros HL HT HC HLib HV HM. pose proof HL as (HF & HP & _). destruct (library_writes ld read fp f HLib HL HV) as (nb & PT & EP). rewrite EP. destruct f as [s|s| |s m e]; cbn [magnitude_of sign_of moderate] in *; try contradiction.
  - subst s. rewrite (printf_text_unique _ _ _ _ _ _ PT zero_text). cbn [app]. exists (JUnsigned 0).
    assert (D : decimal [48]) by (split; [discriminate|]; split; [constructor; [left; lia|constructor]|now left]).
    split; [apply tok_integer; apply (int_unsigned [48] D); reflexivity|]. split; [now apply decimal_bytes|]. split; [exists (inject_Z 0); split; [reflexivity|cbn; discriminate]|vm_compute; reflexivity].
  - set (v := (inject_Z (Zpos m) * p2 e)%Q). assert (V0 : (0 < v)%Q) by (apply Qmult_lt_0_compat; [apply inj_pos; lia|apply p2_pos]).
    assert (EN : (number_of (S754_finite s m e) == (if s then -1 else 1) * v)%Q) by apply number_finite.
    assert (EA : (Qabs (number_of (S754_finite s m e)) == v)%Q). { rewrite EN. destruct s; [rewrite <- Qabs_opp|]; rewrite Qabs_pos by lra; ring. }
    rewrite EA in HM. destruct HM as (M1 & M2).
    destruct (printed_reads TGeneral false 6 (Zpos m) e nb (or_intror eq_refl) ltac:(lia) PT) as (q & x & ds & Q1 & Q2 & Q3). cbn [following] in Q2, Q3. change (Nat.max 1 6 - 1)%nat with 5%nat in Q2, Q3.
    assert (HD : 0 < denominator e) by apply denominator_pos. assert (HNm : 0 < numerator (Zpos m) e) by (unfold numerator; pose proof (pow2_pos (Z.max e 0) ltac:(lia)); lia).
    pose proof (scientific_within _ _ _ _ _ HD HNm Q2) as HW. change (Z.of_nat 5) with 5 in *. assert (HW' : within (p10 5) v q) by (unfold within in *; rewrite ratio_number, <- Q3 in HW; exact HW).
    destruct (within_range ld v q M1 M2 HW') as (R1 & R2 & R3). unfold within in HW'. change (p10 5) with (100000 # 1)%Q in HW'.
    destruct (general_shape (Zpos m) e nb ltac:(lia) PT) as [DN|(q' & RT)].
    + pose proof (decimal_text_same _ _ _ Q1 (decimal_is_text nb DN)) as EQ. destruct (wide_small ld s m e HL HV) as (B1 & B2).
      assert (HN0 : 0 <= numerator (Zpos m) e) by lia. pose proof (general_text_length4 _ _ _ _ HD HN0 (or_introl B1) B2 PT) as LEN. change (Nat.max 1 6 + 7)%nat with 13%nat in LEN.
      assert (VB : 0 < positional_value 10 nb < 2 ^ 63).
      { split; [rewrite EQ in R3; change 0%Q with (inject_Z 0) in R3; now apply inj_lt_inv in R3|]. destruct DN as (_ & D & _). pose proof (positional_bound 10 false nb) as PB.
        assert (10 ^ Z.of_nat (length nb) <= 10 ^ 13) by (apply Z.pow_le_mono_r; lia). change (2 ^ 63) with 9223372036854775808. change (10 ^ 13) with 10000000000000 in H. specialize (PB ltac:(lia) D). lia. }
      destruct (integer_again sg s nb DN VB) as (j & J1 & J2 & J3). exists j. split; [apply J1|]. split; [apply Forall_app; split; [destruct s; [constructor; [unfold byte; lia|constructor]|constructor]|now apply decimal_bytes]|]. split; [|apply J2].
      eexists. split; [exact J3|]. rewrite EA. rewrite EQ in HW'. set (z := positional_value 10 nb) in *.
      assert (ED : (Qabs (inject_Z (if s then - z else z) - number_of (S754_finite s m e)) == Qabs (inject_Z z - v))%Q). { rewrite EN. destruct s; [rewrite <- Qabs_opp; apply Qabs_wd; rewrite inject_Z_opp; ring|apply Qabs_wd; ring]. }
      rewrite ED. pose proof (Qabs_nonneg (inject_Z z - v)). lra.
    + pose proof (decimal_text_same _ _ _ Q1 (real_is_decimal _ _ RT)) as EQ.
      assert (RT' : real_text q nb). { destruct RT as (a & b & c & d & T1 & T2 & T3 & T4 & T5 & T6). exists a, b, c, d. do 5 (split; [assumption|]). rewrite EQ. exact T6. }
      destruct (nearest_exists ld q HF ltac:(lra) R2) as (g & G1 & G2 & _). assert (TY : tiny q = false) by now apply HT.
      pose proof (nearest_error ld q g HF R1 R2 G1) as GE. assert (P21 : (2097152 # 1 <= p2 (prec ld))%Q) by (change (2097152 # 1)%Q with (p2 21); now apply p2_le).
      pose proof (Qabs_nonneg (number_of g - q)) as GA. set (A := Qabs (number_of g - q)) in *. assert (GE' : (A * (2097152 # 1) <= q)%Q). { eapply Qle_trans; [|exact GE]. rewrite !(Qmult_comm A). now apply Qmult_le_compat_r. }
      assert (L1 : (number_of g - q <= A)%Q) by apply Qle_Qabs. assert (L2 : (- (number_of g - q) <= A)%Q) by (unfold A; rewrite <- Qabs_opp; apply Qle_Qabs).
      assert (G0 : (0 < number_of g)%Q) by lra. pose proof G1 as (FG & VG & _). destruct g as [gs|gs| |gs m' e']; try (exfalso; cbn [number_of] in G0; lra); try contradiction. cbn [sign_of] in G2. subst gs.
      destruct (read_real ld tiny read q nb _ HF HT HC RT' R2 TY G1 eq_refl) as (C1 & C2).
      assert (EG : (number_of (S754_finite false m' e') == inject_Z (Zpos m') * p2 e')%Q) by (rewrite number_finite; ring).
      assert (PA : printf_text TGeneral false 6 (Finite (Zpos m') e') nb).
      { apply (printed_again TGeneral false 6 (Zpos m) e (Zpos m') e' nb q (p2 (prec ld))); [now right|lia|lia|exact PT|exact Q1| |].
        - cbn [following]. change (2 * p10 (Z.of_nat (Nat.max 1 6 - 1) + 1))%Q with (2 * (1000000 # 1))%Q. eapply Qle_trans; [|exact P21]. discriminate.
        - rewrite ratio_number, <- EG. exact GE. }
      set (h := if s then negated (S754_finite false m' e') else S754_finite false m' e').
      assert (HH : value_of ld h /\ finite h /\ magnitude_of h = Finite (Zpos m') e' /\ sign_of h = s /\ (number_of h == (if s then -1 else 1) * number_of (S754_finite false m' e'))%Q).
      { unfold h. destruct s; [split; [exact (negated_value _ _ VG)|]|split; [exact VG|]]; (split; [exact I|]); (split; [reflexivity|]); (split; [reflexivity|]); [rewrite negated_number|]; ring. }
      destruct HH as (H1 & H2 & H3 & H4 & H5). exists (JFloat h). split; [|split; [|split]].
      * destruct HLib as (RD & _). unfold h. destruct s; cbn [app]; [apply (real_tokens_minus fp q)|apply (real_tokens fp q)]; try assumption; rewrite RD; assumption.
      * destruct (real_shape _ _ RT) as (_ & _ & _ & BY & _). apply Forall_app; split; [destruct s; [constructor; [unfold byte; lia|constructor]|constructor]|assumption].
      * exists (number_of h). split; [split; [exact H2|reflexivity]|]. rewrite EA. set (gn := number_of (S754_finite false m' e')) in *.
        assert (ED : (Qabs (number_of h - number_of (S754_finite s m e)) == Qabs (gn - v))%Q). { rewrite H5, EN. destruct s; [rewrite <- Qabs_opp|]; apply Qabs_wd; ring. }
        rewrite ED. assert (TR : (Qabs (gn - v) <= A + Qabs (q - v))%Q). { assert (E : (gn - v == (gn - q) + (q - v))%Q) by ring. rewrite E. unfold A. apply Qabs_triangle. }
        assert (L3 : (q - v <= Qabs (q - v))%Q) by apply Qle_Qabs. lra.
      * cbn [serialize]. destruct (library_writes ld read fp h HLib HL H1) as (nb' & PT' & EP'). rewrite H3 in PT'. rewrite (printf_text_unique _ _ _ _ _ _ PT' PA) in EP'. rewrite EP', H4. reflexivity.
Qed.
