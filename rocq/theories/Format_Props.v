(** Property C41: integer formatting and conversion. *)
From Verif Require Import Common Bits Lexer_Model Lexer_Spec Lexer_Props Unicode_Model Unicode_Spec Unicode_Proofs
  Format_Model Format_Spec Format_Proofs.

Lemma int_range w sg v : native_int w -> int_ok w sg v -> 0 <= Z.abs v < 2 ^ 64.
Proof.
  intros Hw Hv. assert (2 ^ w <= 2 ^ 64) by (apply Z.pow_le_mono_r; unfold native_int in Hw; lia).
  assert (2 ^ (w - 1) <= 2 ^ w) by (apply Z.pow_le_mono_r; unfold native_int in Hw; lia).
  unfold int_ok in Hv. pose proof (pow2_pos (w - 1)). assert (2 ^ (w - 1) < 2 ^ 64) by (apply Z.pow_lt_mono_r; unfold native_int in Hw; lia).
  destruct sg; lia.
Qed.

Lemma format_integer_unsigned w sg cm spec width v : native_int w -> int_ok w sg v ->
  format_integer w sg cm spec width v = format_unsigned w cm spec width (Z.abs v) (v <? 0).
Proof.
  intros Hw Hv. unfold format_integer. destruct sg; cbn [int_ok] in Hv.
  - destruct (abs_value w v) as [-> ->]; [unfold native_int in Hw; lia|assumption|reflexivity].
  - f_equal; [lia|]. symmetry. apply Z.ltb_ge. lia.
Qed.

(** The general statement: the output is the fill, the sign, the base prefix, zeros, the positional
    representation of the absolute value and the fill, and it is exactly max(width, needed)
    characters long. *)
Theorem format_integer_exact : forall w sg cm spec width v base,
  native_int w -> int_ok w sg v -> 0 <= width < 2 ^ 64 -> numeric_base (m_type spec) = Some base ->
  exists left_ zeros right_ digits,
    let fill := value_or (m_fill spec) 32 in
    let prefix := sign_text (m_sign spec) v ++ base_text (m_alternate_form spec) (m_type spec) (m_case spec) in
    let out := repeat fill left_ ++ prefix ++ repeat 48 zeros ++ digits ++ repeat fill right_ in
    format_integer w sg cm spec width v = Ok out /\
    positional base (match m_case spec with CUpper => true | CLower => false end && (base =? 16)) (Z.abs v) digits /\
    placed (m_alignment spec) (m_zero_padding spec) left_ zeros right_ /\
    Z.of_nat (length out) = Z.max width (Z.of_nat (length (prefix ++ digits))).
Proof.
  intros w sg cm spec width v base Hw Hv Hwd Hb.
  rewrite (format_integer_unsigned w sg cm spec width v Hw Hv).
  pose proof (int_range w sg v Hw Hv) as HA.
  destruct (append_number_spec spec (Z.abs v) HA) as (digits & E & P & C).
  assert (HP : append_prefix spec (v <? 0) = sign_text (m_sign spec) v ++ base_text (m_alternate_form spec) (m_type spec) (m_case spec)).
  { unfold append_prefix, sign_text, base_text. f_equal. destruct (m_alternate_form spec), (m_type spec), (m_case spec); reflexivity. }
  assert (EB : base_of (m_type spec) = base /\ upper_digits spec = match m_case spec with CUpper => true | CLower => false end && (base =? 16)).
  { unfold upper_digits. destruct (m_type spec); try discriminate; injection Hb as <-; destruct (m_case spec); split; reflexivity. }
  destruct EB as [EB EU].
  set (prefix := sign_text (m_sign spec) v ++ base_text (m_alternate_form spec) (m_type spec) (m_case spec)) in *.
  set (p := Z.max (Z.of_nat (length digits) + prefix_size spec (v <? 0)) width - (Z.of_nat (length digits) + prefix_size spec (v <? 0))).
  assert (EF : format_unsigned w cm spec width (Z.abs v) (v <? 0) = Ok (align_number spec p prefix digits)).
  { unfold format_unsigned. rewrite C, E, HP. cbn [bind]. destruct (m_type spec); try reflexivity; discriminate Hb. }
  rewrite EF, EB, EU in *.
  assert (Hp : 0 <= p) by (unfold p; lia).
  assert (HLp : Z.of_nat (length prefix) = prefix_size spec (v <? 0)) by (rewrite <- HP; apply append_prefix_size).
  pose proof (align_length spec p prefix digits Hp) as HL.
  assert (HTot : Z.of_nat (length (align_number spec p prefix digits)) = Z.max width (Z.of_nat (length (prefix ++ digits)))).
  { rewrite HL, app_length, Nat2Z.inj_add. unfold p. lia. }
  clearbody p. unfold align_number in *. unfold padding in *. unfold placed.
  destruct (m_alignment spec); [destruct (m_zero_padding spec)| | |].
  - exists O, (Z.to_nat p), O, digits. cbv zeta. cbn [repeat app] in *. rewrite app_nil_r in *. repeat split; try assumption; apply P.
  - exists (Z.to_nat p), O, O, digits. cbv zeta. cbn [repeat app] in *. rewrite app_nil_r in *. repeat split; try assumption; apply P.
  - exists O, O, (Z.to_nat p), digits. cbv zeta. cbn [repeat app] in *. repeat split; try assumption; apply P.
  - exists (Z.to_nat p), O, O, digits. cbv zeta. cbn [repeat app] in *. rewrite app_nil_r in *. repeat split; try assumption; apply P.
  - exists (Z.to_nat (p / 2)), O, (Z.to_nat (if p mod 2 =? 0 then p / 2 else p / 2 + 1)), digits. cbv zeta. cbn [repeat app] in *.
    assert (0 <= p / 2) by (apply Z.div_pos; lia).
    split; [reflexivity|]. split; [assumption|]. split; [|assumption]. split; [reflexivity|].
    destruct (p mod 2 =? 0); lia.
Qed.

(** There is one positional representation only, so [format_integer_exact] determines the output. *)
Theorem positional_unique : forall base up v s s', 2 <= base -> positional base up v s -> positional base up v s' -> s = s'.
Proof. exact positional_unique_lemma. Qed.

(** Characters: a value that is no character of the format string's type is dropped. *)
Theorem format_integer_as_character : forall w sg cm spec width v,
  native_int w -> int_ok w sg v -> 0 <= width < 2 ^ 64 -> m_type spec = TCharacter -> 0 <= cm < 2 ^ w ->
  (0 <= v <= cm -> exists left_ right_, let fill := value_or (m_fill spec) 32 in
     format_integer w sg cm spec width v = Ok (repeat fill left_ ++ [v] ++ repeat fill right_) /\
     Z.of_nat (left_ + 1 + right_) = Z.max 1 width) /\
  (~ 0 <= v <= cm -> format_integer w sg cm spec width v = Ok []).
Proof.
  intros w sg cm spec width v Hw Hv Hwd Ht Hcm. rewrite (format_integer_unsigned w sg cm spec width v Hw Hv).
  unfold format_unsigned. rewrite Ht. unfold format_as_character. assert (EC : wrap w cm = cm) by (apply Z.mod_small; lia). rewrite EC.
  split; intros H.
  - assert (EN : (v <? 0) = false) by (apply Z.ltb_ge; lia). rewrite EN, Z.abs_eq by lia.
    assert (EG : v >? cm = false) by (rewrite Z.gtb_ltb; apply Z.ltb_ge; lia). rewrite EG. cbn [orb].
    set (p := if width >? 1 then width - 1 else 0). cbv zeta.
    assert (Hp : 0 <= p /\ p + 1 = Z.max 1 width) by (unfold p; rewrite Z.gtb_ltb; destruct (Z.ltb_spec 1 width); lia).
    clearbody p. unfold padding. destruct (m_alignment spec).
    + exists (Z.to_nat p), O. split; [now cbn [repeat app]|lia].
    + exists O, (Z.to_nat p). split; [now cbn [repeat app]|lia].
    + exists (Z.to_nat p), O. split; [now cbn [repeat app]|lia].
    + exists (Z.to_nat (p / 2)), (Z.to_nat (if p mod 2 =? 0 then p / 2 else p / 2 + 1)). split; [reflexivity|].
      pose proof (Z.div_mod p 2 ltac:(lia)). pose proof (Z.mod_pos_bound p 2 ltac:(lia)). destruct (Z.eqb_spec (p mod 2) 0); lia.
  - destruct (Z.ltb_spec v 0); [reflexivity|]. rewrite Z.abs_eq by lia.
    assert (EG : v >? cm = true) by (rewrite Z.gtb_ltb; apply Z.ltb_lt; lia). now rewrite EG.
Qed.

(** Text: cut at the precision, then padded to the width. *)
Theorem format_string_value_exact : forall spec width precision s, 0 <= width -> (forall p, precision = Some p -> 0 <= p) ->
  exists left_ right_,
    let fill := value_or (m_fill spec) 32 in
    let shown := match precision with Some p => firstn (Z.to_nat p) s | None => s end in
    let out := repeat fill left_ ++ shown ++ repeat fill right_ in
    format_string_value spec width precision s = out /\ placed_text (m_alignment spec) left_ right_ /\
    Z.of_nat (length out) = Z.max width (Z.of_nat (length shown)).
Proof.
  intros spec width precision s Hw Hp. unfold format_string_value.
  set (n := match precision with Some p => Z.min p (Z.of_nat (length s)) | None => Z.of_nat (length s) end).
  assert (Hn : 0 <= n <= Z.of_nat (length s)) by (unfold n; destruct precision as [p|]; [specialize (Hp p eq_refl)|]; lia).
  assert (ES : firstn (Z.to_nat n) s = match precision with Some p => firstn (Z.to_nat p) s | None => s end).
  { unfold n. destruct precision as [p|]; [|apply firstn_all2; lia]. specialize (Hp p eq_refl).
    destruct (Z.leb_spec p (Z.of_nat (length s))); [now rewrite Z.min_l by lia|]. rewrite Z.min_r by lia. rewrite !firstn_all2 by lia. reflexivity. }
  assert (HL : Z.of_nat (length (firstn (Z.to_nat n) s)) = n) by (rewrite firstn_length; lia).
  rewrite <- ES. set (shown := firstn (Z.to_nat n) s) in *. clearbody shown n.
  set (p := Z.max n width - n). assert (Hpp : 0 <= p /\ p + n = Z.max width n) by (unfold p; lia). clearbody p.
  cbv zeta. unfold padding, placed_text. destruct (m_alignment spec).
  - exists O, (Z.to_nat p). cbn [repeat app]. rewrite app_length, repeat_length. repeat split; lia.
  - exists O, (Z.to_nat p). cbn [repeat app]. rewrite app_length, repeat_length. repeat split; lia.
  - exists (Z.to_nat p), O. cbn [repeat app]. rewrite app_nil_r, app_length, repeat_length. repeat split; lia.
  - exists (Z.to_nat (p / 2)), (Z.to_nat (if p mod 2 =? 0 then p / 2 else p / 2 + 1)). rewrite !app_length, !repeat_length.
    pose proof (Z.div_mod p 2 ltac:(lia)). pose proof (Z.mod_pos_bound p 2 ltac:(lia)).
    destruct (Z.eqb_spec (p mod 2) 0); repeat split; lia.
Qed.

(** Booleans as text. *)
Theorem format_bool_text : forall cm spec width precision b, m_type spec = TString ->
  format_bool cm spec width precision b =
  Ok (format_string_value spec width precision (if b then [116; 114; 117; 101] else [102; 97; 108; 115; 101])).
Proof. intros cm spec width precision b Ht. unfold format_bool. now rewrite Ht. Qed.

(** The converter accepts exactly the optional minus sign (signed types) followed by decimal digits
    whose value is in range, and returns that value. *)
Theorem convert_exact_int : forall w sg s v, 1 <= w ->
  (convert w sg s = Some v <->
   int_ok w sg v /\ exists digits, digits <> [] /\ Forall (digit_of 10 false) digits /\
     ((s = digits /\ v = positional_value 10 digits) \/
      (sg = true /\ s = 45 :: digits /\ v = - positional_value 10 digits))).
Proof.
  intros w sg s v Hw.
  assert (G : forall neg body, (match body with [] => None | _ =>
      if forallb (fun c => (48 <=? c) && (c <=? 57)) body then
        let n := fold_left (fun a c => a * 10 + (c - 48)) body 0 in let v := if neg : bool then - n else n in
        if ((if sg then - 2 ^ (w - 1) else 0) <=? v) && (v <? (if sg then 2 ^ (w - 1) else 2 ^ w)) then Some v else None
      else None end) = Some v <->
    int_ok w sg v /\ body <> [] /\ Forall (digit_of 10 false) body /\ v = if neg then - positional_value 10 body else positional_value 10 body).
  { intros neg body. destruct body as [|c0 b0] eqn:EB; [split; [discriminate|intros (_ & H & _); congruence]|]. rewrite <- EB.
    destruct (forallb _ body) eqn:EF.
    - apply digits10 in EF. cbv zeta. rewrite fold_number by assumption. rewrite Z.mul_0_l, Z.add_0_l.
      set (x := if neg then - positional_value 10 body else positional_value 10 body).
      destruct ((_ <=? x) && _) eqn:ER.
      + apply andb_true_iff in ER. rewrite Z.leb_le, Z.ltb_lt in ER.
        split; [intros H; injection H as <-; repeat split; try assumption; [|congruence]; unfold int_ok; now destruct sg|].
        intros (_ & _ & _ & ->). reflexivity.
      + split; [discriminate|]. intros (H & _ & _ & ->). exfalso. unfold int_ok in H. apply andb_false_iff in ER.
        rewrite Z.leb_gt, Z.ltb_ge in ER. destruct sg; lia.
    - split; [discriminate|]. intros (_ & _ & H & _). apply digits10 in H. congruence. }
  unfold convert. destruct s as [|c r].
  - split; [discriminate|]. intros (_ & d & Hd & _ & [[E _]|(_ & E & _)]); [congruence|discriminate].
  - destruct sg; cbn [andb].
    + destruct (Z.eqb_spec c 45) as [->|Hc].
      * rewrite (G true r). split.
        -- intros (H1 & H2 & H3 & H4). split; [assumption|]. exists r. auto 6.
        -- intros (H1 & d & H2 & H3 & [[<- H4]|(_ & E & H4)]).
           ++ inversion H3 as [|? ? Hx _]; subst. unfold digit_of in Hx. lia.
           ++ injection E as <-. auto.
      * rewrite (G false (c :: r)). split.
        -- intros (H1 & H2 & H3 & H4). split; [assumption|]. exists (c :: r). auto 6.
        -- intros (H1 & d & H2 & H3 & [[<- H4]|(_ & E & H4)]); [auto|]. congruence.
    + rewrite (G false (c :: r)). split.
      * intros (H1 & H2 & H3 & H4). split; [assumption|]. exists (c :: r). auto 6.
      * intros (H1 & d & H2 & H3 & [[<- H4]|(E & _)]); [auto|]. discriminate.
Qed.

(** The plain decimal field "{}". *)
Definition decimal_field : specifier :=
  Specifier 0 None ADefault SDefault false false None None None None false TDecimal CLower 0 0.
Definition plain_field (t : ftype) : specifier :=
  Specifier 0 None ADefault SDefault false false None None None None false t CLower 0 0.

Lemma plain_format w sg cm t v base : native_int w -> int_ok w sg v -> numeric_base t = Some base ->
  exists digits, format_integer w sg cm (plain_field t) 0 v = Ok ((if v <? 0 then [45] else []) ++ digits) /\
    positional base false (Z.abs v) digits.
Proof.
  intros Hw Hv Hb. destruct (format_integer_exact w sg cm (plain_field t) 0 v base Hw Hv ltac:(lia) Hb) as (l & z & r & digits & H).
  cbv zeta in H. destruct H as (E & P & PL & HL). unfold plain_field in *. cbn [m_fill m_sign m_alternate_form m_type m_case m_alignment m_zero_padding value_or base_text placed andb] in *.
  destruct PL as [-> ->]. assert (l = O).
  { rewrite !app_length, !repeat_length in HL. cbn [repeat length] in HL. lia. }
  subst l. cbn [repeat app] in E. rewrite !app_nil_r in E. exists digits. split; [exact E|exact P].
Qed.

(** Formatting any integer of any integer type with "{}" and converting the text back to the same
    type gives the integer. *)
Theorem convert_format_integer : forall w sg cm v s, native_int w -> int_ok w sg v ->
  format_integer w sg cm decimal_field 0 v = Ok s -> convert w sg s = Some v.
Proof.
  intros w sg cm v s Hw Hv E. destruct (plain_format w sg cm TDecimal v 10 Hw Hv eq_refl) as (d & E' & (F & V & N & _)).
  change (plain_field TDecimal) with decimal_field in E'. rewrite E in E'. injection E' as ->.
  apply convert_exact_int; [unfold native_int in Hw; lia|]. split; [assumption|]. exists d. split; [assumption|]. split; [assumption|].
  destruct (Z.ltb_spec v 0) as [Hn|Hn].
  - right. destruct sg; [|cbn in Hv; lia]. repeat split. lia.
  - left. split; [reflexivity|lia].
Qed.
Theorem format_integer_total : forall w sg cm spec width v base, native_int w -> int_ok w sg v -> 0 <= width < 2 ^ 64 ->
  numeric_base (m_type spec) = Some base -> exists s, format_integer w sg cm spec width v = Ok s.
Proof.
  intros w sg cm spec width v base Hw Hv Hwd Hb. destruct (format_integer_exact w sg cm spec width v base Hw Hv Hwd Hb) as (l & z & r & d & H).
  cbv zeta in H. destruct H as (E & _). eauto.
Qed.

(** Format strings of the other character types: transcoding the digits from char (formatters.hpp:443-455)
    yields the same characters. *)
Theorem number_transcoded : forall sc to base up v digits, base <= 36 -> positional base up v digits ->
  Unicode_Model.convert (U8 sc) to digits = Some digits.
Proof.
  intros sc to base up v digits Hb (F & _). 
  assert (HS : Forall scalar digits /\ Forall (fun c => 0 <= c < 0x80) digits).
  { split; eapply Forall_impl; try exact F; cbv beta; intros c Hc; unfold digit_of in Hc; unfold scalar; destruct up; lia. }
  destruct HS as [HS HA].
  assert (T : forall e, text (form e) digits = digits).
  { intros e. clear - HA. induction HA as [|c s Hc _ IH]; [reflexivity|]. cbn [text flat_map]. unfold text in IH. rewrite IH.
    assert (form e c = [c]) as ->; [|reflexivity]. destruct e; unfold form, utf8, utf16, utf32.
    - destruct (Z.ltb_spec c 0x80); [reflexivity|lia].
    - destruct (Z.ltb_spec c 0x10000); [reflexivity|lia].
    - reflexivity. }
  rewrite <- (T (U8 sc)) at 1. rewrite convert_text by assumption. now rewrite T.
Qed.

Example C41_cases :
  format_integer 32 true 127 (Specifier 0 (Some 42) ACenter SAlways true false None None None None false THex CUpper 0 0) 10 255 = Ok [42;42;43;48;88;70;70;42;42;42] /\
  format_integer 8 true 127 decimal_field 0 (-128) = Ok [45;49;50;56] /\
  format_integer 64 false 127 (plain_field TBinary) 0 (2 ^ 64 - 1) = Ok (repeat 49 64) /\
  format_integer 16 true 127 (Specifier 0 None ADefault SDefault false true None None None None false TDecimal CLower 0 0) 6 (-42) = Ok [45;48;48;48;52;50] /\
  convert 8 true [45;49;50;56] = Some (-128) /\ convert 8 true [49;50;56] = None /\ convert 8 false [45;49] = None /\ convert 64 true [] = None /\
  native_int 32 /\ int_ok 32 true 255 /\ numeric_base THex = Some 16.
Proof. repeat split; try reflexivity; try (cbn; lia). right; right; now left. Qed.

Print Assumptions format_integer_exact.
Print Assumptions positional_unique.
Print Assumptions format_integer_as_character.
Print Assumptions format_string_value_exact.
Print Assumptions format_bool_text.
Print Assumptions convert_exact_int.
Print Assumptions convert_format_integer.
Print Assumptions format_integer_total.
Print Assumptions number_transcoded.
