(** Property C15: numeric literal suffixes. *)
From Verif Require Import Common Bits Literal_Model Literal_Spec.

Lemma digit_parse c d : digit c d -> parse_literal c = d /\ 0 <= d < 16 /\ c <> 39.
Proof.
  unfold parse_literal. intros [c' H|c' H|c' H];
  destruct (Z.leb_spec 65 c'), (Z.leb_spec c' 70); cbn [andb]; try lia;
  destruct (Z.leb_spec 97 c'), (Z.leb_spec c' 102); cbn [andb]; lia.
Qed.

Lemma digit_valid base c d : base = 2 \/ base = 8 \/ base = 10 \/ base = 16 ->
  digit c d -> d < base -> valid_for_base base c = true.
Proof.
  intros HB HD Hlt. unfold valid_for_base.
  destruct HB as [-> | [-> | [-> | ->]]]; cbn [Z.eqb Pos.eqb andb orb];
  destruct HD as [c H|c H|c H]; repeat match goal with
    | |- context [?a <=? ?b] => destruct (Z.leb_spec a b); try lia
    | |- context [?a =? ?b] => destruct (Z.eqb_spec a b); try lia
    end; reflexivity.
Qed.

Lemma digits_valid base s ds : base = 2 \/ base = 8 \/ base = 10 \/ base = 16 ->
  digits base s ds -> forallb (valid_for_base base) s = true.
Proof.
  intros HB. induction 1 as [c d HD HL|c d s ds HD HL _ IH|c d s ds HD HL _ IH]; cbn [forallb];
    rewrite (digit_valid base c d HB HD HL); [reflexivity|exact IH|]. rewrite IH.
  unfold valid_for_base. reflexivity.
Qed.

(** Where the aggregation stays in range it computes the positional value; otherwise, signed
    aggregation is rejected and unsigned wraps. *)
Definition agg_spec (sg : bool) (v : Z) : option Z :=
  if sg then if v <? 2 ^ 63 then Some v else None else Some (wrap 64 v).

Lemma value_ge base : forall ds a, 2 <= base -> 0 <= a -> Forall (fun d => 0 <= d) ds ->
  a <= fold_left (fun x d => x * base + d) ds a.
Proof.
  induction ds as [|d ds IH]; intros a Hb Ha HF; [cbn; lia|]. inversion HF; subst. cbn [fold_left].
  assert (a * 1 <= a * base) by (apply Z.mul_le_mono_nonneg_l; lia).
  specialize (IH (a * base + d) Hb ltac:(lia) ltac:(assumption)). lia.
Qed.

Lemma wrap_step a base d : wrap 64 (wrap 64 (wrap 64 a * base) + d) = wrap 64 (a * base + d).
Proof.
  unfold wrap. rewrite Zplus_mod_idemp_l. rewrite <- Zplus_mod_idemp_l.
  rewrite Zmult_mod_idemp_l. now rewrite Zplus_mod_idemp_l.
Qed.

Lemma aggregate_unsigned base s ds : digits base s ds -> forall a,
  aggregate false base s (wrap 64 a) = Some (wrap 64 (fold_left (fun x d => x * base + d) ds a)).
Proof.
  induction 1 as [c d HD HL|c d s ds HD HL _ IH|c d s ds HD HL _ IH]; intros a;
    destruct (digit_parse c d HD) as (E & Hd & Hne); cbn [aggregate]; rewrite E;
    (destruct (Z.eqb_spec c 39); [contradiction|]); cbn [max_arith fold_left].
  - now rewrite wrap_step.
  - rewrite wrap_step. apply IH.
  - change (39 =? 39) with true. cbv iota. rewrite wrap_step. apply IH.
Qed.

Lemma digits_nonneg base s ds : digits base s ds -> Forall (fun d => 0 <= d) ds.
Proof. induction 1 as [c d HD|c d s ds HD _ _ IH|c d s ds HD _ _ IH]; destruct (digit_parse c d HD); constructor; try assumption; (lia || constructor). Qed.

Lemma signed_step a base d v : 2 <= base -> 0 <= a -> 0 <= d < 16 -> a * base + d <= v ->
  match max_arith true (a * base) with
  | None => None
  | Some m => match max_arith true (m + d) with None => None | Some x => Some x end
  end = if a * base + d <? 2 ^ 63 then Some (a * base + d) else None.
Proof.
  intros Hb Ha Hd Hv. assert (0 <= a * base) by (apply Z.mul_nonneg_nonneg; lia).
  unfold max_arith. change (- 2 ^ 63) with (-9223372036854775808). change (2 ^ 63) with 9223372036854775808.
  repeat match goal with |- context [?x <=? ?y] => destruct (Z.leb_spec x y); try lia | |- context [?x <? ?y] => destruct (Z.ltb_spec x y); try lia end; cbn [andb];
  repeat match goal with |- context [?x <=? ?y] => destruct (Z.leb_spec x y); try lia | |- context [?x <? ?y] => destruct (Z.ltb_spec x y); try lia end; reflexivity.
Qed.

Lemma aggregate_signed base s ds : 2 <= base -> digits base s ds -> forall a, 0 <= a ->
  aggregate true base s a =
    (if fold_left (fun x d => x * base + d) ds a <? 2 ^ 63 then Some (fold_left (fun x d => x * base + d) ds a) else None).
Proof.
  intros Hb. induction 1 as [c d HD HL|c d s ds HD HL HS IH|c d s ds HD HL HS IH]; intros a Ha;
    destruct (digit_parse c d HD) as (E & Hd & Hne); cbn [aggregate]; rewrite E;
    (destruct (Z.eqb_spec c 39); [contradiction|]); cbn [fold_left].
  all: assert (0 <= a * base) by (apply Z.mul_nonneg_nonneg; lia).
  all: pose proof (signed_step a base d (a * base + d) Hb Ha Hd ltac:(lia)) as ST.
  - destruct (max_arith true (a * base)) as [m|]; [|destruct (a * base + d <? 2 ^ 63); [discriminate|reflexivity]].
    destruct (max_arith true (m + d)) as [x|]; exact ST.
  - assert (GE : a * base + d <= fold_left (fun x d => x * base + d) ds (a * base + d))
      by (apply value_ge; [lia|lia|eapply digits_nonneg; eassumption]).
    destruct (max_arith true (a * base)) as [m|].
    + destruct (max_arith true (m + d)) as [x|].
      * destruct (Z.ltb_spec (a * base + d) (2 ^ 63)); [|discriminate]. injection ST as ->. apply IH. lia.
      * destruct (Z.ltb_spec (a * base + d) (2 ^ 63)); [discriminate|].
        destruct (Z.ltb_spec (fold_left (fun x d => x * base + d) ds (a * base + d)) (2 ^ 63)); [lia|reflexivity].
    + destruct (Z.ltb_spec (a * base + d) (2 ^ 63)); [discriminate|].
      destruct (Z.ltb_spec (fold_left (fun x d => x * base + d) ds (a * base + d)) (2 ^ 63)); [lia|reflexivity].
  - change (39 =? 39) with true. cbv iota.
    assert (GE : a * base + d <= fold_left (fun x d => x * base + d) ds (a * base + d))
      by (apply value_ge; [lia|lia|eapply digits_nonneg; eassumption]).
    destruct (max_arith true (a * base)) as [m|].
    + destruct (max_arith true (m + d)) as [x|].
      * destruct (Z.ltb_spec (a * base + d) (2 ^ 63)); [|discriminate]. injection ST as ->. apply IH. lia.
      * destruct (Z.ltb_spec (a * base + d) (2 ^ 63)); [discriminate|].
        destruct (Z.ltb_spec (fold_left (fun x d => x * base + d) ds (a * base + d)) (2 ^ 63)); [lia|reflexivity].
    + destruct (Z.ltb_spec (a * base + d) (2 ^ 63)); [discriminate|].
      destruct (Z.ltb_spec (fold_left (fun x d => x * base + d) ds (a * base + d)) (2 ^ 63)); [lia|reflexivity].
Qed.

Lemma value_nonneg base s ds : 2 <= base -> digits base s ds -> 0 <= value base ds.
Proof. intros Hb H. apply value_ge; [assumption|lia|eapply digits_nonneg; eassumption]. Qed.

Lemma parser_base_spec sg base s ds : base = 2 \/ base = 8 \/ base = 10 \/ base = 16 -> digits base s ds ->
  parser_base sg base s = agg_spec sg (value base ds).
Proof.
  intros HB HD. unfold parser_base. rewrite (digits_valid base s ds HB HD). unfold agg_spec, value. destruct sg.
  - rewrite (aggregate_signed base s ds ltac:(lia) HD 0 ltac:(lia)). reflexivity.
  - change 0 with (wrap 64 0) at 1. now rewrite (aggregate_unsigned base s ds HD).
Qed.
Lemma parser_base_sep sg s : parser_base sg 8 (39 :: s) = parser_base sg 8 s.
Proof. unfold parser_base. cbn [forallb aggregate]. reflexivity. Qed.

Lemma digits_head base s ds : digits base s ds -> exists c r d, s = c :: r /\ digit c d /\ d < base.
Proof. destruct 1 as [c d H|c d s ds H|c d s ds H]; exists c; eexists; exists d; eauto. Qed.

(** Deciding the prefix by comparisons instead of the pattern match on numerals. *)
Lemma parser_eq sg chars : parser sg chars =
  match chars with
  | c :: r =>
      if c =? 48 then
        match r with
        | x :: r' => if (x =? 98) || (x =? 66) then parser_base sg 2 r'
                     else if (x =? 120) || (x =? 88) then parser_base sg 16 r' else parser_base sg 8 r
        | [] => parser_base sg 8 r
        end
      else parser_base sg 10 chars
  | [] => parser_base sg 10 chars
  end.
Proof.
  destruct chars as [|c r]; [reflexivity|].
  destruct (Z.eqb_spec c 48) as [->|Hc].
  - destruct r as [|x r]; [reflexivity|].
    destruct (Z.eqb_spec x 98) as [->|]; [reflexivity|]. destruct (Z.eqb_spec x 66) as [->|]; [reflexivity|].
    destruct (Z.eqb_spec x 120) as [->|]; [reflexivity|]. destruct (Z.eqb_spec x 88) as [->|]; [reflexivity|].
    cbn [orb parser]. destruct x as [|p|p]; try reflexivity.
    do 7 (destruct p as [p|p|]; try reflexivity; try congruence).
  - unfold parser. destruct c as [|p|p]; try reflexivity.
    do 6 (destruct p as [p|p|]; try reflexivity; try congruence).
Qed.

Lemma parser_spec sg chars v : integer_literal chars v -> parser sg chars = agg_spec sg v /\ 0 <= v.
Proof.
  intros H. rewrite parser_eq. destruct H as [c s ds Hc HD| |s ds HD|s ds HD|x s ds Hx HD|x s ds Hx HD].
  - destruct (Z.eqb_spec c 48); [contradiction|]. split; [apply parser_base_spec; auto|eapply value_nonneg; [|eassumption]; lia].
  - split; [|lia]. change (48 =? 48) with true. cbv iota. destruct sg; reflexivity.
  - split; [|eapply value_nonneg; [|eassumption]; lia]. change (48 =? 48) with true. cbv iota.
    destruct (digits_head 8 s ds HD) as (c & r & d & -> & Hd & Hlt).
    assert (48 <= c <= 55) by (destruct Hd; lia).
    replace ((c =? 98) || (c =? 66)) with false by (symmetry; apply orb_false_iff; rewrite !Z.eqb_neq; lia).
    replace ((c =? 120) || (c =? 88)) with false by (symmetry; apply orb_false_iff; rewrite !Z.eqb_neq; lia).
    apply parser_base_spec; auto.
  - split; [|eapply value_nonneg; [|eassumption]; lia]. change (48 =? 48) with true. cbv iota.
    replace ((39 =? 98) || (39 =? 66)) with false by reflexivity. replace ((39 =? 120) || (39 =? 88)) with false by reflexivity.
    cbv iota. rewrite parser_base_sep. apply parser_base_spec; auto.
  - split; [|eapply value_nonneg; [|eassumption]; lia]. change (48 =? 48) with true. cbv iota.
    replace ((x =? 98) || (x =? 66)) with false by (destruct Hx; subst; reflexivity).
    replace ((x =? 120) || (x =? 88)) with true by (destruct Hx; subst; reflexivity). apply parser_base_spec; auto.
  - split; [|eapply value_nonneg; [|eassumption]; lia]. change (48 =? 48) with true. cbv iota.
    replace ((x =? 98) || (x =? 66)) with true by (destruct Hx; subst; reflexivity). apply parser_base_spec; auto.
Qed.

Definition bits_ok (bits : Z) : Prop := bits = 8 \/ bits = 16 \/ bits = 32 \/ bits = 64.

(** The literal has exactly its C++ value when that value fits the type. *)
Theorem literal_value : forall sg bits chars v, bits_ok bits ->
  integer_literal chars v -> fits sg bits v -> literal sg bits chars = Some v.
Proof.
  intros sg bits chars v HB HI HF. unfold literal. destruct (parser_spec sg chars v HI) as [-> Hv].
  unfold agg_spec. destruct sg; unfold fits in HF; unfold type_min, type_max.
  - assert (2 ^ (bits - 1) <= 2 ^ 63) by (apply Z.pow_le_mono_r; [lia|unfold bits_ok in HB; lia]).
    destruct (Z.ltb_spec v (2 ^ 63)); [|lia].
    destruct (Z.leb_spec (- 2 ^ (bits - 1)) v), (Z.leb_spec v (2 ^ (bits - 1) - 1)); try lia. reflexivity.
  - assert (2 ^ bits <= 2 ^ 64) by (apply Z.pow_le_mono_r; [lia|unfold bits_ok in HB; lia]).
    unfold wrap. rewrite Z.mod_small by lia.
    destruct (Z.leb_spec 0 v), (Z.leb_spec v (2 ^ bits - 1)); try lia. reflexivity.
Qed.

(** It is rejected when the value does not fit: for the signed suffixes always, for the unsigned ones
    when the value is below 2^64 (missing: unsigned literals of 2^64 and more, see below). *)
Theorem literal_rejected_partial : forall sg bits chars v, bits_ok bits ->
  integer_literal chars v -> ~ fits sg bits v -> (sg = true \/ v < 2 ^ 64) -> literal sg bits chars = None.
Proof.
  intros sg bits chars v HB HI HF HV. unfold literal. destruct (parser_spec sg chars v HI) as [-> Hv].
  unfold agg_spec. destruct sg; unfold fits in HF; unfold type_min, type_max.
  - assert (0 < 2 ^ (bits - 1)) by (apply pow2_pos; unfold bits_ok in HB; lia).
    destruct (Z.ltb_spec v (2 ^ 63)); [|reflexivity].
    destruct (Z.leb_spec (- 2 ^ (bits - 1)) v), (Z.leb_spec v (2 ^ (bits - 1) - 1)); cbn [andb]; try reflexivity; lia.
  - destruct HV as [|HV]; [discriminate|]. unfold wrap. rewrite Z.mod_small by lia.
    destruct (Z.leb_spec 0 v), (Z.leb_spec v (2 ^ bits - 1)); cbn [andb]; try reflexivity; lia.
Qed.

(** An unsigned literal of 2^64 or more wraps around and is accepted with the wrong value. *)
Theorem literal_overflow_refuted : exists bits chars v, bits_ok bits /\
  integer_literal chars v /\ ~ fits false bits v /\ literal false bits chars <> None.
Proof.
  (* 18446744073709551617_u8 is 1 *)
  exists 8, [49;56;52;52;54;55;52;52;48;55;51;55;48;57;53;53;49;54;49;55], 18446744073709551617.
  split; [now left|]. split; [|split].
  - change 18446744073709551617 with (value 10 [1;8;4;4;6;7;4;4;0;7;3;7;0;9;5;5;1;6;1;7]).
    apply lit_decimal; [lia|].
    assert (D : forall c d, 48 <= c <= 57 -> d = c - 48 -> forall s ds, digits 10 s ds -> digits 10 (c :: s) (d :: ds)).
    { intros c d Hc -> s ds H. apply digits_more; [now constructor|lia|assumption]. }
    do 19 (apply D; [lia|reflexivity|]). apply (digits_one 10 55 7); [apply (digit_dec 55)|]; lia.
  - unfold fits. change (2 ^ 8) with 256. lia.
  - vm_compute. discriminate.
Qed.

(** In general the unsigned literal is the C++ value modulo 2^64 whenever that fits. *)
Theorem literal_unsigned_wraps : forall bits chars v, bits_ok bits -> integer_literal chars v ->
  literal false bits chars = if v mod 2 ^ 64 <? 2 ^ bits then Some (v mod 2 ^ 64) else None.
Proof.
  intros bits chars v HB HI. unfold literal. destruct (parser_spec false chars v HI) as [-> Hv].
  unfold agg_spec, type_min, type_max, wrap. pose proof (Z.mod_pos_bound v (2 ^ 64) ltac:(lia)).
  destruct (Z.leb_spec 0 (v mod 2 ^ 64)); [|lia].
  destruct (Z.leb_spec (v mod 2 ^ 64) (2 ^ bits - 1)), (Z.ltb_spec (v mod 2 ^ 64) (2 ^ bits)); try lia; reflexivity.
Qed.

(** A character that is neither a separator nor a digit of the base is rejected, in every base and
    for every spelling of the prefix. *)
Theorem literal_bad_digit : forall sg bits base prefix c rest chars,
  (base = 2 /\ exists b, (b = 98 \/ b = 66) /\ chars = 48 :: b :: prefix ++ c :: rest) \/
  (base = 16 /\ exists x, (x = 120 \/ x = 88) /\ chars = 48 :: x :: prefix ++ c :: rest) \/
  (base = 8 /\ chars = 48 :: prefix ++ c :: rest /\ ~ In (nth 1 chars 0) [98; 66; 120; 88]) \/
  (base = 10 /\ chars = prefix ++ c :: rest /\ nth 0 chars 0 <> 48) ->
  c <> 39 -> (forall d, digit c d -> base <= d) -> literal sg bits chars = None.
Proof.
  intros sg bits base prefix c rest chars H Hs Hd.
  assert (HV : base = 2 \/ base = 8 \/ base = 10 \/ base = 16 -> valid_for_base base c = false).
  { intros HB. unfold valid_for_base.
    assert (48 <= c <= 57 -> base <= c - 48) by (intros; apply Hd; now constructor).
    assert (97 <= c <= 102 -> base <= c - 87) by (intros; apply Hd; now constructor).
    assert (65 <= c <= 70 -> base <= c - 55) by (intros; apply Hd; now constructor).
    destruct (Z.eqb_spec c 39); [contradiction|].
    destruct HB as [-> | [-> | [-> | ->]]]; cbn [Z.eqb Pos.eqb andb orb];
    repeat match goal with |- context [?a <=? ?b] => destruct (Z.leb_spec a b); cbn [andb orb]; try lia end; reflexivity. }
  assert (HA : forall p, forallb (valid_for_base base) (p ++ c :: rest) = forallb (valid_for_base base) p && (valid_for_base base c && forallb (valid_for_base base) rest)).
  { intros p. now rewrite forallb_app. }
  assert (HP : base = 2 \/ base = 8 \/ base = 10 \/ base = 16 -> parser_base sg base (prefix ++ c :: rest) = None).
  { intros HB. unfold parser_base. rewrite HA, HV by assumption. cbn [andb]. now rewrite andb_false_r. }
  unfold literal. rewrite parser_eq.
  destruct H as [(-> & b & Hb & ->)|[(-> & x & Hx & ->)|[(-> & -> & Hn)|(-> & E & Hz)]]].
  - change (48 =? 48) with true. cbv iota.
    replace ((b =? 98) || (b =? 66)) with true by (destruct Hb; subst; reflexivity). rewrite HP by auto. reflexivity.
  - change (48 =? 48) with true. cbv iota.
    replace ((x =? 98) || (x =? 66)) with false by (destruct Hx; subst; reflexivity).
    replace ((x =? 120) || (x =? 88)) with true by (destruct Hx; subst; reflexivity). rewrite HP by auto. reflexivity.
  - change (48 =? 48) with true. cbv iota. specialize (HP ltac:(auto)). cbn [nth] in Hn.
    destruct (prefix ++ c :: rest) as [|x r]; [now rewrite HP|].
    cbn [nth In] in Hn.
    replace ((x =? 98) || (x =? 66)) with false by (symmetry; apply orb_false_iff; rewrite !Z.eqb_neq; split; intros ->; tauto).
    replace ((x =? 120) || (x =? 88)) with false by (symmetry; apply orb_false_iff; rewrite !Z.eqb_neq; split; intros ->; tauto).
    now rewrite HP.
  - specialize (HP ltac:(auto)). rewrite <- E in HP.
    destruct chars as [|k chars]; [now rewrite HP|]. cbn [nth] in Hz.
    destruct (Z.eqb_spec k 48); [contradiction|]. now rewrite HP.
Qed.
(* 08_u8, 0X1g_u8, 0B12_u8 *)
Example C15_bad_octal : literal false 8 [48; 56] = None /\ literal false 8 [48; 88; 49; 103] = None /\ literal false 8 [48; 66; 49; 50] = None.
Proof.
  assert (D : forall k c, digit c k -> (48 <= c <= 57 /\ k = c - 48) \/ (97 <= c <= 102 /\ k = c - 87) \/ (65 <= c <= 70 /\ k = c - 55)) by (intros k c [c' H|c' H|c' H]; lia).
  split; [|split].
  - apply (literal_bad_digit false 8 8 [] 56 []); [right; right; left; split; [reflexivity|split; [reflexivity|cbn; lia]]|lia|].
    intros d H. apply D in H. lia.
  - apply (literal_bad_digit false 8 16 [49] 103 []); [right; left; split; [reflexivity|exists 88; split; [now right|reflexivity]]|lia|].
    intros d H. apply D in H. lia.
  - apply (literal_bad_digit false 8 2 [49] 50 []); [left; split; [reflexivity|exists 66; split; [now right|reflexivity]]|lia|].
    intros d H. apply D in H. lia.
Qed.

Example C15_dec : integer_literal [50; 53; 53] 255 /\ fits false 8 255 /\ literal false 8 [50;53;53] = Some 255
  /\ literal false 8 [50;53;54] = None /\ literal true 8 [49;50;55] = Some 127 /\ literal true 8 [49;50;56] = None.
Proof.
  split; [|repeat split; vm_compute; discriminate || reflexivity].
  change 255 with (value 10 [2;5;5]). apply lit_decimal; [lia|].
  apply (digits_more 10 50 2); [apply (digit_dec 50); lia|lia|].
  apply (digits_more 10 53 5); [apply (digit_dec 53); lia|lia|].
  apply (digits_one 10 53 5); [apply (digit_dec 53); lia|lia].
Qed.
(* 0xff'Ff_u16, 017_u8, 0'17_u8, 0b10'1_u8, 0_u8 *)
Example C15_bases : literal false 16 [48;120;102;102;39;70;102] = Some 65535 /\ literal false 8 [48;49;55] = Some 15 /\
  literal false 8 [48;39;49;55] = Some 15 /\ literal false 8 [48;98;49;48;39;49] = Some 5 /\ literal false 8 [48] = Some 0 /\
  literal false 8 [48;98;50] = None /\ literal false 8 [48;56] = None /\ literal false 8 [49;46;53] = None.
Proof. repeat split. Qed.

Print Assumptions literal_value.
Print Assumptions literal_rejected_partial.
Print Assumptions literal_overflow_refuted.
Print Assumptions literal_unsigned_wraps.
Print Assumptions literal_bad_digit.
