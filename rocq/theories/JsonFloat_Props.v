(** C55: conversions to and from floating-point types.  C32: the order of integers and floating-point numbers. *)
From Coq Require Import SpecFloat.
From Verif Require Import Common Bits Json_Spec Json_Model Json_String_Proofs Json_Token_Proofs Json_Parser_Proofs Json_Grammar_Proofs Json_Order_Proofs Json_Order_Props JsonApi_Model JsonFloat_Model JsonFloat_Proofs.
Open Scope Z_scope.

(** * Specification *)
(** A format has at least two digits, and exponents beyond them. *)
Definition format_ok (ff : fp_format) : Prop := 1 < prec ff < emax ff.
(** Every number of [a] is one of [b]. *)
Definition included (a b : fp_format) : Prop := prec a <= prec b /\ emax a <= emax b /\ prec a + emax a <= prec b + emax b.
(** [f] is a value of the format. *)
Definition of_format (ff : fp_format) (f : spec_float) : Prop := valid_binary (prec ff) (emax ff) f = true.
(** [f] is exactly the integer [z]. *)
Definition is_integer (f : spec_float) (z : Z) : Prop :=
  match f with
  | S754_zero s => z = 0 /\ s = false
  | S754_finite s m e => same_number (if s then - Z.pos m else Z.pos m) e z 0
  | _ => False
  end.
(** [f] and [g] are the same number, infinity or not-a-number. *)
Definition same_float (f g : spec_float) : Prop :=
  match f, g with
  | S754_finite s m e, S754_finite s' m' e' => s = s' /\ same_number (Z.pos m) e (Z.pos m') e'
  | _, _ => f = g
  end.

Lemma same_number_sym m e m' e' : same_number m e m' e' -> same_number m' e' m e.
Proof. unfold same_number. rewrite (Z.min_comm e' e). congruence. Qed.
Lemma same_number_opp m e m' e' : same_number m e m' e' -> same_number (- m) e (- m') e'.
Proof. unfold same_number. rewrite !Z.mul_opp_l. congruence. Qed.
Lemma format_pos ff : format_ok ff -> 0 < 2 ^ prec ff.
Proof. intros [H _]. apply Z.pow_pos_nonneg; lia. Qed.

(** An integer of at most 2^p in magnitude is represented exactly. *)
Lemma positive_exact ff m : format_ok ff -> Z.pos m <= 2 ^ prec ff ->
  exists m' e', bounded (prec ff) (emax ff) m' e' = true /\ same_number (Z.pos m) 0 (Z.pos m') e' /\
    forall s, binary_round (prec ff) (emax ff) s m 0 = S754_finite s m' e'.
Proof.
  intros [Hp He] Hm. destruct (Z.ltb_spec (Z.pos m) (2 ^ prec ff)) as [H|H].
  - destruct (small_int (prec ff) (emax ff) m Hp He H) as (m' & _ & HB & HS). exists m', (Z.pos (digits2_pos m) - prec ff).
    split; [assumption|]. split; [assumption|]. intros s. now apply round_exact.
  - destruct (power_int (prec ff) (emax ff) Hp He) as [HB HS]. assert (E : 2 ^ prec ff = Z.pos m) by lia. rewrite E in HS.
    exists (Z.to_pos (2 ^ (prec ff - 1))), 1. split; [assumption|]. split; [assumption|]. intros s. now apply round_exact.
Qed.
Theorem integer_to_float_exact : forall ff read z, format_ok ff -> Z.abs z <= 2 ^ prec ff ->
  exists f, of_format ff f /\ is_integer f z /\ to_float ff read (JSigned z) = Return f /\ to_float ff read (JUnsigned z) = Return f.
Proof.
  intros ff read z HF Hz. cbn [to_float]. unfold float_of_int, binary_normalize. destruct z as [|m|m].
  - exists (S754_zero false). repeat split.
  - destruct (positive_exact ff m HF Hz) as (m' & e' & HB & HS & E). rewrite E. exists (S754_finite false m' e').
    split; [exact HB|]. split; [now apply same_number_sym|]. split; reflexivity.
  - destruct (positive_exact ff m HF Hz) as (m' & e' & HB & HS & E). rewrite E. exists (S754_finite true m' e').
    split; [exact HB|]. split; [|split; reflexivity]. cbn [is_integer]. apply same_number_sym, same_number_opp in HS. exact HS.
Qed.
(** In particular every 64-bit integer as a long double of the x87. *)
Example x87_integers : format_ok x87 /\ format_ok binary32 /\ format_ok binary64 /\ included binary32 binary64 /\ included binary64 x87 /\ 2 ^ 64 <= 2 ^ prec x87.
Proof. unfold format_ok, included. cbn. lia. Qed.

(** A value of the target type is converted to itself, whatever it is stored as. *)
Theorem float_to_float_exact : forall ff read f g, of_format ff g -> same_float f g -> to_float ff read (JFloat f) = Return g.
Proof.
  intros ff read f g HG HS. cbn [to_float cast_float]. unfold same_float in HS.
  destruct f as [s|s| |s m e]; try (now subst g). destruct g as [s'|s'| |s' m' e']; try discriminate. destruct HS as [<- HS].
  cbn [cast_float]. f_equal. now apply round_exact.
Qed.

Lemma included_bounded a b m e : format_ok a -> format_ok b -> included a b -> bounded (prec a) (emax a) m e = true ->
  exists m' e', bounded (prec b) (emax b) m' e' = true /\ same_number (Z.pos m) e (Z.pos m') e'.
Proof.
  intros [Ha1 Ha2] [Hb1 Hb2] (I1 & I2 & I3). unfold bounded, canonical_mantissa. rewrite andb_true_iff, <- Zeq_is_eq_bool, Z.leb_le. unfold fexp, emin. intros [HC HB].
  set (d := Z.pos (digits2_pos m)) in *.
  set (e' := Z.max (d + e - prec b) (3 - emax b - prec b)).
  assert (HE : e' <= e) by (unfold e'; lia).
  assert (HP : 0 < Z.pos m * 2 ^ (e - e')) by (apply Z.mul_pos_pos; [lia|apply Z.pow_pos_nonneg; lia]).
  destruct (Z.pos m * 2 ^ (e - e')) as [|m'|m'] eqn:E; try lia. exists m', e'.
  assert (HD : Z.pos (digits2_pos m') = d + (e - e')) by (apply digits_shift; lia).
  split.
  - rewrite andb_true_iff, <- Zeq_is_eq_bool, Z.leb_le, HD. split; [unfold e'; lia|]. unfold e'. lia.
  - unfold same_number. rewrite Z.min_r, Z.sub_diag, Z.pow_0_r, Z.mul_1_r by lia. exact E.
Qed.
(** What goes in comes out: a float or double stored in a Json and read out again is itself, zeros' signs, infinities and NaN
    included; stored, it is the same number. *)
Theorem float_round_trip : forall ff ld read f, format_ok ff -> format_ok ld -> included ff ld -> of_format ff f ->
  exists g, of_float ld f = JFloat g /\ of_format ld g /\ same_float f g /\ to_float ff read (of_float ld f) = Return f.
Proof.
  intros ff ld read f HF HL HI HV. unfold of_float. destruct f as [s|s| |s m e]; cbn [cast_float].
  1-3: eexists; split; [reflexivity|]; repeat split; reflexivity.
  destruct (included_bounded ff ld m e HF HL HI HV) as (m' & e' & HB & HS).
  rewrite (round_exact _ _ s m e m' e' HB HS). exists (S754_finite s m' e'). split; [reflexivity|]. split; [exact HB|]. split; [now split|].
  apply float_to_float_exact; [exact HV|]. split; [reflexivity|]. now apply same_number_sym.
Qed.
(** When it throws, and that nothing is undefined. *)
Theorem float_conversion_refused : forall ff read j,
  (to_float ff read j = Throw JsonException <->
   match j with
   | JString s => read s = None
   | JSigned _ | JUnsigned _ | JFloat _ => False
   | _ => True
   end) /\ to_float ff read j <> Undefined.
Proof. intros ff read j. split; destruct j as [|s|m|l|b|z|z|f]; cbn [to_float]; try destruct (read s); split || idtac; try congruence; try tauto; discriminate. Qed.

(** * The order of numbers, where long double holds every 64-bit integer *)
(** The value of a number, against which < is checked: an integer or a floating-point number other than NaN. *)
Definition number_float (ff : fp_format) (j : json) : spec_float :=
  match j with JSigned z | JUnsigned z => float_of_int ff z | JFloat f => f | _ => S754_nan end.
Definition wide_enough (ff : fp_format) : Prop := format_ok ff /\ 64 <= prec ff.

Lemma float_of_int_not_nan ff z : format_ok ff -> Z.abs z <= 2 ^ prec ff -> float_of_int ff z <> S754_nan.
Proof.
  intros HF Hz. destruct (integer_to_float_exact ff (fun _ => None) z HF Hz) as (f & _ & HI & E & _). cbn [to_float] in E. injection E as ->. intros ->. exact HI.
Qed.
Lemma float_of_int_compare ff x y : format_ok ff -> Z.abs x <= 2 ^ prec ff -> Z.abs y <= 2 ^ prec ff ->
  SFcompare (float_of_int ff x) (float_of_int ff y) = Some (x ?= y).
Proof.
  intros HF Hx Hy. unfold float_of_int, binary_normalize.
  assert (G : forall a b, Z.pos a <= 2 ^ prec ff -> Z.pos b <= 2 ^ prec ff -> exists m e m' e',
    (forall s, binary_round (prec ff) (emax ff) s a 0 = S754_finite s m e) /\ (forall s, binary_round (prec ff) (emax ff) s b 0 = S754_finite s m' e') /\
    match e ?= e' with Lt => Lt | Gt => Gt | Eq => (Z.pos m ?= Z.pos m') end = (Z.pos a ?= Z.pos b)).
  { intros a b Ha Hb. destruct (positive_exact ff a HF Ha) as (m & e & HB & HS & E). destruct (positive_exact ff b HF Hb) as (m' & e' & HB' & HS' & E').
    exists m, e, m', e'. split; [assumption|]. split; [assumption|]. rewrite (canonical_compare (prec ff) (emax ff)) by (assumption || apply HF).
    set (k := Z.min (Z.min e e') 0). rewrite (dyadic_scale _ _ _ _ k) by (unfold k; lia).
    assert (S : forall u m e, k <= Z.min 0 e -> same_number (Z.pos u) 0 (Z.pos m) e -> Z.pos m * 2 ^ (e - k) = Z.pos u * 2 ^ (0 - k)).
    { clearbody k. clear. intros u m e Hk. unfold same_number. set (n := Z.min 0 e) in *. intros H. replace (e - k) with (e - n + (n - k)) by lia. replace (0 - k) with (0 - n + (n - k)) by lia.
      rewrite !Z.pow_add_r by lia. rewrite !Z.mul_assoc. now rewrite H. }
    rewrite (S a m e ltac:(unfold k; lia) HS), (S b m' e' ltac:(unfold k; lia) HS'). symmetry. apply Zmult_compare_compat_r.
    assert (0 < 2 ^ (0 - k)) by (apply Z.pow_pos_nonneg; unfold k; lia). lia. }
  destruct x as [|a|a], y as [|b|b]; try reflexivity.
  - destruct (G b b Hy Hy) as (m & e & _ & _ & E & _). now rewrite E.
  - destruct (G b b Hy Hy) as (m & e & _ & _ & E & _). now rewrite E.
  - destruct (G a a Hx Hx) as (m & e & _ & _ & E & _). now rewrite E.
  - destruct (G a b Hx Hy) as (m & e & m' & e' & E & E' & C). rewrite E, E'. cbn [SFcompare]. f_equal. rewrite <- C. destruct (e ?= e'); reflexivity.
  - destruct (G a b Hx Hy) as (m & e & m' & e' & E & E' & C). now rewrite E, E'.
  - destruct (G a a Hx Hx) as (m & e & _ & _ & E & _). now rewrite E.
  - destruct (G a b Hx Hy) as (m & e & m' & e' & E & E' & C). now rewrite E, E'.
  - destruct (G a b Hx Hy) as (m & e & m' & e' & E & E' & C). rewrite E, E'. cbn [SFcompare]. f_equal.
    change (Z.neg a ?= Z.neg b) with (CompOpp (Z.pos a ?= Z.pos b)). rewrite <- C. destruct (e ?= e'); reflexivity.
Qed.

Lemma ordered_mixed ff (ps pu : Z -> Prop) : format_ok ff ->
  (forall z, ps z \/ pu z -> Z.abs z <= 2 ^ prec ff) ->
  (forall a b, is_number a = true -> is_number b = true -> number_ok ps pu never a -> number_ok ps pu never b -> json_lt ff a b = (int_value a <? int_value b)) ->
  strict_weak (all_numbers ps pu not_nan) (json_lt ff).
Proof.
  intros HF HZ HN a b c Ha Hb Hc. rewrite all_numbers_ok in Ha, Hb, Hc. set (ok := number_ok ps pu not_nan) in *.
  set (cn := fun a b => key_compare (fkey (number_float ff a)) (fkey (number_float ff b))).
  assert (NN : forall x, is_number x = true -> ok x -> number_float ff x <> S754_nan).
  { intros [| | | | |x|x|x] N H; try discriminate; cbn [number_float]; [apply float_of_int_not_nan; [assumption|]; apply HZ; left; exact H|apply float_of_int_not_nan; [assumption|]; apply HZ; right; exact H|exact H]. }
  assert (L0 : forall x y, is_number x = true -> is_number y = true -> ok x -> ok y -> json_lt ff x y = SFltb (number_float ff x) (number_float ff y)).
  { intros x y N1 N2 H1 H2.
    assert (I : forall u v, number_ok ps pu never u -> number_ok ps pu never v -> is_number u = true -> is_number v = true -> json_lt ff u v = SFltb (number_float ff u) (number_float ff v)).
    { intros u v Hu Hv Nu Nv. rewrite HN by assumption. unfold SFltb.
      assert (E : SFcompare (number_float ff u) (number_float ff v) = Some (int_value u ?= int_value v)).
      { destruct u as [| | | | |u|u|u], v as [| | | | |v|v|v]; try discriminate; try (now destruct Hu); try (now destruct Hv); cbn [number_float int_value];
        (apply float_of_int_compare; [assumption| |]; apply HZ; ((left; assumption) || (right; assumption))). }
      rewrite E. unfold Z.ltb. reflexivity. }
    destruct x as [| | | | |x|x|x], y as [| | | | |y|y|y]; try discriminate; try reflexivity; apply I; try reflexivity; assumption. }
  assert (L1 : forall x y, is_number x = true -> is_number y = true -> ok x -> ok y -> json_lt ff x y = match cn x y with Lt => true | _ => false end).
  { intros x y N1 N2 H1 H2. rewrite L0 by assumption. unfold SFltb. rewrite sf_compare_key by auto. reflexivity. }
  assert (S1 : forall a b, is_number a = true -> is_number b = true -> ok a -> ok b -> cn b a = CompOpp (cn a b)) by (intros; apply key_compare_sym).
  assert (S2 : forall a b c, is_number a = true -> is_number b = true -> is_number c = true -> ok a -> ok b -> ok c -> cn a b = Eq -> cn a c = cn b c).
  { intros x y z N1 N2 N3 H1 H2 H3 E. apply key_compare_eq in E. unfold cn. now rewrite E. }
  assert (S3 : forall a b c, is_number a = true -> is_number b = true -> is_number c = true -> ok a -> ok b -> ok c -> cn a b = Lt -> cn b c = Lt -> cn a c = Lt).
  { intros x y z N1 N2 N3 H1 H2 H3. apply key_compare_trans. }
  pose proof (fun x y Hx Hy => proj1 (json_lt_cmp cn ok ff S1 L1 x y Hx Hy)) as L.
  pose proof (cmp_sym cn ok S1) as SY. pose proof (cmp_trans cn ok S1 S2 S3) as TR. pose proof (cmp_cong cn ok S2) as CG.
  rewrite !L by assumption. rewrite (cmp_refl cn ok S1 a Ha). split; [reflexivity|].
  pose proof (SY a b Ha Hb) as SAB. pose proof (SY b c Hb Hc) as SBC. pose proof (SY a c Ha Hc) as SAC. pose proof (TR a b c Ha Hb Hc) as TABC. pose proof (CG a b c Ha Hb Hc) as CABC.
  rewrite SAB, SBC, SAC. split.
  - destruct (cmp cn a b); try discriminate. destruct (cmp cn b c); try discriminate. now rewrite TABC.
  - destruct (cmp cn a b); cbn [CompOpp]; try discriminate. rewrite CABC by reflexivity. destruct (cmp cn b c); cbn [CompOpp]; try discriminate. auto.
Qed.
(** Trees with floating-point numbers other than NaN and integers that are all signed, all unsigned, or all fit both types: < is a
    strict weak order where long double holds every 64-bit integer (x87, IEEE quadruple). *)
Theorem order_mixed_partial : forall ff, wide_enough ff ->
  strict_weak (all_numbers in_int64 never not_nan) (json_lt ff) /\
  strict_weak (all_numbers never in_uint64 not_nan) (json_lt ff) /\
  strict_weak (all_numbers in_both in_both not_nan) (json_lt ff).
Proof.
  intros ff [HF HP].
  assert (HB : forall z, - 2 ^ 63 <= z < 2 ^ 64 -> Z.abs z <= 2 ^ prec ff).
  { intros z Hz. assert (2 ^ 64 <= 2 ^ prec ff) by (apply Z.pow_le_mono_r; lia). lia. }
  split; [|split]; apply ordered_mixed; try assumption.
  - intros z [H|[]]. apply HB. unfold in_int64 in H. lia.
  - intros [| | | | |x|x|x] [| | | | |y|y|y] N1 N2 H1 H2; try discriminate; try (now destruct H1); try (now destruct H2); reflexivity.
  - intros z [[]|H]. apply HB. unfold in_uint64 in H. lia.
  - intros [| | | | |x|x|x] [| | | | |y|y|y] N1 N2 H1 H2; try discriminate; try (now destruct H1); try (now destruct H2); reflexivity.
  - intros z [H|H]; apply HB; unfold in_both in H; lia.
  - intros [| | | | |x|x|x] [| | | | |y|y|y] N1 N2 H1 H2; try discriminate; try (now destruct H1); try (now destruct H2);
    cbn [json_lt int_value]; cbn [number_ok] in *; rewrite ?(proj1 (both_casts y H2)), ?(proj2 (both_casts y H2)); reflexivity.
Qed.
(** And < between an integer and a floating-point number compares their values. *)
Definition value_compare (z : Z) (f : spec_float) : option comparison :=
  match f with
  | S754_zero _ => Some (z ?= 0)
  | S754_infinity s => Some (if s then Gt else Lt)
  | S754_nan => None
  | S754_finite s m e => Some (dyadic_compare z 0 (if s then - Z.pos m else Z.pos m) e)
  end.
Lemma int_float_compare ff z f : format_ok ff -> Z.abs z <= 2 ^ prec ff -> of_format ff f -> SFcompare (float_of_int ff z) f = value_compare z f.
Proof.
  intros HF Hz HV. unfold float_of_int, binary_normalize.
  assert (G : forall a m' e', Z.pos a <= 2 ^ prec ff -> bounded (prec ff) (emax ff) m' e' = true -> exists m e,
    (forall s, binary_round (prec ff) (emax ff) s a 0 = S754_finite s m e) /\
    match e ?= e' with Lt => Lt | Gt => Gt | Eq => (Z.pos m ?= Z.pos m') end = dyadic_compare (Z.pos a) 0 (Z.pos m') e').
  { intros a m' e' Ha HB'. destruct (positive_exact ff a HF Ha) as (m & e & HB & HS & E). exists m, e. split; [assumption|].
    rewrite (canonical_compare (prec ff) (emax ff)) by (assumption || apply HF).
    set (k := Z.min (Z.min e e') 0). rewrite !(dyadic_scale _ _ _ _ k) by (unfold k; lia).
    f_equal. unfold same_number in HS. set (n := Z.min 0 e) in *. assert (k <= n) by (unfold k, n; lia). assert (n <= e /\ n <= 0) by (unfold n; lia). clearbody n k.
    replace (e - k) with (e - n + (n - k)) by lia. replace (0 - k) with (0 - n + (n - k)) by lia.
    rewrite !Z.pow_add_r by lia. rewrite !Z.mul_assoc. now rewrite HS. }
  assert (ZP : forall m' e', dyadic_compare 0 0 (Z.pos m') e' = Lt /\ dyadic_compare 0 0 (Z.neg m') e' = Gt).
  { intros m' e'. unfold dyadic_compare. rewrite Z.mul_0_l. assert (0 < 2 ^ (e' - Z.min 0 e')) by (apply Z.pow_pos_nonneg; lia).
    split; [apply Z.compare_lt_iff; apply Z.mul_pos_pos; lia|]. apply Z.compare_gt_iff. change (Z.neg m') with (- Z.pos m'). rewrite Z.mul_opp_l. assert (0 < Z.pos m' * 2 ^ (e' - Z.min 0 e')) by (apply Z.mul_pos_pos; lia). lia. }
  assert (PN : forall a m' e', dyadic_compare (Z.pos a) 0 (Z.neg m') e' = Gt /\ dyadic_compare (Z.neg a) 0 (Z.pos m') e' = Lt).
  { intros a m' e'. unfold dyadic_compare. assert (0 < 2 ^ (e' - Z.min 0 e')) by (apply Z.pow_pos_nonneg; lia). assert (0 < 2 ^ (0 - Z.min 0 e')) by (apply Z.pow_pos_nonneg; lia).
    assert (0 < Z.pos a * 2 ^ (0 - Z.min 0 e')) by (apply Z.mul_pos_pos; lia). assert (0 < Z.pos m' * 2 ^ (e' - Z.min 0 e')) by (apply Z.mul_pos_pos; lia).
    change (Z.neg m') with (- Z.pos m'). change (Z.neg a) with (- Z.pos a). rewrite !Z.mul_opp_l. split; [apply Z.compare_gt_iff|apply Z.compare_lt_iff]; lia. }
  assert (NN : forall a m' e', dyadic_compare (Z.neg a) 0 (Z.neg m') e' = CompOpp (dyadic_compare (Z.pos a) 0 (Z.pos m') e')).
  { intros a m' e'. unfold dyadic_compare. change (Z.neg m') with (- Z.pos m'). change (Z.neg a) with (- Z.pos a). rewrite !Z.mul_opp_l. rewrite <- Z.compare_antisym. apply Z.compare_opp. }
  destruct z as [|a|a].
  - destruct f as [s|s| |s m e]; [now destruct s|now destruct s|reflexivity|]. cbn [SFcompare value_compare]. destruct s; f_equal; symmetry; apply (ZP m e).
  - destruct (positive_exact ff a HF Hz) as (m0 & e0 & _ & _ & E0).
    destruct f as [s|s| |s m' e']; [rewrite E0; now destruct s|rewrite E0; now destruct s|rewrite E0; reflexivity|].
    destruct (G a m' e' Hz HV) as (m & e & E & C). rewrite E. cbn [SFcompare value_compare]. destruct s.
    + f_equal. symmetry. apply (PN a m' e').
    + f_equal. rewrite <- C. destruct (e ?= e'); reflexivity.
  - destruct (positive_exact ff a HF Hz) as (m0 & e0 & _ & _ & E0).
    destruct f as [s|s| |s m' e']; [rewrite E0; now destruct s|rewrite E0; now destruct s|rewrite E0; reflexivity|].
    destruct (G a m' e' Hz HV) as (m & e & E & C). rewrite E. cbn [SFcompare value_compare]. destruct s.
    + change (- Z.pos m') with (Z.neg m'). rewrite NN, <- C. f_equal. destruct (e ?= e'); reflexivity.
    + f_equal. symmetry. apply (PN a m' e').
Qed.
Theorem mixed_by_value : forall ff z f, wide_enough ff -> of_format ff f -> f <> S754_nan ->
  (in_int64 z -> (json_lt ff (JSigned z) (JFloat f) = true <-> value_compare z f = Some Lt) /\ (json_lt ff (JFloat f) (JSigned z) = true <-> value_compare z f = Some Gt)) /\
  (in_uint64 z -> (json_lt ff (JUnsigned z) (JFloat f) = true <-> value_compare z f = Some Lt) /\ (json_lt ff (JFloat f) (JUnsigned z) = true <-> value_compare z f = Some Gt)).
Proof.
  intros ff z f [HF HP] HV HN.
  assert (G : - 2 ^ 63 <= z < 2 ^ 64 -> (SFltb (float_of_int ff z) f = true <-> value_compare z f = Some Lt) /\ (SFltb f (float_of_int ff z) = true <-> value_compare z f = Some Gt)).
  { intros Hz. assert (2 ^ 64 <= 2 ^ prec ff) by (apply Z.pow_le_mono_r; lia). pose proof (int_float_compare ff z f HF ltac:(lia) HV) as E.
    pose proof (float_of_int_not_nan ff z HF ltac:(lia)) as NN. unfold SFltb. rewrite <- E, !sf_compare_key by assumption.
    rewrite (key_compare_sym (fkey (float_of_int ff z))). destruct (key_compare (fkey (float_of_int ff z)) (fkey f)); cbn [CompOpp]; split; split; congruence. }
  split; intros Hz; cbn [json_lt]; apply G; unfold in_int64, in_uint64 in Hz; lia.
Qed.
(** With 53 digits (platforms where long double is double) it is not: 2^53 + 1 is rounded, and incomparability is not transitive. *)
Theorem order_mixed_double_refuted : exists a b c,
  json_lt binary64 a b = false /\ json_lt binary64 b a = false /\ json_lt binary64 b c = false /\ json_lt binary64 c b = false /\ json_lt binary64 a c = true.
Proof. exists (JSigned 9007199254740992), (JFloat (float_of_int binary64 9007199254740992)), (JSigned 9007199254740993). repeat split; vm_compute; reflexivity. Qed.
Example C32_mixed : wide_enough x87 /\ of_format x87 (S754_finite false 9223372036854775809 (-63)) /\
  json_lt x87 (JSigned 1) (JFloat (S754_finite false 9223372036854775809 (-63))) = true /\
  json_lt x87 (JFloat (S754_finite false 9223372036854775809 (-63))) (JSigned 2) = true /\
  value_compare 1 (S754_finite false 9223372036854775809 (-63)) = Some Lt /\
  all_numbers in_int64 never not_nan (JArray [JSigned (-1); JFloat (S754_zero true)]).
Proof.
  split; [split; [unfold format_ok; cbn; lia|cbn; lia]|]. split; [vm_compute; reflexivity|]. split; [vm_compute; reflexivity|]. split; [vm_compute; reflexivity|].
  split; [vm_compute; reflexivity|]. cbn. split; [unfold in_int64; lia|]. split; [discriminate|exact I].
Qed.
(** 0.1 as a double (0x1.999999999999ap-4), through a long double and back; one third of it is rounded to float. *)
Example C55_floats : let d := S754_finite false 7205759403792794 (-56) in
  of_format binary64 d /\ of_float x87 d = JFloat (S754_finite false 14757395258967642112 (-67)) /\
  to_float binary64 (fun _ => None) (of_float x87 d) = Return d /\
  to_float binary32 (fun _ => None) (of_float x87 d) = Return (S754_finite false 13421773 (-27)).
Proof. repeat split; vm_compute; reflexivity. Qed.
