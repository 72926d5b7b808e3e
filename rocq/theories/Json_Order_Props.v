(** C32, C42: theorems about JSON comparison and hashing. *)
From Coq Require Import SpecFloat.
From Verif Require Import Common Bits Format_Model Json_Model Json_Spec Json_String_Proofs Json_Parser_Proofs Json_Token_Proofs Json_Order_Proofs.

(** * Symmetry of == *)
Lemma abs_round_aux p e s m x l : SFabs (binary_round_aux p e s m x l) = SFabs (binary_round_aux p e false m x l).
Proof.
  unfold binary_round_aux. destruct (shr_fexp p e m x l) as [mrs' e']. destruct (shr_fexp p e _ e' loc_Exact) as [mrs'' e''].
  destruct (shr_m mrs''); try reflexivity. destruct (e'' <=? e - p); reflexivity.
Qed.
Lemma abs_normalize_opp p e m x : SFabs (binary_normalize p e (- m) x false) = SFabs (binary_normalize p e m x false).
Proof.
  destruct m as [|m|m]; cbn [Z.opp binary_normalize]; [reflexivity| |]; unfold binary_round; destruct (shl_align m x _) as [mz ez].
  - apply abs_round_aux.
  - symmetry. apply abs_round_aux.
Qed.
Lemma float_near_sym ff a b : float_near ff a b = float_near ff b a.
Proof.
  unfold float_near. f_equal. destruct a as [sa|sa| |sa ma ea], b as [sb|sb| |sb mb eb]; try reflexivity.
  - destruct sa, sb; reflexivity.
  - destruct sa, sb; reflexivity.
  - unfold SFsub. rewrite (Z.min_comm eb ea).
    match goal with |- SFabs (binary_normalize _ _ (?x - ?y) _ _) = _ => replace (x - y) with (- (y - x)) by lia end. apply abs_normalize_opp.
Qed.

(** The numbers a Json instance may hold: signed and unsigned 64-bit integers and long doubles. *)
Definition ranged : json -> Prop := all_numbers in_int64 in_uint64 (fun _ => True).
Definition number_ok ps pu pf (j : json) : Prop :=
  match j with JSigned z => ps z | JUnsigned z => pu z | JFloat f => pf f | _ => True end.
Lemma all_numbers_ok ps pu pf j : all_numbers ps pu pf j <-> numbers (number_ok ps pu pf) j.
Proof.
  induction j as [|s|m IH|l IH|b|z|z|f] using json_induction; try reflexivity.
  - rewrite numbers_object. induction IH as [|[k v] m Hv _ IHm]; [split; [constructor|exact (fun _ => I)]|].
    rewrite Forall_cons_iff, <- IHm. cbn [snd] in *. rewrite <- Hv. reflexivity.
  - rewrite numbers_array. induction IH as [|v m Hv _ IHm]; [split; [constructor|exact (fun _ => I)]|].
    rewrite Forall_cons_iff, <- IHm. rewrite <- Hv. reflexivity.
Qed.

Lemma signed_u64 x y : in_int64 x -> in_uint64 y -> (x =? signed 64 y) = (y =? u64 x).
Proof.
  unfold in_int64, in_uint64, signed, u64, wrap. intros Hx Hy. change (2 ^ (64 - 1)) with 9223372036854775808. change (2 ^ 63) with 9223372036854775808 in *. change (2 ^ 64) with 18446744073709551616 in *.
  rewrite (Z.mod_small y) by lia.
  assert (E : x mod 18446744073709551616 = if x <? 0 then x + 18446744073709551616 else x).
  { destruct (Z.ltb_spec x 0); [|apply Z.mod_small; lia]. replace x with ((x + 18446744073709551616) + (-1) * 18446744073709551616) at 1 by lia. rewrite Z.mod_add by lia. apply Z.mod_small. lia. }
  rewrite E. destruct (Z.ltb_spec x 0), (Z.ltb_spec y 9223372036854775808);
  match goal with |- (?a =? ?b) = (?c =? ?d) => destruct (Z.eqb_spec a b), (Z.eqb_spec c d); try reflexivity; lia end.
Qed.
Theorem equality_symmetric : forall ff a b, ranged a -> ranged b -> json_eq ff a b = json_eq ff b a.
Proof.
  intros ff. unfold ranged. setoid_rewrite all_numbers_ok.
  assert (ES : forall s t, string_eqb s t = string_eqb t s).
  { intros s t. destruct (string_eqb s t) eqn:E1, (string_eqb t s) eqn:E2; try reflexivity; [apply string_eqb_eq in E1|apply string_eqb_eq in E2]; subst;
    [rewrite (proj2 (string_eqb_eq t t) eq_refl) in E2|rewrite (proj2 (string_eqb_eq s s) eq_refl) in E1]; discriminate. }
  induction a as [|s|m IH|l IH|x|x|x|x] using json_induction; intros b Ha Hb.
  - destruct b; reflexivity.
  - destruct b; try reflexivity. apply ES.
  - destruct b as [| |m'| | | | |]; try reflexivity. rewrite numbers_object in Ha, Hb. cbn [json_eq].
    revert m' Hb. induction IH as [|[k v] m Hv _ IHm]; intros m' Hb; [destruct m' as [|[? ?] ?]; reflexivity|].
    destruct m' as [|[k' v'] m']; [reflexivity|]. inversion Ha; subst. inversion Hb; subst. cbn [snd] in *.
    rewrite (Hv v'), (IHm ltac:(assumption) m'), (ES k k') by assumption. reflexivity.
  - destruct b as [| | |l'| | | |]; try reflexivity. rewrite numbers_array in Ha, Hb. cbn [json_eq].
    revert l' Hb. induction IH as [|v m Hv _ IHm]; intros m' Hb; [destruct m'; reflexivity|].
    destruct m' as [|v' m']; [reflexivity|]. inversion Ha; subst. inversion Hb; subst.
    rewrite (Hv v'), (IHm ltac:(assumption) m') by assumption. reflexivity.
  - destruct b; try reflexivity. destruct x, b; reflexivity.
  - destruct b; try reflexivity; cbn [json_eq]; [apply Z.eqb_sym|apply signed_u64; assumption|apply float_near_sym].
  - destruct b; try reflexivity; cbn [json_eq]; [symmetry; apply signed_u64; assumption|apply Z.eqb_sym|apply float_near_sym].
  - destruct b; try reflexivity; cbn [json_eq]; apply float_near_sym.
Qed.

(** * == without floating-point numbers *)

(** Integers as 64-bit patterns. *)
Fixpoint patterns (j : json) : json :=
  match j with
  | JSigned z => JUnsigned (u64 z)
  | JObject m => JObject (map (fun e => (fst e, patterns (snd e))) m)
  | JArray l => JArray (map patterns l)
  | _ => j
  end.
Definition float_free : json -> Prop := all_numbers in_int64 in_uint64 never.
Lemma u64_inj x y : in_int64 x -> in_int64 y -> u64 x = u64 y -> x = y.
Proof.
  unfold in_int64, u64, wrap. intros Hx Hy E. change (2 ^ 63) with 9223372036854775808 in *. change (2 ^ 64) with 18446744073709551616 in *.
  pose proof (Z.div_mod x 18446744073709551616 ltac:(lia)). pose proof (Z.div_mod y 18446744073709551616 ltac:(lia)). lia.
Qed.
(** Two values without floating-point numbers are == exactly if they are the same tree with the same
    64-bit integer patterns (so -1 == 2^64 - 1); in particular == is then an equivalence. *)
Theorem equality_exact_partial : forall ff a b, float_free a -> float_free b -> (json_eq ff a b = true <-> patterns a = patterns b).
Proof.
  intros ff. unfold float_free. setoid_rewrite all_numbers_ok.
  induction a as [|s|m IH|l IH|x|x|x|x] using json_induction; intros b Ha Hb.
  - destruct b; cbn; split; intros; try discriminate; reflexivity.
  - destruct b; cbn [json_eq patterns]; try (split; intros; discriminate). rewrite string_eqb_eq. split; congruence.
  - destruct b as [| |m'| | | | |]; try (cbn [json_eq patterns]; split; intros; discriminate). rewrite numbers_object in Ha, Hb. cbn [json_eq patterns].
    transitivity (map (fun e : list Z * json => (fst e, patterns (snd e))) m = map (fun e => (fst e, patterns (snd e))) m'); [|split; congruence].
    revert m' Hb. induction IH as [|[k v] m Hv _ IHm]; intros m' Hb; [destruct m' as [|[? ?] ?]; cbn; split; intros; try discriminate; reflexivity|].
    destruct m' as [|[k' v'] m']; [cbn; split; intros; discriminate|]. inversion Ha; subst. inversion Hb; subst. cbn [snd] in *.
    rewrite !andb_true_iff, (Hv v'), (IHm ltac:(assumption) m'), string_eqb_eq by assumption. cbn [map fst snd]. split; [intros [[-> ->] ->]; reflexivity|]. intros E. injection E as E1 E2 E3. auto.
  - destruct b as [| | |l'| | | |]; try (cbn [json_eq patterns]; split; intros; discriminate). rewrite numbers_array in Ha, Hb. cbn [json_eq patterns].
    transitivity (map patterns l = map patterns l'); [|split; congruence].
    revert l' Hb. induction IH as [|v m Hv _ IHm]; intros m' Hb; [destruct m'; cbn; split; intros; try discriminate; reflexivity|].
    destruct m' as [|v' m']; [cbn; split; intros; discriminate|]. inversion Ha; subst. inversion Hb; subst.
    rewrite !andb_true_iff, (Hv v'), (IHm ltac:(assumption) m') by assumption. cbn [map]. split; [intros [-> ->]; reflexivity|]. intros E. injection E as E1 E2. auto.
  - destruct b as [| | | |y| | |]; cbn [json_eq patterns]; try (split; intros; discriminate). rewrite Bool.eqb_true_iff. split; congruence.
  - destruct b as [| | | | |y|y|y]; cbn [json_eq patterns]; try (split; intros; discriminate); [| |destruct Hb].
    + rewrite Z.eqb_eq. split; [congruence|]. intros E. injection E as E. now apply u64_inj.
    + rewrite signed_u64 by assumption. rewrite Z.eqb_eq. split; [congruence|]. intros E. injection E as E. congruence.
  - destruct b as [| | | | |y|y|y]; cbn [json_eq patterns]; try (split; intros; discriminate); [| |destruct Hb].
    + rewrite Z.eqb_eq. split; congruence.
    + rewrite Z.eqb_eq. split; congruence.
  - destruct Ha.
Qed.

(** * < on the values where it is an order *)
Definition int_value (j : json) : Z := match j with JSigned z | JUnsigned z => z | _ => 0 end.
Definition cn_int (a b : json) : comparison := int_value a ?= int_value b.
Lemma ordered_ints ff (ps pu : Z -> Prop) :
  (forall a b, is_number a = true -> is_number b = true -> number_ok ps pu never a -> number_ok ps pu never b ->
     json_lt ff a b = (int_value a <? int_value b) /\ json_eq ff a b = (int_value a =? int_value b)) ->
  ordered (all_numbers ps pu never) (json_lt ff) (json_eq ff).
Proof.
  intros HN a b c Ha Hb Hc. rewrite all_numbers_ok in Ha, Hb, Hc.
  assert (S1 : forall a b, is_number a = true -> is_number b = true -> number_ok ps pu never a -> number_ok ps pu never b -> cn_int b a = CompOpp (cn_int a b))
    by (intros; apply Z.compare_antisym).
  assert (S2 : forall a b c, is_number a = true -> is_number b = true -> is_number c = true -> number_ok ps pu never a -> number_ok ps pu never b -> number_ok ps pu never c ->
    cn_int a b = Eq -> cn_int a c = cn_int b c) by (unfold cn_int; intros x y z _ _ _ _ _ _ E; apply Z.compare_eq_iff in E; now rewrite E).
  assert (S3 : forall a b c, is_number a = true -> is_number b = true -> is_number c = true -> number_ok ps pu never a -> number_ok ps pu never b -> number_ok ps pu never c ->
    cn_int a b = Lt -> cn_int b c = Lt -> cn_int a c = Lt) by (unfold cn_int; intros x y z _ _ _ _ _ _; rewrite !Z.compare_lt_iff; lia).
  assert (S4 : forall a b, is_number a = true -> is_number b = true -> number_ok ps pu never a -> number_ok ps pu never b -> json_lt ff a b = match cn_int a b with Lt => true | _ => false end).
  { intros x y H1 H2 H3 H4. rewrite (proj1 (HN x y H1 H2 H3 H4)). reflexivity. }
  assert (S5 : forall a b, is_number a = true -> is_number b = true -> number_ok ps pu never a -> number_ok ps pu never b -> json_eq ff a b = match cn_int a b with Eq => true | _ => false end).
  { intros x y H1 H2 H3 H4. rewrite (proj2 (HN x y H1 H2 H3 H4)). unfold cn_int. destruct (Z.eqb_spec (int_value x) (int_value y)) as [->|N]; [now rewrite Z.compare_refl|].
    destruct (Z.compare_spec (int_value x) (int_value y)); congruence. }
  pose proof (fun x y Hx Hy => proj1 (json_lt_cmp cn_int (number_ok ps pu never) ff S1 S4 x y Hx Hy)) as L.
  pose proof (json_eq_cmp cn_int (number_ok ps pu never) ff S5) as E.
  pose proof (cmp_sym cn_int (number_ok ps pu never) S1) as SY.
  pose proof (cmp_trans cn_int (number_ok ps pu never) S1 S2 S3) as TR.
  pose proof (cmp_cong cn_int (number_ok ps pu never) S2) as CG.
  rewrite !L, !E by assumption. rewrite (cmp_refl cn_int (number_ok ps pu never) S1 a Ha).
  pose proof (SY a b Ha Hb) as SAB. pose proof (TR a b c Ha Hb Hc) as TABC. pose proof (CG a b c Ha Hb Hc) as CABC.
  rewrite SAB. split; [reflexivity|]. split; [|split; [|split; [reflexivity|split]]].
  - destruct (cmp cn_int a b); try discriminate. destruct (cmp cn_int b c); try discriminate. now rewrite TABC.
  - destruct (cmp cn_int a b); cbn [CompOpp]; split; intros H; try discriminate; try (split; reflexivity); destruct H; discriminate.
  - destruct (cmp cn_int a b); cbn [CompOpp]; congruence.
  - destruct (cmp cn_int a b); try discriminate. now rewrite CABC.
Qed.

(** Values without unsigned integers and floating-point numbers; without signed integers and
    floating-point numbers; and with integers that fit both types: < is a strict total order up to ==,
    and == an equivalence. *)
Theorem order_signed_partial : forall ff, ordered (all_numbers in_int64 never never) (json_lt ff) (json_eq ff).
Proof.
  intros ff. apply ordered_ints. intros [| | | | |x|x|x] [| | | | |y|y|y] N1 N2 H1 H2; try discriminate; try (now destruct H1); try (now destruct H2); split; reflexivity.
Qed.
Theorem order_unsigned_partial : forall ff, ordered (all_numbers never in_uint64 never) (json_lt ff) (json_eq ff).
Proof.
  intros ff. apply ordered_ints. intros [| | | | |x|x|x] [| | | | |y|y|y] N1 N2 H1 H2; try discriminate; try (now destruct H1); try (now destruct H2); split; reflexivity.
Qed.
Lemma both_casts z : in_both z -> signed 64 z = z /\ u64 z = z.
Proof.
  unfold in_both, signed, u64, wrap. intros Hz. change (2 ^ (64 - 1)) with (2 ^ 63). rewrite Z.mod_small by lia.
  destruct (Z.ltb_spec z (2 ^ 63)); [split; reflexivity|lia].
Qed.
Theorem order_nonnegative_partial : forall ff, ordered (all_numbers in_both in_both never) (json_lt ff) (json_eq ff).
Proof.
  intros ff. apply ordered_ints. intros [| | | | |x|x|x] [| | | | |y|y|y] N1 N2 H1 H2; try discriminate; try (now destruct H1); try (now destruct H2);
  cbn [json_lt json_eq int_value]; cbn [number_ok] in *; rewrite ?(proj1 (both_casts y H2)), ?(proj2 (both_casts y H2)); split; reflexivity.
Qed.

(** Values without integers, with floating-point numbers other than NaN: < is a strict weak order. *)
Definition not_nan (f : spec_float) : Prop := f <> S754_nan.
Definition float_value (j : json) : spec_float := match j with JFloat f => f | _ => S754_nan end.
Definition cn_float (a b : json) : comparison := match SFcompare (float_value a) (float_value b) with Some c => c | None => Eq end.
(** The order of floating-point numbers as a lexicographic order. *)
Definition fkey (f : spec_float) : list Z :=
  match f with
  | S754_nan => []
  | S754_zero _ => [0; 0; 0]
  | S754_infinity s => [if s then -2 else 2; 0; 0]
  | S754_finite s m e => if s then [-1; - e; - Zpos m] else [1; e; Zpos m]
  end.
Lemma pos_compare_Z a b : Pos.compare_cont Eq a b = (Zpos a ?= Zpos b).
Proof. reflexivity. Qed.
Lemma opp_compare a b : (- a ?= - b) = (b ?= a).
Proof. apply Z.compare_opp. Qed.
Lemma sf_compare_key a b : a <> S754_nan -> b <> S754_nan -> SFcompare a b = Some (key_compare (fkey a) (fkey b)).
Proof.
  intros Ha Hb. destruct a as [sa|sa| |sa ma ea], b as [sb|sb| |sb mb eb]; try contradiction; try reflexivity; cbn [SFcompare fkey].
  - now destruct sb.
  - now destruct sb.
  - now destruct sa.
  - now destruct sa, sb.
  - now destruct sa, sb.
  - now destruct sa.
  - now destruct sa, sb.
  - destruct sa, sb; try reflexivity; unfold key_compare.
    + change (-1 ?= -1) with Eq. cbv iota. rewrite !opp_compare. rewrite (Z.compare_antisym ea eb). change (Pos.compare_cont Eq ma mb) with (Zpos ma ?= Zpos mb).
      rewrite (Z.compare_antisym (Zpos ma) (Zpos mb)). destruct (ea ?= eb); cbn [CompOpp]; try reflexivity. destruct (Zpos ma ?= Zpos mb); reflexivity.
    + change (1 ?= 1) with Eq. cbv iota. change (Pos.compare_cont Eq ma mb) with (Zpos ma ?= Zpos mb). destruct (ea ?= eb); try reflexivity. destruct (Zpos ma ?= Zpos mb); reflexivity.
Qed.
Theorem order_float_partial : forall ff, strict_weak (all_numbers never never not_nan) (json_lt ff).
Proof.
  intros ff a b c Ha Hb Hc. rewrite all_numbers_ok in Ha, Hb, Hc. set (ok := number_ok never never not_nan) in *.
  assert (F : forall x, is_number x = true -> ok x -> exists f, x = JFloat f /\ f <> S754_nan).
  { intros [| | | | |x|x|x] N H; try discriminate; try (now destruct H). eauto. }
  assert (C : forall x y, is_number x = true -> is_number y = true -> ok x -> ok y -> cn_float x y = key_compare (fkey (float_value x)) (fkey (float_value y))).
  { intros x y N1 N2 H1 H2. destruct (F x N1 H1) as (f & -> & Hf). destruct (F y N2 H2) as (g & -> & Hg). unfold cn_float. cbn [float_value]. now rewrite sf_compare_key. }
  assert (S1 : forall a b, is_number a = true -> is_number b = true -> ok a -> ok b -> cn_float b a = CompOpp (cn_float a b))
    by (intros; rewrite !C by assumption; apply key_compare_sym).
  assert (S2 : forall a b c, is_number a = true -> is_number b = true -> is_number c = true -> ok a -> ok b -> ok c ->
    cn_float a b = Eq -> cn_float a c = cn_float b c).
  { intros x y z N1 N2 N3 H1 H2 H3. rewrite !C by assumption. intros E. apply key_compare_eq in E. now rewrite E. }
  assert (S3 : forall a b c, is_number a = true -> is_number b = true -> is_number c = true -> ok a -> ok b -> ok c ->
    cn_float a b = Lt -> cn_float b c = Lt -> cn_float a c = Lt).
  { intros x y z N1 N2 N3 H1 H2 H3. rewrite !C by assumption. apply key_compare_trans. }
  assert (S4 : forall a b, is_number a = true -> is_number b = true -> ok a -> ok b -> json_lt ff a b = match cn_float a b with Lt => true | _ => false end).
  { intros x y N1 N2 H1 H2. destruct (F x N1 H1) as (f & -> & Hf). destruct (F y N2 H2) as (g & -> & Hg). cbn [json_lt]. unfold cn_float, SFltb. cbn [float_value]. now rewrite sf_compare_key. }
  pose proof (fun x y Hx Hy => proj1 (json_lt_cmp cn_float ok ff S1 S4 x y Hx Hy)) as L.
  pose proof (cmp_sym cn_float ok S1) as SY. pose proof (cmp_trans cn_float ok S1 S2 S3) as TR. pose proof (cmp_cong cn_float ok S2) as CG.
  rewrite !L by assumption. rewrite (cmp_refl cn_float ok S1 a Ha). split; [reflexivity|].
  pose proof (SY a b Ha Hb) as SAB. pose proof (SY b c Hb Hc) as SBC. pose proof (SY a c Ha Hc) as SAC. pose proof (TR a b c Ha Hb Hc) as TABC. pose proof (CG a b c Ha Hb Hc) as CABC.
  rewrite SAB, SBC, SAC. split.
  - destruct (cmp cn_float a b); try discriminate. destruct (cmp cn_float b c); try discriminate. now rewrite TABC.
  - destruct (cmp cn_float a b); cbn [CompOpp]; try discriminate. rewrite CABC by reflexivity. destruct (cmp cn_float b c); cbn [CompOpp]; try discriminate. auto.
Qed.

(** Non-vacuity: in each fragment there are comparable and incomparable trees. *)
Example order_example : 
  all_numbers in_int64 never never (JArray [JSigned (-1); JString [97]]) /\
  json_lt x87 (JArray [JSigned (-1); JString [97]]) (JArray [JSigned (-1); JString [98]]) = true /\
  all_numbers never in_uint64 never (JObject [([97], JUnsigned 18446744073709551615)]) /\
  all_numbers in_both in_both never (JArray [JSigned 1; JUnsigned 1]) /\
  json_eq x87 (JArray [JSigned 1; JUnsigned 1]) (JArray [JUnsigned 1; JSigned 1]) = true /\
  all_numbers never never not_nan (JArray [JFloat (S754_zero true)]) /\
  ranged (JArray [JSigned (-1); JUnsigned 1; JFloat S754_nan]).
Proof.
  split; [cbn; unfold in_int64; lia|]. split; [vm_compute; reflexivity|]. split; [cbn; unfold in_uint64; lia|]. split; [cbn; unfold in_both; lia|].
  split; [vm_compute; reflexivity|]. split; [cbn; split; [discriminate|exact I]|]. cbn; unfold in_int64, in_uint64; lia.
Qed.

(** * Where they are not *)
Theorem equality_reflexive_refuted : json_eq x87 (JFloat S754_nan) (JFloat S754_nan) = false /\
  json_eq x87 (JFloat (S754_infinity false)) (JFloat (S754_infinity false)) = false.
Proof. split; vm_compute; reflexivity. Qed.
(** 0, 2^-63 and 2^-62: each within the tolerance of the next, but not the first of the last. *)
Theorem equality_transitive_refuted : exists a b c,
  json_eq x87 a b = true /\ json_eq x87 b c = true /\ json_eq x87 a c = false.
Proof.
  exists (JFloat (S754_zero false)), (JFloat (S754_finite false 9223372036854775808 (-126))), (JFloat (S754_finite false 9223372036854775808 (-125))).
  repeat split; vm_compute; reflexivity.
Qed.
(** Integers are compared after a cast to the type of the left operand. *)
Theorem order_asymmetric_refuted : json_lt x87 (JUnsigned 5) (JSigned (-1)) = true /\ json_lt x87 (JSigned (-1)) (JUnsigned 5) = true.
Proof. split; vm_compute; reflexivity. Qed.
Theorem order_consistent_refuted :
  json_eq x87 (JFloat (S754_zero false)) (JFloat (S754_finite false 9223372036854775808 (-126))) = true /\
  json_lt x87 (JFloat (S754_zero false)) (JFloat (S754_finite false 9223372036854775808 (-126))) = true.
Proof. split; vm_compute; reflexivity. Qed.
Theorem equality_by_value_refuted : json_eq x87 (JSigned (-1)) (JUnsigned 18446744073709551615) = true.
Proof. vm_compute. reflexivity. Qed.

(** * C42: hashing *)

(** Two values without floating-point numbers whose integers have the same signedness in corresponding
    places, if ==, have the same hash. *)
Theorem equal_hash_signed_partial : forall ff h a b, all_numbers in_int64 never never a -> all_numbers in_int64 never never b ->
  json_eq ff a b = true -> json_hash h a = json_hash h b.
Proof.
  intros ff h a b Ha Hb E. assert (a = b) as ->; [|reflexivity]. revert b Ha Hb E.
  setoid_rewrite all_numbers_ok.
  induction a as [|s|m IH|l IH|x|x|x|x] using json_induction; intros b Ha Hb E.
  - destruct b; try discriminate; reflexivity.
  - destruct b; try discriminate. cbn [json_eq] in E. apply string_eqb_eq in E. congruence.
  - destruct b as [| |m'| | | | |]; try discriminate. rewrite numbers_object in Ha, Hb. cbn [json_eq] in E. f_equal.
    revert m' Hb E. induction IH as [|[k v] m Hv _ IHm]; intros m' Hb E; [destruct m' as [|[? ?] ?]; [reflexivity|discriminate]|].
    destruct m' as [|[k' v'] m']; [discriminate|]. inversion Ha; subst. inversion Hb; subst. cbn [snd] in *. rewrite !andb_true_iff in E. destruct E as [[E1 E2] E3].
    apply string_eqb_eq in E1. rewrite (Hv v'), (IHm ltac:(assumption) m') by assumption. congruence.
  - destruct b as [| | |l'| | | |]; try discriminate. rewrite numbers_array in Ha, Hb. cbn [json_eq] in E. f_equal.
    revert l' Hb E. induction IH as [|v m Hv _ IHm]; intros m' Hb E; [destruct m'; [reflexivity|discriminate]|].
    destruct m' as [|v' m']; [discriminate|]. inversion Ha; subst. inversion Hb; subst. rewrite !andb_true_iff in E. destruct E as [E2 E3].
    rewrite (Hv v'), (IHm ltac:(assumption) m') by assumption. reflexivity.
  - destruct b as [| | | |y| | |]; try discriminate. cbn [json_eq] in E. apply Bool.eqb_prop in E. congruence.
  - destruct b as [| | | | |y|y|y]; try discriminate; try (now destruct Hb). cbn [json_eq] in E. apply Z.eqb_eq in E. congruence.
  - destruct Ha.
  - destruct Ha.
Qed.
(** More generally: two values whose numbers are of the same kind (signed, unsigned, floating point) in corresponding places, those of the third
    kind the same. *)
Inductive same_kinds : json -> json -> Prop :=
| sk_null : same_kinds JNull JNull
| sk_string s t : same_kinds (JString s) (JString t)
| sk_bool b c : same_kinds (JBool b) (JBool c)
| sk_signed x y : same_kinds (JSigned x) (JSigned y)
| sk_unsigned x y : same_kinds (JUnsigned x) (JUnsigned y)
| sk_float f : same_kinds (JFloat f) (JFloat f)
| sk_array l m : Forall2 same_kinds l m -> same_kinds (JArray l) (JArray m)
| sk_object l m : Forall2 (fun x y => same_kinds (snd x) (snd y)) l m -> same_kinds (JObject l) (JObject m).
Theorem equal_hash_same_kinds_partial : forall ff h a b, same_kinds a b -> json_eq ff a b = true -> json_hash h a = json_hash h b.
Proof.
  intros ff h a b K E. assert (a = b) as ->; [|reflexivity]. revert b K E.
  induction a as [|s|m IH|l IH|x|x|x|x] using json_induction; intros b K E.
  - inversion K; reflexivity.
  - inversion K; subst. cbn [json_eq] in E. apply string_eqb_eq in E. congruence.
  - inversion K as [| | | | | | |? m' F]; subst. cbn [json_eq] in E. f_equal.
    revert m' F E K. induction IH as [|[k v] m Hv _ IHm]; intros m' F E _; inversion F as [|? [k' v'] ? m2 F1 F2]; subst; [reflexivity|].
    cbn [snd] in *. rewrite !andb_true_iff in E. destruct E as [[E1 E2] E3].
    apply string_eqb_eq in E1. rewrite (Hv v' F1 E2), (IHm m2 F2 E3 ltac:(now constructor)). congruence.
  - inversion K as [| | | | | |? l' F|]; subst. cbn [json_eq] in E. f_equal.
    revert l' F E K. induction IH as [|v m Hv _ IHm]; intros m' F E _; inversion F as [|? v' ? m2 F1 F2]; subst; [reflexivity|].
    rewrite !andb_true_iff in E. destruct E as [E2 E3].
    rewrite (Hv v' F1 E2), (IHm m2 F2 E3 ltac:(now constructor)). reflexivity.
  - inversion K; subst. cbn [json_eq] in E. apply Bool.eqb_prop in E. congruence.
  - inversion K; subst. cbn [json_eq] in E. apply Z.eqb_eq in E. congruence.
  - inversion K; subst. cbn [json_eq] in E. apply Z.eqb_eq in E. congruence.
  - inversion K; subst. reflexivity.
Qed.
(** Refuted in general: 1 (signed) == 1 (unsigned), but the type index enters the hash, so the hashes
    differ when std::hash of both integer types is the identity (libstdc++, libc++). *)
Definition identity_hashes : hashes := Hashes (fun _ => 0) (fun b => if b then 1 else 0) u64 (fun z => z) (fun _ => 0).
Theorem equal_hash_refuted : json_eq x87 (JSigned 1) (JUnsigned 1) = true /\
  json_hash identity_hashes (JSigned 1) <> json_hash identity_hashes (JUnsigned 1).
Proof. split; [vm_compute; reflexivity|]. vm_compute. discriminate. Qed.
