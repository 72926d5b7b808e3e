(** C55: converting Json values. *)
From Coq Require Import SpecFloat.
From Verif Require Import Common Format_Spec Format_Model Format_Props Json_Spec Json_Model JsonApi_Model JsonConv_Model.
Open Scope Z_scope.

(** * Specification *)
(** [s] is the decimal text of [v]: digits, after a minus sign for a signed type. *)
Definition decimal_text (is_signed : bool) (s : list Z) (v : Z) : Prop :=
  exists digits, digits <> [] /\ Forall (fun c => 48 <= c <= 57) digits /\
    ((s = digits /\ v = positional_value 10 digits) \/ (is_signed = true /\ s = 45 :: digits /\ v = - positional_value 10 digits)).
(** [v] is the floating-point value [f], whose fraction is dropped. *)
Definition truncates (f : spec_float) (v : Z) : Prop :=
  match f with
  | S754_zero _ => v = 0
  | S754_finite s m e =>
      (if s then v <= 0 else 0 <= v) /\
      (0 <= e -> Z.abs v = Z.pos m * 2 ^ e) /\ (e < 0 -> Z.abs v * 2 ^ (- e) <= Z.pos m < (Z.abs v + 1) * 2 ^ (- e))
  | _ => False
  end.
Definition is_number (j : json) (v : Z) : Prop := j = JSigned v \/ j = JUnsigned v.

(** * Integers *)
Lemma cast_exact w sg v : native_int w -> int_ok w sg v -> cast w sg v = v.
Proof.
  intros Hw Hv. unfold cast, int_ok in *. assert (P : 2 ^ w = 2 * 2 ^ (w - 1)) by (rewrite <- Z.pow_succ_r by (unfold native_int in Hw; lia); f_equal; lia).
  destruct sg.
  - unfold signed. cbv zeta. destruct (Z.ltb_spec v 0).
    + replace (v mod 2 ^ w) with (v + 2 ^ w) by (rewrite <- (Z.mod_add v 1 (2 ^ w)) by lia; rewrite Z.mul_1_l; rewrite Z.mod_small by lia; reflexivity).
      rewrite (proj2 (Z.ltb_ge _ _)) by lia. lia.
    + rewrite Z.mod_small by lia. now rewrite (proj2 (Z.ltb_lt _ _)) by lia.
  - unfold wrap. now apply Z.mod_small.
Qed.
Lemma fits_iff w sg v : fits w sg v = true <-> int_ok w sg v.
Proof. unfold fits, int_ok. rewrite andb_true_iff, Z.leb_le, Z.ltb_lt. destruct sg; tauto. Qed.
Lemma truncated_iff f v : truncated f = Some v <-> truncates f v.
Proof.
  destruct f as [s|s| |s m e]; cbn [truncated truncates]; [split; [intros E; now injection E as <-|now intros ->]|split; [discriminate|tauto]|split; [discriminate|tauto]|].
  set (n := if 0 <=? e then Z.pos m * 2 ^ e else Z.pos m / 2 ^ (- e)).
  assert (HN : 0 <= n).
  { unfold n. destruct (Z.leb_spec 0 e); [pose proof (Z.pow_nonneg 2 e); apply Z.mul_nonneg_nonneg; lia|]. apply Z.div_pos; [lia|]. apply Z.pow_pos_nonneg; lia. }
  assert (HU : forall k, 0 <= k -> ((0 <= e -> k = Z.pos m * 2 ^ e) /\ (e < 0 -> k * 2 ^ (- e) <= Z.pos m < (k + 1) * 2 ^ (- e))) <-> k = n).
  { intros k Hk. unfold n. destruct (Z.leb_spec 0 e) as [He|He].
    - split; [intros [H _]; auto|]. intros ->. split; [auto|lia].
    - assert (HP : 0 < 2 ^ (- e)) by (apply Z.pow_pos_nonneg; lia). split.
      + intros [_ H]. specialize (H He). apply (Z.div_unique_pos _ _ _ (Z.pos m - k * 2 ^ (- e))); lia.
      + intros ->. split; [lia|]. intros _. pose proof (Z.mul_div_le (Z.pos m) (2 ^ (- e)) HP). pose proof (Z.mul_succ_div_gt (Z.pos m) (2 ^ (- e)) HP). lia. }
  split.
  - intros E. assert (EV : v = if s then - n else n) by congruence. assert (EA : Z.abs v = n) by (destruct s; lia).
    split; [destruct s; lia|]. rewrite EA. now apply (HU n HN).
  - intros (HS & H). apply (HU (Z.abs v) ltac:(lia)) in H. f_equal. destruct s; lia.
Qed.
(** The conversion to an integer type of any width: numbers that fit are themselves, floating-point values lose their fraction, texts are read,
    everything else is refused. *)
Theorem integer_conversion : forall w sg j v, native_int w -> int_ok w sg v ->
  (is_number j v -> to_integer w sg j = Return v) /\
  (forall f, j = JFloat f -> truncates f v -> to_integer w sg j = Return v) /\
  (forall s, j = JString s -> (to_integer w sg j = Return v <-> decimal_text sg s v)).
Proof.
  intros w sg j v Hw Hv. split; [|split].
  - intros [-> | ->]; cbn [to_integer]; now rewrite cast_exact.
  - intros f -> HT. apply truncated_iff in HT. cbn [to_integer]. rewrite HT. now rewrite (proj2 (fits_iff w sg v) Hv).
  - intros s ->. cbn [to_integer]. pose proof (convert_exact_int w sg s v ltac:(unfold native_int in Hw; lia)) as HC.
    assert (E : decimal_text sg s v <-> exists digits, digits <> [] /\ Forall (digit_of 10 false) digits /\
     ((s = digits /\ v = positional_value 10 digits) \/ (sg = true /\ s = 45 :: digits /\ v = - positional_value 10 digits))).
    { unfold decimal_text. assert (D : forall l, Forall (fun c => 48 <= c <= 57) l <-> Forall (digit_of 10 false) l).
      { intros l. rewrite !Forall_forall. unfold digit_of. split; intros H c Hc; apply H in Hc; lia. }
      split; intros (d & A & B & C); exists d; (split; [assumption|]); (split; [now apply D|assumption]). }
    rewrite E. destruct (convert w sg s) as [x|].
    + split; [intros EX; injection EX as ->; now apply HC|]. intros H. f_equal. assert (Some x = Some v) by (apply HC; auto). congruence.
    + split; [discriminate|]. intros H. assert (None = Some v) by (apply HC; auto). congruence.
Qed.
(** When it throws: no number, and no text of a number that fits.  Undefined only for floating-point values that do not fit. *)
Theorem integer_conversion_refused : forall w sg j, native_int w ->
  (to_integer w sg j = Throw JsonException <->
     match j with
     | JString s => forall v, int_ok w sg v -> ~ decimal_text sg s v
     | JSigned _ | JUnsigned _ | JFloat _ => False
     | _ => True
     end) /\
  (to_integer w sg j = Undefined <-> exists f, j = JFloat f /\ forall v, int_ok w sg v -> ~ truncates f v).
Proof.
  intros w sg j Hw. split.
  - destruct j as [|s|m|l|b|z|z|f]; cbn [to_integer]; try tauto; try (split; [discriminate|tauto]).
    + split.
      * intros E v Hv HD. apply (proj2 (proj2 (integer_conversion w sg (JString s) v Hw Hv)) s eq_refl) in HD. cbn [to_integer] in HD. congruence.
      * intros H. destruct (convert w sg s) as [v|] eqn:EC; [|reflexivity]. exfalso.
        assert (Hv : int_ok w sg v) by (apply (convert_exact_int w sg s v ltac:(unfold native_int in Hw; lia)) in EC; tauto).
        apply (H v Hv). apply (proj2 (proj2 (integer_conversion w sg (JString s) v Hw Hv)) s eq_refl). cbn [to_integer]. now rewrite EC.
    + split; [|tauto]. destruct (truncated f) as [v|]; [destruct (fits w sg v)|]; discriminate.
  - split.
    + destruct j as [|s|m|l|b|z|z|f]; cbn [to_integer]; try discriminate; [destruct (convert w sg s); discriminate|]. intros E. exists f. split; [reflexivity|]. intros v Hv HT.
      apply truncated_iff in HT. rewrite HT, (proj2 (fits_iff w sg v) Hv) in E. discriminate.
    + intros (f & -> & H). cbn [to_integer]. destruct (truncated f) as [v|] eqn:ET; [|reflexivity]. destruct (fits w sg v) eqn:EF; [|reflexivity]. exfalso.
      apply fits_iff in EF. apply truncated_iff in ET. exact (H v EF ET).
Qed.
(** A number that does not fit is not refused: it is reduced modulo 2^w. *)
Theorem integer_conversion_refuses_overflow_refuted : forall w z, native_int w -> to_integer w false (JSigned z) = Return (z mod 2 ^ w) /\
  to_integer 16 false (JUnsigned 70000) = Return 4464 /\ to_integer 8 true (JSigned 200) = Return (-56).
Proof. intros w z _. repeat split. Qed.
(** What goes in comes out: an integer of any type of at most 64 bits, as a value and as a text. *)
Theorem integer_round_trip : forall w sg v fp, native_int w -> int_ok w sg v ->
  to_integer w sg (of_integer sg v) = Return v /\
  (exists t, to_text fp (of_integer sg v) = Ok (Return t) /\ to_integer w sg (JString t) = Return v).
Proof.
  intros w sg v fp Hw Hv. split; [destruct sg; cbn [of_integer]; apply (integer_conversion w _ _ v Hw Hv); [now left|now right]|].
  assert (H64 : int_ok 64 sg v).
  { unfold int_ok in *. destruct sg; [assert (2 ^ (w - 1) <= 2 ^ (64 - 1)) by (apply Z.pow_le_mono_r; unfold native_int in Hw; lia); lia|].
    assert (2 ^ w <= 2 ^ 64) by (apply Z.pow_le_mono_r; unfold native_int in Hw; lia). lia. }
  assert (N64 : native_int 64) by (unfold native_int; auto).
  destruct (plain_format 64 sg 127 TDecimal v 10 N64 H64 eq_refl) as (d & E & (F & V & N & _)). change (plain_field TDecimal) with integer_field in E.
  exists ((if v <? 0 then [45] else []) ++ d). split; [destruct sg; cbn [of_integer to_text]; now rewrite E|].
  cbn [to_integer]. assert (EC : convert w sg ((if v <? 0 then [45] else []) ++ d) = Some v); [|now rewrite EC].
  apply convert_exact_int; [unfold native_int in Hw; lia|]. split; [assumption|]. exists d. split; [assumption|]. split; [assumption|].
  destruct (Z.ltb_spec v 0) as [Hn|Hn].
  - right. destruct sg; [|cbn in Hv; lia]. repeat split. lia.
  - left. split; [reflexivity|lia].
Qed.

(** * Booleans and sequences *)
Theorem bool_conversion : forall j, to_bool j = true <->
  match j with
  | JNull => False
  | JString s => s <> [] | JObject m => m <> [] | JArray l => l <> []
  | JBool b => b = true
  | JSigned z | JUnsigned z => z <> 0
  | JFloat f => f <> S754_nan /\ f <> S754_zero true /\ f <> S754_zero false
  end.
Proof.
  destruct j as [|s|m|l|b|z|z|f]; cbn [to_bool]; try (split; [discriminate|tauto]); try tauto.
  1-3: match goal with |- context [length ?x] => destruct x end; cbn; split; congruence.
  1-2: rewrite negb_true_iff, Z.eqb_neq; tauto.
  destruct f as [[]|s| |s m e]; split; try discriminate; try (intros (A & B & C); congruence); repeat split; congruence.
Qed.
Lemma convert_all_iff {A} (f : json -> outcome A) l xs : convert_all f l = Return xs <-> Forall2 (fun v x => f v = Return x) l xs.
Proof.
  revert xs. induction l as [|v l IH]; intros xs; cbn [convert_all].
  - split; [intros E; injection E as <-; constructor|]. intros H. now inversion H.
  - split.
    + destruct (f v) as [x|e|] eqn:EV; try discriminate. destruct (convert_all f l) as [ys|e|]; try discriminate. intros E. injection E as <-. constructor; [assumption|]. now apply IH.
    + intros H. inversion H as [|? x ? ys HX HR]; subst. rewrite HX. apply IH in HR. now rewrite HR.
Qed.
(** An array converts exactly if all its elements do, in order; the conversion to std::array takes the first N and fills up with zeros. *)
Theorem sequence_conversion : forall (A : Type) (f : json -> outcome A) (zero : A) n j xs,
  (to_sequence f j = Return xs <-> exists l, j = JArray l /\ Forall2 (fun v x => f v = Return x) l xs) /\
  (to_fixed n zero f j = Return xs <-> exists l ys, j = JArray l /\ Forall2 (fun v x => f v = Return x) (firstn n l) ys /\ xs = ys ++ repeat zero (n - length l)%nat).
Proof.
  intros A f zero n j xs. split.
  - unfold to_sequence. split.
    + destruct j as [|s|m|l|b|z|z|g]; try discriminate. intros H. exists l. split; [reflexivity|]. now apply convert_all_iff.
    + intros (l & -> & H). now apply convert_all_iff.
  - assert (EM : forall l : list json, firstn (Nat.min n (length l)) l = firstn n l).
    { intros l. destruct (Nat.le_ge_cases n (length l)); [now rewrite Nat.min_l by assumption|]. rewrite Nat.min_r by assumption. now rewrite firstn_all, firstn_all2. }
    unfold to_fixed. split.
    + destruct j as [|s|m|l|b|z|z|g]; try discriminate. rewrite EM. destruct (convert_all f (firstn n l)) as [ys|e|] eqn:EC; try discriminate. intros E. injection E as <-.
      exists l, ys. split; [reflexivity|]. split; [now apply convert_all_iff|reflexivity].
    + intros (l & ys & -> & H & ->). rewrite EM. apply convert_all_iff in H. now rewrite H.
Qed.
Theorem sequence_round_trip : forall (A : Type) (f : json -> outcome A) (g : A -> json) xs, (forall x, In x xs -> f (g x) = Return x) ->
  to_sequence f (of_sequence g xs) = Return xs.
Proof.
  intros A f g xs H. unfold of_sequence, to_sequence. apply convert_all_iff. induction xs as [|x xs IH]; [constructor|]. cbn [map]. constructor; [apply H; now left|].
  apply IH. intros y Hy. apply H. now right.
Qed.

(** * Examples *)
Example example_fits : native_int 16 /\ int_ok 16 true (-7) /\ is_number (JSigned (-7)) (-7) /\ decimal_text true [45; 55] (-7) /\
  truncates (S754_finite true 15 (-1)) (-7).
Proof.
  split; [unfold native_int; auto|]. split; [unfold int_ok; cbn; lia|]. split; [now left|]. split.
  - exists [55]. split; [discriminate|]. split; [constructor; [lia|constructor]|]. right. repeat split.
  - cbn. lia.
Qed.
Example example_refused : to_integer 8 false (JString [50; 53; 54]) = Throw JsonException /\ to_integer 8 false (JFloat (S754_finite false 256 0)) = Undefined.
Proof. split; reflexivity. Qed.
Example example_sequence : to_sequence (to_integer 32 true) (JArray [JSigned 1; JString [50]]) = Return [1; 2] /\
  to_fixed 3 0 (to_integer 32 true) (JArray [JSigned 1; JString [50]]) = Return [1; 2; 0].
Proof. split; reflexivity. Qed.
