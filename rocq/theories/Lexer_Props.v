(** Properties C20 (character classification) and C21 (lexer). *)
From Verif Require Import Common Bits Lexer_Model Lexer_Spec.

(** * Conversions *)
Lemma convert_small b sg v : 0 < b -> in_range b sg v -> convert_int b sg v = v.
Proof.
  intros Hb H. unfold convert_int, in_range, signed, wrap in *.
  assert (E : 2 ^ b = 2 * 2 ^ (b - 1)).
  { replace b with (1 + (b - 1)) at 1 by lia. now rewrite pow2_add by lia. }
  pose proof (pow2_pos (b - 1) ltac:(lia)).
  destruct sg; [|now apply Z.mod_small]. cbv zeta.
  destruct (Z.ltb_spec v 0).
  - assert (EM : v mod 2 ^ b = v + 2 ^ b) by (symmetry; apply Z.mod_unique with (-1); lia).
    rewrite EM. destruct (Z.ltb_spec (v + 2 ^ b) (2 ^ (b - 1))); lia.
  - rewrite Z.mod_small by lia. destruct (Z.ltb_spec v (2 ^ (b - 1))); lia.
Qed.
Lemma convert_mod b sg v : 0 < b -> convert_int b sg v mod 2 ^ b = v mod 2 ^ b.
Proof.
  intros Hb. unfold convert_int, signed, wrap. pose proof (pow2_pos b ltac:(lia)). destruct sg; cbv zeta.
  - destruct (v mod 2 ^ b <? 2 ^ (b - 1)); [now rewrite Z.mod_mod by lia|].
    replace (v mod 2 ^ b - 2 ^ b) with (v mod 2 ^ b + (-1) * 2 ^ b) by lia. rewrite Z.mod_add, Z.mod_mod by lia. reflexivity.
  - now rewrite Z.mod_mod by lia.
Qed.
Lemma convert_cong b sg v w : v mod 2 ^ b = w mod 2 ^ b -> convert_int b sg v = convert_int b sg w.
Proof. intros H. unfold convert_int, signed, wrap. now rewrite H. Qed.
Lemma mod_pow_down v w a b : 0 <= a <= b -> v mod 2 ^ b = w mod 2 ^ b -> v mod 2 ^ a = w mod 2 ^ a.
Proof.
  intros Hab H. replace b with (a + (b - a)) in H by lia. rewrite pow2_add in H by lia.
  pose proof (pow2_pos a ltac:(lia)). pose proof (pow2_pos (b - a) ltac:(lia)).
  rewrite !Z.rem_mul_r in H by lia.
  apply (f_equal (fun x => x mod 2 ^ a)) in H. rewrite !(Z.mul_comm (2 ^ a)), !Z.mod_add, !Z.mod_mod in H by lia. exact H.
Qed.
Lemma land_mod n a b : 0 <= n -> Z.land a b mod 2 ^ n = Z.land (a mod 2 ^ n) (b mod 2 ^ n).
Proof.
  intros Hn. apply Z.bits_inj'. intros i Hi. rewrite Z.land_spec. destruct (Z.ltb_spec i n).
  - now rewrite !Z.mod_pow2_bits_low, Z.land_spec by lia.
  - now rewrite !Z.mod_pow2_bits_high by lia.
Qed.
Lemma lor_mod n a b : 0 <= n -> Z.lor a b mod 2 ^ n = Z.lor (a mod 2 ^ n) (b mod 2 ^ n).
Proof.
  intros Hn. apply Z.bits_inj'. intros i Hi. rewrite Z.lor_spec. destruct (Z.ltb_spec i n).
  - now rewrite !Z.mod_pow2_bits_low, Z.lor_spec by lia.
  - now rewrite !Z.mod_pow2_bits_high by lia.
Qed.

Definition ct_ok (t : ctype) : Prop := 8 <= c_bits t <= i_bits t.
Lemma ctypes_ok t : In t ctypes -> ct_ok t.
Proof. unfold ct_ok. cbn [In ctypes]. intros H. decompose [or] H; subst; cbn [c_bits i_bits char_signed char_unsigned char8 char16 char32 wchar_linux wchar_arm wchar_windows]; lia || contradiction. Qed.

Definition char_ok (t : ctype) (ch : Z) : Prop := in_range (c_bits t) (c_signed t) ch.

Lemma land_case ch : Z.land ch (-33) = ch \/ Z.land ch (-33) = ch - 32.
Proof.
  assert (E : Z.land ch (-33) + Z.land ch 32 = ch).
  { rewrite Z.add_nocarry_lxor.
    - apply Z.bits_inj'. intros i Hi. rewrite Z.lxor_spec, !Z.land_spec.
      replace (-33) with (Z.lnot 32) by reflexivity. rewrite Z.lnot_spec by lia.
      destruct (Z.testbit ch i), (Z.testbit 32 i); reflexivity.
    - rewrite <- (Z.land_assoc ch), (Z.land_comm (-33)), <- !Z.land_assoc. change (Z.land 32 (-33)) with 0. now rewrite !Z.land_0_r. }
  assert (E32 : Z.land ch 32 = 0 \/ Z.land ch 32 = 32).
  { change 32 with (2 ^ 5). destruct (Z.testbit ch 5) eqn:B; [right|left]; apply Z.bits_inj'; intros i Hi;
      rewrite Z.land_spec, ?Z.bits_0; destruct (Z.eq_dec i 5) as [->|Hne].
    - now rewrite B, Z.pow2_bits_true by lia.
    - rewrite Z.pow2_bits_false by lia. apply andb_false_r.
    - now rewrite B.
    - rewrite Z.pow2_bits_false by lia. apply andb_false_r. }
  lia.
Qed.

Lemma land_range b sg ch : 6 < b -> in_range b sg ch -> in_range b sg (Z.land ch (-33)).
Proof.
  intros Hb H. destruct (land_case ch) as [-> | E]; [assumption|]. unfold in_range in *.
  assert (Hdec : Z.land ch (-33) <= ch) by lia.
  destruct sg.
  - split; [|lia]. destruct (Z.ltb_spec ch 0).
    + (* ch < 0: clearing bit 5 keeps the sign and the value above -2^(b-1) *)
      apply Z.nlt_ge. intros Hlt.
      assert (HB : 2 ^ 6 <= 2 ^ (b - 1)) by (apply Z.pow_le_mono_r; lia).
      (* lnot (land ch (-33)) = lor (lnot ch) 32 < 2^(b-1) *)
      assert (HL : Z.lnot (Z.land ch (-33)) = Z.lor (Z.lnot ch) 32).
      { rewrite Z.lnot_land. reflexivity. }
      assert (HR : Z.lor (Z.lnot ch) 32 < 2 ^ (b - 1)).
      { assert (0 <= Z.lnot ch < 2 ^ (b - 1)) by (unfold Z.lnot; lia).
        destruct (Z.eq_dec (Z.lor (Z.lnot ch) 32) 0); [lia|].
        apply Z.log2_lt_pow2. { assert (0 <= Z.lor (Z.lnot ch) 32) by (apply Z.lor_nonneg; lia). lia. }
        rewrite Z.log2_lor by lia. apply Z.max_lub_lt.
        - destruct (Z.eq_dec (Z.lnot ch) 0) as [->|]; [cbn; lia|]. apply Z.log2_lt_pow2; lia.
        - change (Z.log2 32) with 5. lia. }
      unfold Z.lnot in HL, HR at 1. unfold Z.lnot in HR. lia.
    + assert (0 <= Z.land ch (-33)) by (apply Z.land_nonneg; lia).
      pose proof (pow2_pos (b - 1) ltac:(lia)). lia.
  - assert (0 <= Z.land ch (-33)) by (apply Z.land_nonneg; lia). lia.
Qed.

Lemma unify_land t ch : ct_ok t -> char_ok t ch -> unify_az_characters t ch = Z.land ch (-33).
Proof.
  intros Ht H. unfold ct_ok in Ht. unfold unify_az_characters, to_char.
  transitivity (convert_int (c_bits t) (c_signed t) (Z.land ch (-33))).
  - apply convert_cong. apply mod_pow_down with (i_bits t); [lia|].
    rewrite land_mod by lia. unfold to_int_type, s_case_mask, s_case_bit, to_int_type. rewrite !convert_mod by lia.
    assert (E : Z.lnot (convert_int (i_bits t) (i_signed t) 32) = -33).
    { rewrite convert_small; [reflexivity|lia|]. unfold in_range.
      assert (2 ^ 6 <= 2 ^ (i_bits t - 1)) by (apply Z.pow_le_mono_r; lia).
      assert (2 ^ 6 <= 2 ^ i_bits t) by (apply Z.pow_le_mono_r; lia). change (2 ^ 6) with 64 in *. destruct (i_signed t); lia. }
    rewrite E. now rewrite <- land_mod by lia.
  - apply convert_small; [lia|]. apply land_range; [lia|exact H].
Qed.

Lemma range_forall (P : Z -> bool) lo n : forallb P (map (fun k => lo + Z.of_nat k) (seq 0 n)) = true ->
  forall c, lo <= c < lo + Z.of_nat n -> P c = true.
Proof.
  intros H c Hc. rewrite forallb_forall in H. apply H. apply in_map_iff. exists (Z.to_nat (c - lo)). split; [lia|].
  apply in_seq. lia.
Qed.

Lemma land_upper ch lo hi : 65 <= lo -> hi <= 90 ->
  (lo <= Z.land ch (-33) <= hi <-> lo <= ch <= hi \/ lo + 32 <= ch <= hi + 32).
Proof.
  intros Hlo Hhi. split.
  - intros H. destruct (land_case ch); lia.
  - intros H.
    assert (E : forall c, 65 <= c <= 90 -> Z.land c (-33) = c).
    { intros c Hc. apply Z.eqb_eq. apply (range_forall (fun c => Z.land c (-33) =? c) 65 26); [vm_compute; reflexivity|lia]. }
    assert (E' : forall c, 97 <= c <= 122 -> Z.land c (-33) = c - 32).
    { intros c Hc. apply Z.eqb_eq. apply (range_forall (fun c => Z.land c (-33) =? c - 32) 97 26); [vm_compute; reflexivity|lia]. }
    destruct H; [rewrite E by lia; lia|rewrite E' by lia; lia].
Qed.

Lemma digit_iff ch : is_digit ch = true <-> ascii_digit ch \/ ch < 0.
Proof.
  unfold is_digit, ascii_digit. rewrite Z.ltb_lt. split.
  - intros H. destruct (Z.ltb_spec ch 0); [now right|left].
    assert (0 <= Z.lxor ch 48) by (apply Z.lxor_nonneg; lia).
    assert (E : ch = Z.lxor (Z.lxor ch 48) 48) by (rewrite Z.lxor_assoc, Z.lxor_nilpotent, Z.lxor_0_r; reflexivity).
    set (d := Z.lxor ch 48) in *. clearbody d.
    assert (HD : In d [0;1;2;3;4;5;6;7;8;9]) by (cbn [In]; lia). cbn [In] in HD.
    decompose [or] HD; try contradiction; subst d; rewrite E; cbn; lia.
  - intros [H|H].
    + assert (HD : In ch [48;49;50;51;52;53;54;55;56;57]) by (cbn [In]; lia). cbn [In] in HD.
      decompose [or] HD; try contradiction; subst ch; cbn; lia.
    + assert (~ 0 <= Z.lxor ch 48); [|lia]. rewrite Z.lxor_nonneg. lia.
Qed.

(** * C20 *)
Theorem classify_exact : forall t ch, In t ctypes -> char_ok t ch ->
  (is_upper ch = true <-> ascii_upper ch) /\
  (is_lower ch = true <-> ascii_lower ch) /\
  (is_alpha t ch = true <-> ascii_alpha ch) /\
  (is_space ch = true <-> ascii_space ch).
Proof.
  intros t ch Ht H. apply ctypes_ok in Ht. unfold ascii_alpha, ascii_upper, ascii_lower, ascii_space.
  split; [|split; [|split]].
  - unfold is_upper. rewrite andb_true_iff, !Z.leb_le. lia.
  - unfold is_lower. rewrite andb_true_iff, !Z.leb_le. lia.
  - unfold is_alpha. rewrite unify_land by assumption. unfold is_upper. rewrite andb_true_iff, !Z.leb_le.
    pose proof (land_upper ch 65 90 ltac:(lia) ltac:(lia)). lia.
  - unfold is_space. rewrite !orb_true_iff, !Z.eqb_eq. lia.
Qed.

Theorem to_upper_exact : forall t ch, In t ctypes -> char_ok t ch ->
  (ascii_lower ch -> to_upper t ch = ch - 32) /\ (~ ascii_lower ch -> to_upper t ch = ch).
Proof.
  intros t ch Ht H. apply ctypes_ok in Ht. unfold to_upper, ascii_lower.
  change (to_char t (Z.land (to_int_type t ch) (s_case_mask t))) with (unify_az_characters t ch). rewrite unify_land by assumption.
  unfold is_lower. split; intros Hc.
  - replace ((97 <=? ch) && (ch <=? 122)) with true by (symmetry; apply andb_true_iff; rewrite !Z.leb_le; lia).
    apply Z.eqb_eq. apply (range_forall (fun c => Z.land c (-33) =? c - 32) 97 26); [vm_compute; reflexivity|lia].
  - destruct (Z.leb_spec 97 ch), (Z.leb_spec ch 122); try reflexivity; lia.
Qed.

Theorem to_lower_exact : forall t ch, In t ctypes -> char_ok t ch ->
  (ascii_upper ch -> to_lower t ch = ch + 32) /\ (~ ascii_upper ch -> to_lower t ch = ch).
Proof.
  intros t ch Ht H. apply ctypes_ok in Ht as HO. unfold to_lower, ascii_upper, is_upper. split; intros Hc.
  - replace ((65 <=? ch) && (ch <=? 90)) with true by (symmetry; apply andb_true_iff; rewrite !Z.leb_le; lia).
    apply Z.eqb_eq.
    apply (range_forall (fun ch => to_char t (Z.lor (to_int_type t ch) (s_case_bit t)) =? ch + 32) 65 26); [|lia].
    clear - Ht. cbn [In ctypes] in Ht. decompose [or] Ht; subst; try contradiction; vm_compute; reflexivity.
  - destruct (Z.leb_spec 65 ch), (Z.leb_spec ch 90); try reflexivity; lia.
Qed.

(** Digits: exact for non-negative characters, so for every unsigned character type (missing:
    negative values of signed character types, where the claim is false, below). *)
Theorem digits_exact_partial : forall t ch, In t ctypes -> char_ok t ch -> 0 <= ch ->
  (is_digit ch = true <-> ascii_digit ch) /\ (is_x_digit t ch = true <-> ascii_xdigit ch).
Proof.
  intros t ch Ht H Hn. apply ctypes_ok in Ht. split.
  - rewrite digit_iff. unfold ascii_digit. lia.
  - unfold is_x_digit. rewrite orb_true_iff, digit_iff, andb_true_iff, !Z.leb_le, unify_land by assumption.
    pose proof (land_upper ch 65 70 ltac:(lia) ltac:(lia)). unfold ascii_xdigit, ascii_digit. lia.
Qed.
Theorem digits_exact_unsigned : forall t ch, In t ctypes -> c_signed t = false -> char_ok t ch ->
  (is_digit ch = true <-> ascii_digit ch) /\ (is_x_digit t ch = true <-> ascii_xdigit ch).
Proof.
  intros t ch Ht Hs H. apply digits_exact_partial; auto. unfold char_ok, in_range in H. rewrite Hs in H. lia.
Qed.

(** On a signed character type every negative character (every char from 0x80 on, for instance each
    byte of a non-ASCII UTF-8 sequence) is classified as a digit. *)
Theorem digits_refuted : forall t ch, In t ctypes -> char_ok t ch -> ch < 0 ->
  is_digit ch = true /\ is_x_digit t ch = true /\ ~ ascii_digit ch /\ ~ ascii_xdigit ch.
Proof.
  intros t ch _ _ Hn. assert (D : is_digit ch = true) by (apply digit_iff; lia).
  split; [assumption|]. split; [unfold is_x_digit; now rewrite D|]. unfold ascii_digit, ascii_xdigit, ascii_digit. lia.
Qed.

Example C20_cases : In char_signed ctypes /\ char_ok char_signed (-61) /\ is_digit (-61) = true /\
  map is_digit [47; 48; 57; 58; 65] = [false; true; true; false; false] /\
  map (is_alpha char_signed) [64; 65; 90; 91; 97; 122; 123; -31] = [false; true; true; false; true; true; false; false] /\
  map (to_upper wchar_linux) [97; 65; -5] = [65; 65; -5].
Proof. split; [now left|]. repeat split; vm_compute; discriminate || reflexivity. Qed.

(** * C21 *)
Definition lexer_ok (l : lexer) : Prop := Z.of_nat (length (view l)) < 2 ^ 63 /\ 0 <= index l <= size l.

Lemma u64_small v : 0 <= v < 2 ^ 64 -> u64 v = v.
Proof. intros. unfold u64, wrap. now apply Z.mod_small. Qed.

Lemma lookup_skipn {A} (l : list A) : forall n, lookup l n = match skipn n l with x :: _ => Some x | [] => None end.
Proof. induction l as [|x l IH]; intros [|n]; try reflexivity. cbn [lookup skipn]. apply IH. Qed.

(** The characters not yet consumed. *)
Definition remaining (l : lexer) : list Z := skipn (Z.to_nat (index l)) (view l).

Lemma peek_here l : lexer_ok l -> peek l 0 = Ok (match remaining l with c :: _ => Some c | [] => None end).
Proof.
  intros [Hs Hi]. unfold peek. rewrite Z.add_0_r. assert (2 ^ 63 < 2 ^ 64) by (apply Z.pow_lt_mono_r; lia).
  unfold size in *. rewrite u64_small by lia. rewrite Z.eqb_refl, Z.geb_leb.
  unfold remaining. destruct (Z.leb_spec (Z.of_nat (length (view l))) (index l)).
  - rewrite skipn_all2 by lia. reflexivity.
  - now rewrite lookup_skipn.
Qed.

Lemma remaining_next l c r : lexer_ok l -> remaining l = c :: r ->
  let l' := Lexer (view l) (u64 (index l + 1)) in
  consume l = (Some c, l') /\ lexer_ok l' /\ remaining l' = r /\ index l' = index l + 1.
Proof.
  intros HO HR. destruct HO as [Hs Hi]. unfold size in *.
  assert (HL : Z.of_nat (length (remaining l)) = Z.of_nat (length (view l)) - index l).
  { unfold remaining. rewrite skipn_length. lia. }
  rewrite HR in HL. cbn [length] in HL. assert (2 ^ 63 < 2 ^ 64) by (apply Z.pow_lt_mono_r; lia).
  cbv zeta. rewrite u64_small by lia. split; [|split; [|split]].
  - unfold consume, size. rewrite Z.geb_leb. destruct (Z.leb_spec (Z.of_nat (length (view l))) (index l)); [lia|].
    rewrite lookup_skipn. fold (remaining l). rewrite HR. now rewrite u64_small by lia.
  - unfold lexer_ok, size. cbn [view index]. lia.
  - unfold remaining. cbn [view index]. replace (Z.to_nat (index l + 1)) with (Z.to_nat (index l) + 1)%nat by lia.
    rewrite <- skipn_add. fold (remaining l). rewrite HR. reflexivity.
  - reflexivity.
Qed.

Lemma consume_if_next l cond : lexer_ok l -> consume_if l cond =
  match remaining l with
  | c :: _ => if cond c then Ok (Some c, Lexer (view l) (u64 (index l + 1))) else Ok (None, l)
  | [] => Ok (None, l)
  end.
Proof.
  intros HO. unfold consume_if. rewrite peek_here by assumption. cbn [bind].
  destruct (remaining l) as [|c r] eqn:ER; [reflexivity|]. destruct (cond c); [|reflexivity].
  destruct (remaining_next l c r HO ER) as (-> & _). reflexivity.
Qed.

(** The general digit loop. *)
Fixpoint gloop (fuel : nat) (cond : Z -> bool) (f : Z -> Z -> Z) (l : lexer) (parsed : bool) (number : Z) : res (option Z * lexer) :=
  match fuel with
  | O => UB
  | S n =>
      let! (ch, l') := consume_if l cond in
      match ch with
      | None => Ok (if parsed then Some number else None, l')
      | Some c => gloop n cond f l' true (f number c)
      end
  end.
Lemma number_gloop fuel : forall l p n, number_loop fuel l p n = gloop fuel is_digit (fun number c => u64 (u64 (number * 10) + u64 (c - 48))) l p n.
Proof. induction fuel as [|f IH]; intros l p n; [reflexivity|]. cbn [number_loop gloop]. destruct (consume_if l is_digit) as [[[c|] l']|]; cbn [bind]; auto. Qed.
Lemma hex_gloop fuel t : forall l p n, hex_loop fuel t l p n = gloop fuel (is_x_digit t) (fun number c => u64 (u64 (number * 16) + hex_value c)) l p n.
Proof. induction fuel as [|f IH]; intros l p n; [reflexivity|]. cbn [hex_loop gloop]. destruct (consume_if l (is_x_digit t)) as [[[c|] l']|]; cbn [bind]; auto. Qed.

Fixpoint span (cond : Z -> bool) (s : list Z) : list Z * list Z :=
  match s with
  | c :: r => if cond c then let '(a, b) := span cond r in (c :: a, b) else ([], s)
  | [] => ([], [])
  end.
Lemma span_ok cond s : s = fst (span cond s) ++ snd (span cond s) /\ forallb cond (fst (span cond s)) = true /\
  match snd (span cond s) with c :: _ => cond c = false | [] => True end.
Proof.
  induction s as [|c r IH]; [repeat split|]. cbn [span]. destruct (cond c) eqn:E; [|cbn; auto].
  destruct (span cond r) as [a b]. cbn [fst snd] in *. destruct IH as (-> & IH2 & IH3). cbn [app forallb]. rewrite E. auto.
Qed.
Lemma span_unique cond pre : forall rest, forallb cond pre = true -> match rest with c :: _ => cond c = false | [] => True end ->
  span cond (pre ++ rest) = (pre, rest).
Proof.
  induction pre as [|c pre IH]; intros rest HF HR.
  - cbn [app]. destruct rest as [|c r]; [reflexivity|]. cbn [span]. now rewrite HR.
  - cbn [forallb] in HF. apply andb_true_iff in HF. destruct HF as [Hc HF]. cbn [app span]. rewrite Hc, IH by assumption. reflexivity.
Qed.

Lemma gloop_span cond f fuel : forall l p n, lexer_ok l -> (length (remaining l) < fuel)%nat ->
  exists l', gloop fuel cond f l p n =
    Ok (if p || negb (match fst (span cond (remaining l)) with [] => true | _ => false end)
        then Some (fold_left f (fst (span cond (remaining l))) n) else None, l') /\
    lexer_ok l' /\ view l' = view l /\ remaining l' = snd (span cond (remaining l)) /\
    index l' = index l + Z.of_nat (length (fst (span cond (remaining l)))).
Proof.
  induction fuel as [|fuel IH]; intros l p n HO Hf; [lia|]. cbn [gloop]. rewrite consume_if_next by assumption.
  destruct (remaining l) as [|c r] eqn:ER.
  - cbn [bind span fst snd fold_left length]. exists l. rewrite orb_false_r, Z.add_0_r. auto.
  - cbn [span]. destruct (cond c) eqn:EC.
    + destruct (remaining_next l c r HO ER) as (_ & HO' & HR' & HI').
      cbn [bind]. set (l1 := Lexer (view l) (u64 (index l + 1))) in *.
      destruct (IH l1 true (f n c) HO' ltac:(rewrite HR'; cbn [length] in Hf; lia)) as (l' & E & HO2 & HV & HR2 & HI2).
      rewrite HR' in *. exists l'. destruct (span cond r) as [a b]. cbn [fst snd fold_left length orb negb] in *.
      rewrite orb_true_r. split; [exact E|]. repeat split; try apply HO2; auto. rewrite HI2, HI'. lia.
    + cbn [bind fst snd fold_left length]. exists l. rewrite orb_false_r, Z.add_0_r. auto.
Qed.

Lemma fold_wrap base (val : Z -> Z) s : forall a,
  fold_left (fun n c => u64 (u64 (n * base) + val c)) s (u64 a) = u64 (fold_left (fun n c => n * base + val c) s a).
Proof.
  induction s as [|c s IH]; intros a; [reflexivity|]. cbn [fold_left]. rewrite <- IH. f_equal.
  unfold u64, wrap. rewrite Zplus_mod_idemp_l. rewrite <- Zplus_mod_idemp_l. rewrite Zmult_mod_idemp_l. now rewrite Zplus_mod_idemp_l.
Qed.

Lemma fold_ext_in {A} (f g : Z -> A -> Z) s : (forall n c, In c s -> f n c = g n c) -> forall a, fold_left f s a = fold_left g s a.
Proof.
  induction s as [|c s IH]; intros H a; [reflexivity|]. cbn [fold_left]. rewrite (H a c) by now left.
  apply IH. intros; apply H; now right.
Qed.

Definition chars_ok (t : ctype) (l : lexer) : Prop := Forall (fun c => char_ok t c /\ 0 <= c) (view l).

Lemma skipn_forall {A} (P : A -> Prop) n (l : list A) : Forall P l -> Forall P (skipn n l).
Proof. intros H. rewrite <- (firstn_skipn n l) in H. now apply Forall_app in H. Qed.

(** consume_number takes exactly the maximal run of decimal digits at the current position and
    returns its value (modulo 2^64); without a digit it returns nothing and does not move. *)
Theorem consume_number_exact_partial : forall t l, In t ctypes -> lexer_ok l -> chars_ok t l ->
  exists pre rest l', is_run ascii_digit (remaining l) pre rest /\
    consume_number l = Ok (if match pre with [] => true | _ => false end then None else Some (number 10 pre mod 2 ^ 64), l') /\
    lexer_ok l' /\ view l' = view l /\ remaining l' = rest /\ index l' = index l + Z.of_nat (length pre).
Proof.
  intros t l Ht HO HC. unfold consume_number. rewrite number_gloop.
  destruct (gloop_span is_digit (fun number c => u64 (u64 (number * 10) + u64 (c - 48))) (S (length (view l))) l false 0 HO) as (l' & E & HO' & HV & HR & HI).
  { unfold remaining. rewrite skipn_length. lia. }
  destruct (span_ok is_digit (remaining l)) as (ES & HF & HL).
  assert (HCr : Forall (fun c => char_ok t c /\ 0 <= c) (remaining l)) by (now apply skipn_forall).
  set (pre := fst (span is_digit (remaining l))) in *. set (rest := snd (span is_digit (remaining l))) in *.
  rewrite ES in HCr. apply Forall_app in HCr. destruct HCr as [HC1 HC2].
  assert (HD : Forall ascii_digit pre).
  { rewrite forallb_forall in HF. rewrite Forall_forall in *. intros c Hc. destruct (HC1 c Hc) as [H1 H2].
    apply (digits_exact_partial t c Ht H1 H2). auto. }
  exists pre, rest, l'. split; [|split; [|auto]].
  - split; [exact ES|]. split; [exact HD|]. destruct rest as [|c r]; [exact I|].
    apply Forall_inv in HC2. destruct HC2 as [H1 H2]. intros HA. apply (digits_exact_partial t c Ht H1 H2) in HA. congruence.
  - rewrite E. cbn [orb]. destruct pre as [|c0 pre0] eqn:EP; [reflexivity|]. rewrite <- EP in *. cbn [negb]. do 3 f_equal.
    unfold number. change 0 with (u64 0) at 1.
    rewrite (fold_ext_in _ (fun n c => u64 (u64 (n * 10) + digit_value c))).
    { rewrite fold_wrap. reflexivity. }
    intros n c Hc. rewrite Forall_forall in HD. specialize (HD c Hc). unfold ascii_digit in HD.
    unfold digit_value. destruct (Z.leb_spec c 57); [|lia]. rewrite (u64_small (c - 48)); [reflexivity|].
    change (2 ^ 64) with 18446744073709551616. lia.
Qed.

Lemma hex_value_ok c : ascii_xdigit c -> hex_value c = digit_value c.
Proof.
  intros H. unfold ascii_xdigit, ascii_digit in H. unfold hex_value, digit_value. change (2 ^ 64) with 18446744073709551616 in *.
  rewrite !(u64_small c) by (change (2 ^ 64) with 18446744073709551616; lia).
  destruct (Z.leb_spec 65 c), (Z.leb_spec c 70), (Z.leb_spec 97 c), (Z.leb_spec c 102), (Z.leb_spec c 57); try lia; cbn [andb];
  rewrite ?(u64_small (c - 65)), ?(u64_small (c - 97)) by (change (2 ^ 64) with 18446744073709551616; lia);
  rewrite u64_small by (change (2 ^ 64) with 18446744073709551616; lia); lia.
Qed.

Theorem consume_hex_exact_partial : forall t l, In t ctypes -> lexer_ok l -> chars_ok t l ->
  exists pre rest l', is_run ascii_xdigit (remaining l) pre rest /\
    consume_hex_number t l = Ok (if match pre with [] => true | _ => false end then None else Some (number 16 pre mod 2 ^ 64), l') /\
    lexer_ok l' /\ view l' = view l /\ remaining l' = rest /\ index l' = index l + Z.of_nat (length pre).
Proof.
  intros t l Ht HO HC. unfold consume_hex_number. rewrite hex_gloop.
  destruct (gloop_span (is_x_digit t) (fun number c => u64 (u64 (number * 16) + hex_value c)) (S (length (view l))) l false 0 HO) as (l' & E & HO' & HV & HR & HI).
  { unfold remaining. rewrite skipn_length. lia. }
  destruct (span_ok (is_x_digit t) (remaining l)) as (ES & HF & HL).
  assert (HCr : Forall (fun c => char_ok t c /\ 0 <= c) (remaining l)) by (now apply skipn_forall).
  set (pre := fst (span (is_x_digit t) (remaining l))) in *. set (rest := snd (span (is_x_digit t) (remaining l))) in *.
  rewrite ES in HCr. apply Forall_app in HCr. destruct HCr as [HC1 HC2].
  assert (HD : Forall ascii_xdigit pre).
  { rewrite forallb_forall in HF. rewrite Forall_forall in *. intros c Hc. destruct (HC1 c Hc) as [H1 H2].
    apply (digits_exact_partial t c Ht H1 H2). auto. }
  exists pre, rest, l'. split; [|split; [|auto]].
  - split; [exact ES|]. split; [exact HD|]. destruct rest as [|c r]; [exact I|].
    apply Forall_inv in HC2. destruct HC2 as [H1 H2]. intros HA. apply (digits_exact_partial t c Ht H1 H2) in HA. congruence.
  - rewrite E. cbn [orb]. destruct pre as [|c0 pre0] eqn:EP; [reflexivity|]. rewrite <- EP in *. cbn [negb]. do 3 f_equal.
    unfold number. change 0 with (u64 0) at 1.
    rewrite (fold_ext_in _ (fun n c => u64 (u64 (n * 16) + digit_value c))).
    { rewrite fold_wrap. reflexivity. }
    intros n c Hc. rewrite Forall_forall in HD. now rewrite hex_value_ok by auto.
Qed.

(** consume takes the next character, and consume_if takes it exactly when it is the given one. *)
Theorem consume_exact : forall l ch, lexer_ok l ->
  match remaining l with
  | [] => consume l = (None, l) /\ consume_if_char l ch = Ok (false, l)
  | c :: rest => exists l', lexer_ok l' /\ view l' = view l /\ remaining l' = rest /\ index l' = index l + 1 /\
      consume l = (Some c, l') /\ (ch = c -> consume_if_char l ch = Ok (true, l')) /\ (ch <> c -> consume_if_char l ch = Ok (false, l))
  end.
Proof.
  intros l ch HO. pose proof (peek_here l HO) as HP. destruct (remaining l) as [|c rest] eqn:ER.
  - split; [|unfold consume_if_char; now rewrite HP]. unfold consume. unfold remaining in ER. apply (f_equal (@length Z)) in ER. rewrite skipn_length in ER. cbn [length] in ER. destruct HO as (H1 & H2). unfold size in *.
    destruct (Z.geb_spec (index l) (Z.of_nat (length (view l)))); [reflexivity|lia].
  - destruct (remaining_next l c rest HO ER) as (H1 & H2 & H3 & H4). cbn zeta in *. eexists. split; [exact H2|]. split; [reflexivity|]. split; [exact H3|]. split; [exact H4|]. split; [exact H1|].
    unfold consume_if_char. rewrite HP. cbn [bind]. destruct (Z.eqb_spec c ch) as [->|N]; split; intros E; try congruence.
Qed.

(** On every text (negative characters included) and from every position inside it, no lexer
    operation reaches undefined behaviour, and the position stays inside the text. *)
Theorem lexer_stays_inside : forall t l, lexer_ok l ->
  (exists o l', consume_number l = Ok (o, l') /\ lexer_ok l' /\ view l' = view l /\ index l <= index l') /\
  (exists o l', consume_hex_number t l = Ok (o, l') /\ lexer_ok l' /\ view l' = view l /\ index l <= index l') /\
  (let l' := snd (consume l) in lexer_ok l' /\ view l' = view l /\ index l <= index l') /\
  (forall ch, exists b l', consume_if_char l ch = Ok (b, l') /\ lexer_ok l' /\ view l' = view l /\ index l <= index l').
Proof.
  intros t l HO.
  assert (G : forall cond f, exists o l', gloop (S (length (view l))) cond f l false 0 = Ok (o, l') /\ lexer_ok l' /\ view l' = view l /\ index l <= index l').
  { intros cond f. destruct (gloop_span cond f (S (length (view l))) l false 0 HO) as (l' & E & HO' & HV & HR & HI).
    { unfold remaining. rewrite skipn_length. lia. }
    do 2 eexists. split; [exact E|]. split; [assumption|]. split; [assumption|]. lia. }
  split; [unfold consume_number; rewrite number_gloop; apply G|].
  split; [unfold consume_hex_number; rewrite hex_gloop; apply G|]. split.
  - cbv zeta. destruct (remaining l) as [|c r] eqn:ER.
    + assert (EC : consume l = (None, l)).
      { unfold consume. rewrite Z.geb_leb. destruct (Z.leb_spec (size l) (index l)); [reflexivity|].
        apply (f_equal (@length Z)) in ER. unfold remaining in ER. rewrite skipn_length in ER. cbn [length] in ER. destruct HO as [Hs Hi]. unfold size in *. lia. }
      rewrite EC. cbn [snd]. split; [assumption|]. split; [reflexivity|lia].
    + destruct (remaining_next l c r HO ER) as (-> & HO' & _ & HI). cbn [snd]. split; [assumption|]. split; [reflexivity|]. lia.
  - intros ch. unfold consume_if_char. rewrite peek_here by assumption. cbn [bind].
    destruct (remaining l) as [|c r] eqn:ER; [do 2 eexists; repeat split; try apply HO; lia|].
    destruct (c =? ch); [|do 2 eexists; repeat split; try apply HO; lia].
    destruct (remaining_next l c r HO ER) as (_ & HO' & _ & HI). do 2 eexists. split; [reflexivity|].
    split; [assumption|]. split; [reflexivity|lia].
Qed.

(** C21 as stated is false twice: a negative character is taken for a digit, and values from 2^64
    on are returned modulo 2^64. *)
Theorem consume_number_refuted :
  (* "5\xff": consumes both characters and returns 1 *)
  (exists l l', lexer_ok l /\ Forall (char_ok char_signed) (view l) /\ remaining l = [53; -1] /\ consume_number l = Ok (Some 1, l') /\ remaining l' = []) /\
  (* "18446744073709551617": returns 1 *)
  (exists l l', lexer_ok l /\ chars_ok char_signed l /\ number 10 (remaining l) = 2 ^ 64 + 1 /\ consume_number l = Ok (Some 1, l') /\ remaining l' = []).
Proof.
  split.
  - exists (Lexer [53; -1] 0), (Lexer [53; -1] 2). split; [unfold lexer_ok, size; cbn; lia|].
    split; [repeat (constructor; [unfold char_ok, in_range; cbn; lia|]); constructor|]. repeat split.
  - exists (Lexer [49;56;52;52;54;55;52;52;48;55;51;55;48;57;53;53;49;54;49;55] 0), (Lexer [49;56;52;52;54;55;52;52;48;55;51;55;48;57;53;53;49;54;49;55] 20).
    split; [unfold lexer_ok, size; cbn; lia|].
    split; [repeat (constructor; [unfold char_ok, in_range; cbn; lia|]); constructor|]. repeat split.
Qed.

(** peek with an offset: inside the text it is the character there, at or past the end nothing,
    as long as position + offset does not wrap around. *)
Theorem peek_exact : forall l offset, lexer_ok l -> 0 <= offset -> index l + offset < 2 ^ 64 ->
  peek l offset = Ok (nth_error (view l) (Z.to_nat (index l + offset))).
Proof.
  intros l o [Hs Hi] Ho Hlt. unfold peek. rewrite u64_small by lia. rewrite Z.eqb_refl, Z.geb_leb. unfold size in *.
  destruct (Z.leb_spec (Z.of_nat (length (view l))) (index l + o)).
  - assert (E : nth_error (view l) (Z.to_nat (index l + o)) = None) by (apply nth_error_None; lia). now rewrite E.
  - f_equal. generalize (Z.to_nat (index l + o)) (view l). induction n as [|n IH]; intros [|x v]; auto. cbn. apply IH.
Qed.

Example C21_case : let l := Lexer [49; 50; 97; 88] 0 in lexer_ok l /\ chars_ok char_signed l /\
  consume_number l = Ok (Some 12, Lexer [49; 50; 97; 88] 2) /\
  consume_hex_number char_signed l = Ok (Some 0x12a, Lexer [49; 50; 97; 88] 3) /\
  consume_number (Lexer [49; 50; 97; 88] 2) = Ok (None, Lexer [49; 50; 97; 88] 2).
Proof.
  split; [unfold lexer_ok, size; cbn; lia|].
  split; [repeat (constructor; [unfold char_ok, in_range; cbn; lia|]); constructor|]. repeat split.
Qed.

Print Assumptions classify_exact.
Print Assumptions to_upper_exact.
Print Assumptions to_lower_exact.
Print Assumptions digits_exact_partial.
Print Assumptions digits_exact_unsigned.
Print Assumptions digits_refuted.
Print Assumptions consume_number_exact_partial.
Print Assumptions consume_hex_exact_partial.
Print Assumptions lexer_stays_inside.
Print Assumptions consume_number_refuted.
Print Assumptions peek_exact.
