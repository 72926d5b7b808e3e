(** Proofs about the Unicode model. *)
From Verif Require Import Common Bits Unicode_Model Unicode_Spec.


(** * Finite facts about bytes *)
Lemma byte_forall (P : Z -> bool) : forallb P (map Z.of_nat (seq 0 256)) = true -> forall b, 0 <= b < 256 -> P b = true.
Proof.
  intros H b Hb. rewrite forallb_forall in H. apply H. apply in_map_iff. exists (Z.to_nat b). split; [lia|].
  apply in_seq. lia.
Qed.

Definition leading_class (b : Z) : option (Z * Z) :=
  if b <? 128 then Some (127, 1) else if b <? 192 then None else if b <? 224 then Some (31, 2)
  else if b <? 240 then Some (15, 3) else if b <? 248 then Some (7, 4) else None.
Lemma leading_ok sg b : 0 <= b < 256 ->
  find_leading (to_codepoint (U8 sg) b) s_utf8_leading_bytes = leading_class b.
Proof.
  intros Hb.
  set (eqo := fun (x y : option (Z * Z)) => match x, y with
      | Some (a, b), Some (c, d) => (a =? c) && (b =? d) | None, None => true | _, _ => false end).
  assert (H : eqo (find_leading (to_codepoint (U8 sg) b) s_utf8_leading_bytes) (leading_class b) = true).
  { apply (byte_forall (fun b => eqo (find_leading (to_codepoint (U8 sg) b) s_utf8_leading_bytes) (leading_class b))); [|assumption].
    destruct sg; vm_compute; reflexivity. }
  destruct (find_leading _ _) as [[x y]|], (leading_class b) as [[x' y']|]; cbn in H; try discriminate; try reflexivity.
  apply andb_true_iff in H. rewrite !Z.eqb_eq in H. destruct H; subst. reflexivity.
Qed.
Lemma leading_mask sg b cmask size : 0 <= b < 256 -> leading_class b = Some (cmask, size) ->
  Z.land (to_codepoint (U8 sg) b) cmask = b mod (cmask + 1).
Proof.
  intros Hb HC.
  assert (H : match leading_class b with Some (m, _) => Z.land (to_codepoint (U8 sg) b) m =? b mod (m + 1) | None => true end = true).
  { apply (byte_forall (fun b => match leading_class b with Some (m, _) => Z.land (to_codepoint (U8 sg) b) m =? b mod (m + 1) | None => true end)); [|assumption].
    destruct sg; vm_compute; reflexivity. }
  rewrite HC in H. now apply Z.eqb_eq.
Qed.
Lemma cont_mask sg b : 0 <= b < 256 ->
  (Z.land (to_codepoint (U8 sg) b) 192 =? 128) = ((128 <=? b) && (b <? 192)) /\
  Z.land (to_codepoint (U8 sg) b) 63 = b mod 64.
Proof.
  intros Hb.
  assert (H : Bool.eqb (Z.land (to_codepoint (U8 sg) b) 192 =? 128) ((128 <=? b) && (b <? 192)) &&
    (Z.land (to_codepoint (U8 sg) b) 63 =? b mod 64) = true).
  { apply (byte_forall (fun b => Bool.eqb (Z.land (to_codepoint (U8 sg) b) 192 =? 128) ((128 <=? b) && (b <? 192)) &&
    (Z.land (to_codepoint (U8 sg) b) 63 =? b mod 64))); [|assumption]. destruct sg; vm_compute; reflexivity. }
  apply andb_true_iff in H. destruct H as [H1 H2]. apply eqb_prop in H1. apply Z.eqb_eq in H2. auto.
Qed.

(** * Continuation bytes *)
Definition cont (b : Z) : Prop := 128 <= b < 192.

Lemma u32_small v : 0 <= v < 4294967296 -> u32 v = v.
Proof. intros. unfold u32, wrap. apply Z.mod_small. change (2 ^ 32) with 4294967296. lia. Qed.

Lemma cont_step sg n shift a b r : unit_ok (U8 sg) b -> 6 <= shift <= 18 ->
  continuation (U8 sg) (S n) shift (a * 2 ^ shift) (b :: r) =
  if (128 <=? b) && (b <? 192)
  then continuation (U8 sg) n (shift - 6) ((a * 64 + b mod 64) * 2 ^ (shift - 6)) r
  else (None, r).
Proof.
  intros Hb Hs. unfold unit_ok in Hb. cbn [width] in Hb. change (2 ^ 8) with 256 in Hb.
  cbn [continuation next_encoded_byte]. destruct (cont_mask sg b Hb) as [-> ->].
  destruct ((128 <=? b) && (b <? 192)); cbn [negb]; [|reflexivity]. f_equal.
  pose proof (Z.mod_pos_bound b 64 ltac:(lia)) as HM.
  pose proof (pow2_pos (shift - 6) ltac:(lia)) as PP.
  assert (P12 : 2 ^ (shift - 6) <= 2 ^ 12) by (apply Z.pow_le_mono_r; lia). change (2 ^ 12) with 4096 in P12.
  rewrite Z.shiftl_mul_pow2 by lia.
  assert (0 <= b mod 64 * 2 ^ (shift - 6) < 64 * 4097).
  { split; [apply Z.mul_nonneg_nonneg; lia|]. apply Z.mul_lt_mono_nonneg; lia. }
  rewrite u32_small by lia.
  assert (E : 2 ^ shift = 64 * 2 ^ (shift - 6)).
  { change 64 with (2 ^ 6). rewrite <- pow2_add by lia. f_equal. lia. }
  rewrite E. replace (a * (64 * 2 ^ (shift - 6))) with ((a * 64) * 2 ^ (shift - 6)) by lia.
  rewrite <- !Z.shiftl_mul_pow2 by lia. rewrite <- Z.shiftl_lor. rewrite !Z.shiftl_mul_pow2 by lia. f_equal.
  replace (a * 64) with (a * 2 ^ 6) by reflexivity. apply (lor_high_low _ _ 6); [lia|apply Z.mod_mul; lia|]. change (2 ^ 6) with 64. lia.
Qed.
Lemma cont_end sg n shift a : continuation (U8 sg) (S n) shift a [] = (None, []).
Proof. reflexivity. Qed.

Lemma continuation_short sg n shift a : (0 < n)%nat -> continuation (U8 sg) n shift a [] = (None, []).
Proof. destruct n; [lia|reflexivity]. Qed.

(** The value assembled from a leading byte and continuation bytes. *)
Fixpoint conts (n : nat) (a : Z) (it : list Z) : option (Z * list Z) :=
  match n, it with
  | O, _ => Some (a, it)
  | S n', b :: r => if (128 <=? b) && (b <? 192) then conts n' (a * 64 + b mod 64) r else None
  | S _, [] => None
  end.

Lemma continuation_conts sg : forall n shift a it, Forall (unit_ok (U8 sg)) it ->
  shift = 6 * Z.of_nat n -> shift <= 18 ->
  match conts n a it with
  | Some (v, r) => continuation (U8 sg) n shift (a * 2 ^ shift) it = (Some v, r)
  | None => fst (continuation (U8 sg) n shift (a * 2 ^ shift) it) = None
  end.
Proof.
  induction n as [|n IH]; intros shift a it HF -> Hs; cbn [conts].
  - cbn [continuation]. change (6 * Z.of_nat 0) with 0. now rewrite Z.mul_1_r.
  - destruct it as [|b r]; [reflexivity|]. inversion HF as [|? ? Hb HF']; subst.
    rewrite cont_step by (assumption || lia).
    destruct ((128 <=? b) && (b <? 192)); [|reflexivity].
    replace (6 * Z.of_nat (S n) - 6) with (6 * Z.of_nat n) by lia. apply IH; auto; lia.
Qed.

(** ** Decoding one UTF-8 sequence *)
Definition lead_bits (n : nat) (b : Z) : Z := match n with 1%nat => b mod 32 | 2%nat => b mod 16 | _ => b mod 8 end.

Definition min_for (n : nat) : Z := match n with 1%nat => 0x80 | 2%nat => 0x800 | _ => 0x10000 end.

Definition dec8 (it : list Z) : option (Z * list Z) :=
  match it with
  | [] => None
  | b :: r =>
      if b <? 128 then Some (b, r) else if b <? 192 then None
      else if b <? 248 then
        let n := if b <? 224 then 1%nat else if b <? 240 then 2%nat else 3%nat in
        match conts n (lead_bits n b) r with
        | Some (v, r') => if v <? min_for n then None else Some (v, r')
        | None => None
        end
      else None
  end.

Lemma conts_bound n : forall a it v r, conts n a it = Some (v, r) ->
  a * 64 ^ Z.of_nat n <= v < (a + 1) * 64 ^ Z.of_nat n.
Proof.
  induction n as [|n IH]; intros a it v r H; cbn [conts] in H.
  - injection H as <- <-. change (64 ^ Z.of_nat 0) with 1. lia.
  - destruct it as [|b it]; [discriminate|]. destruct ((128 <=? b) && (b <? 192)); [|discriminate].
    apply IH in H. rewrite Nat2Z.inj_succ, Z.pow_succ_r by lia.
    pose proof (Z.mod_pos_bound b 64 ltac:(lia)) as HM.
    assert (HP : 0 < 64 ^ Z.of_nat n) by (apply Z.pow_pos_nonneg; lia).
    set (P := 64 ^ Z.of_nat n) in *. clearbody P. set (m := b mod 64) in *. clearbody m.
    assert (a * (64 * P) <= (a * 64 + m) * P) by (rewrite Z.mul_assoc; apply Z.mul_le_mono_nonneg_r; lia).
    assert ((a * 64 + m + 1) * P <= (a + 1) * (64 * P)) by (rewrite Z.mul_assoc; apply Z.mul_le_mono_nonneg_r; lia).
    lia.
Qed.

Ltac zb := repeat match goal with
  | |- context [?a <? ?b] => destruct (Z.ltb_spec a b); try lia
  | |- context [?a >=? ?b] => rewrite (Z.geb_leb a b)
  | |- context [?a >? ?b] => rewrite (Z.gtb_ltb a b)
  | |- context [?a <=? ?b] => destruct (Z.leb_spec a b); try lia
  | |- context [?a =? ?b] => destruct (Z.eqb_spec a b); try lia
  end.

Lemma from_string8 sg it : Forall (unit_ok (U8 sg)) it ->
  match dec8 it with
  | Some (v, r') => codepoint_from_string8 (U8 sg) it = (v, r')
  | None => fst (codepoint_from_string8 (U8 sg) it) = s_invalid_codepoint
  end.
Proof.
  intros HF. destruct it as [|b r]; [reflexivity|]. inversion HF as [|? ? Hb HF']; subst.
  assert (Hb' : 0 <= b < 256) by exact Hb.
  unfold codepoint_from_string8. cbn [next_encoded_byte]. rewrite leading_ok by assumption.
  pose proof (fun c s => leading_mask sg b c s Hb') as HM.
  unfold dec8, leading_class in *.
  destruct (Z.ltb_spec b 128) as [H1|H1].
  { rewrite (HM 127 1 eq_refl). change (127 + 1) with 128. rewrite Z.mod_small by lia.
    change (Z.to_nat (1 - 1)) with 0%nat. change (6 * (1 - 1)) with 0. rewrite Z.shiftl_0_r.
    cbn [continuation]. rewrite u32_small by lia. zb. reflexivity. }
  destruct (Z.ltb_spec b 192) as [H2|H2]; [reflexivity|].
  destruct (Z.ltb_spec b 248) as [H5|H5].
  2:{ zb. reflexivity. }
  assert (G : forall n cmask, (1 <= n <= 3)%nat -> 
     (if b <? 224 then Some (31, 2) else if b <? 240 then Some (15, 3) else Some (7, 4)) = Some (cmask, Z.of_nat n + 1) ->
     b mod (cmask + 1) = lead_bits n b ->
     match conts n (lead_bits n b) r with
     | Some (v, r') => continuation (U8 sg) n (6 * Z.of_nat n) (u32 (Z.shiftl (Z.land (to_codepoint (U8 sg) b) cmask) (6 * Z.of_nat n))) r = (Some v, r')
     | None => fst (continuation (U8 sg) n (6 * Z.of_nat n) (u32 (Z.shiftl (Z.land (to_codepoint (U8 sg) b) cmask) (6 * Z.of_nat n))) r) = None
     end).
  { intros n cmask Hn HC HL. rewrite (HM _ _ HC), HL. rewrite Z.shiftl_mul_pow2 by lia.
    rewrite u32_small. { apply continuation_conts; auto; lia. }
    pose proof (pow2_pos (6 * Z.of_nat n) ltac:(lia)).
    assert (2 ^ (6 * Z.of_nat n) <= 2 ^ 18) by (apply Z.pow_le_mono_r; lia). change (2 ^ 18) with 262144 in *.
    assert (0 <= lead_bits n b < 32).
    { unfold lead_bits. destruct n as [|[|[|]]]; [|pose proof (Z.mod_pos_bound b 32 ltac:(lia))|pose proof (Z.mod_pos_bound b 16 ltac:(lia))|pose proof (Z.mod_pos_bound b 8 ltac:(lia))]; lia. }
    split; [apply Z.mul_nonneg_nonneg; lia|].
    eapply Z.le_lt_trans; [apply Z.mul_le_mono_nonneg with (m := 32) (q := 262144); lia|]. lia. }
  destruct (Z.ltb_spec b 224) as [H3|H3]; [|destruct (Z.ltb_spec b 240) as [H4|H4]].
  - specialize (G 1%nat 31 ltac:(lia) eq_refl eq_refl).
    change (Z.to_nat (2 - 1)) with 1%nat. change (6 * (2 - 1)) with (6 * Z.of_nat 1).
    destruct (conts 1 (lead_bits 1 b) r) as [[v r']|] eqn:EC.
    + rewrite G. apply conts_bound in EC. change (64 ^ Z.of_nat 1) with 64 in EC.
      pose proof (Z.mod_pos_bound b 32 ltac:(lia)). cbn [lead_bits min_for] in *.
      destruct (Z.ltb_spec v 0x80); zb; reflexivity.
    + destruct (continuation _ _ _ _ _) as [o i]. cbn [fst] in G. subst o. reflexivity.
  - specialize (G 2%nat 15 ltac:(lia) eq_refl eq_refl).
    change (Z.to_nat (3 - 1)) with 2%nat. change (6 * (3 - 1)) with (6 * Z.of_nat 2).
    destruct (conts 2 (lead_bits 2 b) r) as [[v r']|] eqn:EC.
    + rewrite G. apply conts_bound in EC. change (64 ^ Z.of_nat 2) with 4096 in EC.
      pose proof (Z.mod_pos_bound b 16 ltac:(lia)). cbn [lead_bits min_for] in *.
      destruct (Z.ltb_spec v 0x800); zb; reflexivity.
    + destruct (continuation _ _ _ _ _) as [o i]. cbn [fst] in G. subst o. reflexivity.
  - specialize (G 3%nat 7 ltac:(lia) eq_refl eq_refl).
    change (Z.to_nat (4 - 1)) with 3%nat. change (6 * (4 - 1)) with (6 * Z.of_nat 3).
    destruct (conts 3 (lead_bits 3 b) r) as [[v r']|] eqn:EC.
    + rewrite G. apply conts_bound in EC. change (64 ^ Z.of_nat 3) with 262144 in EC.
      pose proof (Z.mod_pos_bound b 8 ltac:(lia)). cbn [lead_bits min_for] in *.
      destruct (Z.ltb_spec v 0x10000); zb; reflexivity.
    + destruct (continuation _ _ _ _ _) as [o i]. cbn [fst] in G. subst o. reflexivity.
Qed.

Lemma mod_off m k x : 0 <= x < m -> (m * k + x) mod m = x.
Proof. intros. rewrite Z.mul_comm, Z.add_comm, Z.mod_add by lia. apply Z.mod_small. lia. Qed.
Lemma split3 c : c = (c / 4096 * 64 + c / 64 mod 64) * 64 + c mod 64.
Proof. dlia. Qed.
Lemma split4 c : c = ((c / 262144 * 64 + c / 4096 mod 64) * 64 + c / 64 mod 64) * 64 + c mod 64.
Proof. dlia. Qed.

Lemma dec8_1 b r : 0 <= b < 128 -> dec8 (b :: r) = Some (b, r).
Proof. intros. unfold dec8. destruct (Z.ltb_spec b 128); [reflexivity|lia]. Qed.
Lemma dec8_2 h x r : 0 <= h < 32 -> 0 <= x < 64 -> 128 <= h * 64 + x ->
  dec8 (192 + h :: 128 + x :: r) = Some (h * 64 + x, r).
Proof.
  intros. unfold dec8. zb. cbn [conts lead_bits min_for]. zb. cbn [andb].
  change (192 + h) with (32 * 6 + h). change (128 + x) with (64 * 2 + x). rewrite !mod_off by lia. zb. reflexivity.
Qed.
Lemma dec8_3 h y x r : 0 <= h < 16 -> 0 <= y < 64 -> 0 <= x < 64 -> 0x800 <= (h * 64 + y) * 64 + x ->
  dec8 (224 + h :: 128 + y :: 128 + x :: r) = Some ((h * 64 + y) * 64 + x, r).
Proof.
  intros. unfold dec8. zb. cbn [conts lead_bits min_for]. zb. cbn [andb].
  change (224 + h) with (16 * 14 + h). change (128 + x) with (64 * 2 + x). change (128 + y) with (64 * 2 + y).
  rewrite !mod_off by lia. zb. reflexivity.
Qed.
Lemma dec8_4 h z y x r : 0 <= h < 8 -> 0 <= z < 64 -> 0 <= y < 64 -> 0 <= x < 64 ->
  0x10000 <= ((h * 64 + z) * 64 + y) * 64 + x ->
  dec8 (240 + h :: 128 + z :: 128 + y :: 128 + x :: r) = Some (((h * 64 + z) * 64 + y) * 64 + x, r).
Proof.
  intros. unfold dec8. zb. cbn [conts lead_bits min_for]. zb. cbn [andb].
  change (240 + h) with (8 * 30 + h). change (128 + x) with (64 * 2 + x). change (128 + y) with (64 * 2 + y).
  change (128 + z) with (64 * 2 + z). rewrite !mod_off by lia. zb. reflexivity.
Qed.

Lemma dec8_utf8 c r : 0 <= c <= 0x10ffff -> dec8 (utf8 c ++ r) = Some (c, r).
Proof.
  intros Hc. unfold utf8.
  destruct (Z.ltb_spec c 0x80); [apply dec8_1; lia|].
  destruct (Z.ltb_spec c 0x800); [|destruct (Z.ltb_spec c 0x10000)]; cbn [app].
  - rewrite dec8_2; [do 2 f_equal; dlia|dlia..].
  - rewrite dec8_3; [now rewrite <- split3|dlia|apply Z.mod_pos_bound; lia..|rewrite <- split3; lia].
  - rewrite dec8_4; [now rewrite <- split4|dlia|apply Z.mod_pos_bound; lia..|rewrite <- split4; lia].
Qed.

Lemma utf8_dec8 it c r : Forall (fun u => 0 <= u < 256) it -> dec8 it = Some (c, r) ->
  0 <= c < 2097152 /\ it = utf8 c ++ r.
Proof.
  intros HF H. destruct it as [|b it]; [discriminate|]. unfold dec8 in H.
  apply Forall_inv in HF.
  destruct (Z.ltb_spec b 128).
  { injection H as <- <-. split; [lia|]. unfold utf8. zb. reflexivity. }
  destruct (Z.ltb_spec b 192); [discriminate|]. destruct (Z.ltb_spec b 248); [|discriminate].
  destruct (Z.ltb_spec b 224); [|destruct (Z.ltb_spec b 240)]; cbn [conts lead_bits min_for] in H.
  - destruct it as [|b0 it]; [discriminate|].
    destruct (Z.leb_spec 128 b0), (Z.ltb_spec b0 192); cbn [andb] in H; try discriminate.
    match type of H with (if ?v <? _ then _ else _) = _ => set (w := v) in *; destruct (Z.ltb_spec w 128); [discriminate|] end.
    injection H as <- <-. split; [subst w; dlia|].
    unfold utf8. replace (w <? 128) with false by (symmetry; apply Z.ltb_ge; lia).
    replace (w <? 2048) with true by (symmetry; apply Z.ltb_lt; subst w; dlia).
    cbn [app]. subst w. f_equal; [dlia|]. f_equal. dlia.
  - destruct it as [|b1 [|b0 it]]; [discriminate|..].
    { destruct ((128 <=? b1) && (b1 <? 192)); discriminate. }
    destruct (Z.leb_spec 128 b1), (Z.ltb_spec b1 192); cbn [andb] in H; try discriminate.
    destruct (Z.leb_spec 128 b0), (Z.ltb_spec b0 192); cbn [andb] in H; try discriminate.
    match type of H with (if ?v <? _ then _ else _) = _ => set (w := v) in *; destruct (Z.ltb_spec w 2048); [discriminate|] end.
    injection H as <- <-.
    assert (E : w = (b - 224) * 4096 + (b1 - 128) * 64 + (b0 - 128)) by (subst w; dlia). clearbody w.
    split; [lia|]. unfold utf8.
    replace (w <? 128) with false by (symmetry; apply Z.ltb_ge; lia).
    replace (w <? 2048) with false by (symmetry; apply Z.ltb_ge; lia).
    replace (w <? 65536) with true by (symmetry; apply Z.ltb_lt; lia).
    cbn [app]. f_equal; [dlia|]. f_equal; [dlia|]. f_equal. dlia.
  - destruct it as [|b2 [|b1 [|b0 it]]]; [discriminate|..].
    { destruct ((128 <=? b2) && (b2 <? 192)); discriminate. }
    { destruct ((128 <=? b2) && (b2 <? 192)); [|discriminate]. destruct ((128 <=? b1) && (b1 <? 192)); discriminate. }
    destruct (Z.leb_spec 128 b2), (Z.ltb_spec b2 192); cbn [andb] in H; try discriminate.
    destruct (Z.leb_spec 128 b1), (Z.ltb_spec b1 192); cbn [andb] in H; try discriminate.
    destruct (Z.leb_spec 128 b0), (Z.ltb_spec b0 192); cbn [andb] in H; try discriminate.
    match type of H with (if ?v <? _ then _ else _) = _ => set (w := v) in *; destruct (Z.ltb_spec w 65536); [discriminate|] end.
    injection H as <- <-.
    assert (E : w = (b - 240) * 262144 + (b2 - 128) * 4096 + (b1 - 128) * 64 + (b0 - 128)) by (subst w; dlia). clearbody w.
    split; [lia|]. unfold utf8.
    replace (w <? 128) with false by (symmetry; apply Z.ltb_ge; lia).
    replace (w <? 2048) with false by (symmetry; apply Z.ltb_ge; lia).
    replace (w <? 65536) with false by (symmetry; apply Z.ltb_ge; lia).
    cbn [app]. f_equal; [dlia|]. f_equal; [dlia|]. f_equal; [dlia|]. f_equal. dlia.
Qed.

Lemma some_pair {A B} (a c : A) (b d : B) : Some (a, b) = Some (c, d) -> a = c /\ b = d.
Proof. intros H. injection H. auto. Qed.

(** ** Decoding one UTF-16 sequence *)
Definition dec16 (it : list Z) : option (Z * list Z) :=
  match it with
  | [] => None
  | h :: r =>
      if (0xd800 <=? h) && (h <=? 0xdbff) then
        match r with
        | l :: r' => if (0xdc00 <=? l) && (l <=? 0xdfff) then Some (0x10000 + (h - 0xd800) * 1024 + (l - 0xdc00), r') else None
        | [] => None
        end
      else if (0xdc00 <=? h) && (h <=? 0xdfff) then None else Some (h, r)
  end.

Lemma surrogates_ok h l : 0xd800 <= h <= 0xdbff -> 0xdc00 <= l <= 0xdfff ->
  u32 (u32 (Z.shiftl h 10) + l - 0x35fdc00) = 0x10000 + (h - 0xd800) * 1024 + (l - 0xdc00).
Proof.
  intros Hh Hl. rewrite Z.shiftl_mul_pow2 by lia. change (2 ^ 10) with 1024.
  rewrite (u32_small (h * 1024)) by lia. rewrite u32_small by lia. lia.
Qed.

Lemma from_string16 it :
  match dec16 it with
  | Some (v, r') => codepoint_from_string U16 it = (v, r')
  | None => fst (codepoint_from_string U16 it) = s_invalid_codepoint
  end.
Proof.
  destruct it as [|h r]; [reflexivity|].
  unfold codepoint_from_string, create_codepoint_from_surrogates, dec16. cbn [next_encoded_byte to_codepoint].
  unfold is_high_surrogate, is_low_surrogate, s_high_surrogate_min, s_high_surrogate_max, s_low_surrogate_min, s_low_surrogate_max.
  rewrite !Z.geb_leb.
  destruct ((0xd800 <=? h) && (h <=? 0xdbff)) eqn:EH.
  - destruct r as [|l r']; [reflexivity|]. cbn [next_encoded_byte to_codepoint]. rewrite !Z.geb_leb.
    destruct ((0xdc00 <=? l) && (l <=? 0xdfff)) eqn:EL; [|reflexivity].
    apply andb_true_iff in EH, EL. rewrite !Z.leb_le in EH, EL. now rewrite surrogates_ok.
  - destruct ((0xdc00 <=? h) && (h <=? 0xdfff)); reflexivity.
Qed.

Lemma dec16_utf16 c r : scalar c -> dec16 (utf16 c ++ r) = Some (c, r).
Proof.
  intros Hc. unfold scalar in Hc. unfold utf16. destruct (Z.ltb_spec c 0x10000); cbn [app]; unfold dec16.
  - zb; reflexivity.
  - pose proof (Z.mod_pos_bound (c - 65536) 1024 ltac:(lia)).
    assert (0 <= (c - 65536) / 1024 < 1024) by dlia.
    zb. cbn [andb]. do 2 f_equal. dlia.
Qed.

Lemma utf16_dec16 it c r : Forall (fun u => 0 <= u < 65536) it -> dec16 it = Some (c, r) ->
  scalar c /\ it = utf16 c ++ r.
Proof.
  intros HF H. destruct it as [|h it]; [discriminate|]. apply Forall_inv in HF. unfold dec16 in H. unfold scalar.
  destruct (Z.leb_spec 0xd800 h), (Z.leb_spec h 0xdbff); cbn [andb] in H.
  1:{ destruct it as [|l it]; [discriminate|].
      destruct (Z.leb_spec 0xdc00 l), (Z.leb_spec l 0xdfff); cbn [andb] in H; try discriminate.
      apply some_pair in H. destruct H as [E <-].
      assert (HB : 65536 <= c <= 0x10ffff) by lia.
      split; [right; lia|]. unfold utf16.
      destruct (Z.ltb_spec c 65536); [lia|]. cbn [app].
      assert (Q : (c - 65536) / 1024 = h - 0xd800) by (symmetry; apply Z.div_unique with (l - 0xdc00); lia).
      assert (R : (c - 65536) mod 1024 = l - 0xdc00) by (symmetry; apply Z.mod_unique with (h - 0xd800); lia).
      rewrite Q, R. f_equal; [lia|]. f_equal. lia. }
  all: destruct (Z.leb_spec 0xdc00 h), (Z.leb_spec h 0xdfff); cbn [andb] in H; try discriminate; try lia;
    injection H as <- <-; (split; [lia|]); unfold utf16; zb; reflexivity.
Qed.

(** * One code point, all encodings *)
Lemma validate_scalar c : 0 <= c -> validate_codepoint c = true <-> scalar c.
Proof.
  intros Hc. unfold validate_codepoint, scalar, s_high_surrogate_min, s_low_surrogate_max, s_max_codepoint.
  zb; cbn [andb]; (split; [discriminate || lia|lia || reflexivity]).
Qed.
Lemma validate_scalar_false c : 0 <= c -> ~ scalar c -> validate_codepoint c = false.
Proof. intros Hc H. apply not_true_is_false. now rewrite validate_scalar. Qed.


Lemma decode_form e c r : units_ok e r -> scalar c -> units_ok e (form e c) ->
  decode_codepoint e (form e c ++ r) = (Some c, r).
Proof.
  intros Hr Hc Hf. assert (Hcn : 0 <= c) by (unfold scalar in Hc; lia). unfold decode_codepoint.
  assert (E : codepoint_from_string e (form e c ++ r) = (c, r)).
  { destruct e as [sg| |].
    - assert (HU : Forall (unit_ok (U8 sg)) (utf8 c ++ r)) by (apply Forall_app; auto).
      pose proof (from_string8 sg _ HU) as H. rewrite dec8_utf8 in H by (unfold scalar in Hc; lia). exact H.
    - pose proof (from_string16 (utf16 c ++ r)) as H. rewrite dec16_utf16 in H by assumption. exact H.
    - reflexivity. }
  rewrite E. apply validate_scalar in Hc; [|assumption]. now rewrite Hc.
Qed.

Lemma form_units e c : scalar c -> units_ok e (form e c).
Proof.
  intros Hc. unfold scalar in Hc. unfold units_ok, unit_ok. destruct e as [sg| |]; cbn [form width].
  - change (2 ^ 8) with 256. unfold utf8.
    pose proof (Z.mod_pos_bound c 64 ltac:(lia)). pose proof (Z.mod_pos_bound (c / 64) 64 ltac:(lia)).
    pose proof (Z.mod_pos_bound (c / 4096) 64 ltac:(lia)).
    destruct (Z.ltb_spec c 0x80); [|destruct (Z.ltb_spec c 0x800); [|destruct (Z.ltb_spec c 0x10000)]];
      repeat (constructor; [try lia; dlia|]); constructor.
  - change (2 ^ 16) with 65536. unfold utf16. pose proof (Z.mod_pos_bound (c - 65536) 1024 ltac:(lia)).
    destruct (Z.ltb_spec c 0x10000); repeat (constructor; [try lia; dlia|]); constructor.
  - change (2 ^ 32) with 4294967296. unfold utf32. constructor; [lia|constructor].
Qed.

Lemma form_nonempty e c : form e c <> [].
Proof.
  destruct e; cbn [form]; unfold utf8, utf16, utf32.
  - destruct (c <? 128); [discriminate|]. destruct (c <? 2048); [discriminate|]. destruct (c <? 65536); discriminate.
  - destruct (c <? 65536); discriminate.
  - discriminate.
Qed.

Lemma decode_sound e it c r : units_ok e it -> decode_codepoint e it = (Some c, r) ->
  scalar c /\ it = form e c ++ r.
Proof.
  intros Hu H. unfold decode_codepoint in H. destruct (codepoint_from_string e it) as [v i] eqn:E.
  destruct (validate_codepoint v) eqn:EV; [|discriminate]. injection H as -> ->.
  assert (HI : validate_codepoint s_invalid_codepoint = false) by reflexivity.
  destruct e as [sg| |].
  - pose proof (from_string8 sg it Hu) as H. cbn [codepoint_from_string] in E. rewrite E in H.
    destruct (dec8 it) as [[v' r']|] eqn:ED; [|cbn [fst] in H; subst c; congruence].
    injection H as -> ->. apply utf8_dec8 in ED; [|exact Hu]. destruct ED as [HB HE].
    split; [apply validate_scalar; [lia|assumption]|assumption].
  - pose proof (from_string16 it) as H. rewrite E in H.
    destruct (dec16 it) as [[v' r']|] eqn:ED; [|cbn [fst] in H; subst c; congruence].
    injection H as -> ->. apply utf16_dec16 in ED; [|exact Hu]. exact ED.
  - cbn [codepoint_from_string] in E. destruct it as [|u it]; cbn [next_encoded_byte] in E; injection E as <- <-; [discriminate|].
    apply Forall_inv in Hu. unfold unit_ok in Hu. cbn [to_codepoint] in *.
    split; [apply validate_scalar; [lia|assumption]|reflexivity].
Qed.

(** * Encoding *)
Lemma lor_add k base x : 0 <= k -> base mod 2 ^ k = 0 -> 0 <= x < 2 ^ k -> Z.lor base x = base + x.
Proof. intros. now apply (lor_high_low _ _ k). Qed.
Lemma to_unit8 sg v : 0 <= v < 256 -> to_unit (U8 sg) v = v.
Proof. intros. unfold to_unit, wrap. cbn [width]. change (2 ^ 8) with 256. now apply Z.mod_small. Qed.
Lemma to_unit16 v : 0 <= v < 65536 -> to_unit U16 v = v.
Proof. intros. unfold to_unit, wrap. cbn [width]. change (2 ^ 16) with 65536. now apply Z.mod_small. Qed.
Lemma land63 v : Z.land v 63 = v mod 64.
Proof. change 63 with (2 ^ 6 - 1). rewrite land_mask by lia. reflexivity. Qed.
Lemma cont_unit sg v : to_unit (U8 sg) (Z.lor 128 (Z.land v 63)) = 128 + v mod 64.
Proof.
  rewrite land63. pose proof (Z.mod_pos_bound v 64 ltac:(lia)).
  rewrite (lor_add 6) by (reflexivity || (change (2 ^ 6) with 64; lia) || lia). apply to_unit8. lia.
Qed.

Lemma encode_form e c : scalar c -> codepoint_to_string e c = form e c.
Proof.
  intros Hc. unfold scalar in Hc. destruct e as [sg| |]; cbn [codepoint_to_string form].
  - unfold utf8. rewrite !cont_unit, !Z.shiftr_div_pow2 by lia.
    change (2 ^ 6) with 64. change (2 ^ 12) with 4096. change (2 ^ 18) with 262144.
    destruct (Z.ltb_spec c 0x80); [rewrite to_unit8 by lia; reflexivity|].
    destruct (Z.ltb_spec c 0x800); [|destruct (Z.ltb_spec c 0x10000)].
    + assert (0 <= c / 64 < 32) by dlia.
      rewrite (lor_add 5) by (reflexivity || (change (2 ^ 5) with 32; lia) || lia). rewrite to_unit8 by lia. reflexivity.
    + assert (0 <= c / 4096 < 16) by dlia.
      rewrite (lor_add 4) by (reflexivity || (change (2 ^ 4) with 16; lia) || lia). rewrite to_unit8 by lia. reflexivity.
    + assert (0 <= c / 262144 < 8) by dlia.
      rewrite (lor_add 3) by (reflexivity || (change (2 ^ 3) with 8; lia) || lia). rewrite to_unit8 by lia. reflexivity.
  - unfold utf16. destruct (Z.ltb_spec c 0x10000); [rewrite to_unit16 by lia; reflexivity|].
    rewrite u32_small by lia. unfold s_high_surrogate_min, s_low_surrogate_min.
    change 0x3ff with (2 ^ 10 - 1). rewrite land_mask, Z.shiftr_div_pow2 by lia.
    change (2 ^ 10) with 1024. pose proof (Z.mod_pos_bound (c - 65536) 1024 ltac:(lia)).
    assert (0 <= (c - 65536) / 1024 < 1024) by dlia.
    rewrite !(lor_add 10) by (reflexivity || (change (2 ^ 10) with 1024; lia) || lia).
    rewrite !to_unit16 by lia. reflexivity.
  - unfold utf32, to_unit, wrap. cbn [width]. change (2 ^ 32) with 4294967296. now rewrite Z.mod_small by lia.
Qed.

(** * Whole strings *)
Lemma text_app form a b : text form (a ++ b) = text form a ++ text form b.
Proof. apply flat_map_app. Qed.
Lemma text_units e cs : Forall scalar cs -> units_ok e (text (form e) cs).
Proof.
  induction 1 as [|c cs Hc _ IH]; [constructor|]. cbn [text flat_map]. apply Forall_app. split; [now apply form_units|exact IH].
Qed.
Lemma text_length e cs : (length cs <= length (text (form e) cs))%nat.
Proof.
  induction cs as [|c cs IH]; [reflexivity|]. cbn [text flat_map length]. rewrite app_length.
  destruct (form e c) eqn:E; [now apply form_nonempty in E|]. cbn [length]. unfold text in IH. lia.
Qed.

Lemma app_cons_cases {A} (x : list A) y : x <> [] -> exists h t, x ++ y = h :: t.
Proof. destruct x as [|h t]; [congruence|]. intros _. now exists h, (t ++ y). Qed.

(** Recursion over a string code point by code point. *)
Section Walk.
  Context {R : Type} (e : enc) (step : Z -> R -> R) (nil bad : R).
  Fixpoint walk (fuel : nat) (it : list Z) : R :=
    match it, fuel with
    | [], _ => nil
    | _, O => bad
    | _, S fuel' => match decode_codepoint e it with (Some c, it') => step c (walk fuel' it') | (None, _) => bad end
    end.
  Lemma walk_text cs : forall fuel, Forall scalar cs -> (length (text (form e) cs) <= fuel)%nat ->
    walk fuel (text (form e) cs) = fold_right step nil cs.
  Proof.
    induction cs as [|c cs IH]; intros fuel HF Hl; [now destruct fuel|].
    inversion HF as [|? ? Hc HF']; subst. cbn [text flat_map] in *. rewrite app_length in Hl.
    assert (Hne : (0 < length (form e c))%nat) by (pose proof (form_nonempty e c); destruct (form e c); cbn; [congruence|lia]).
    destruct fuel as [|fuel]; [lia|].
    destruct (app_cons_cases (form e c) (flat_map (form e) cs) (form_nonempty e c)) as (h & t & E).
    pose proof (decode_form e c _ (text_units e cs HF') Hc (form_units e c Hc)) as HD. unfold text in HD.
    rewrite E in *. cbn [walk]. rewrite HD. cbn [fold_right]. f_equal. apply IH; [assumption|]. unfold text. lia.
  Qed.
  Lemma walk_cases fuel : forall it, units_ok e it -> (length it <= fuel)%nat ->
    (exists cs, Forall scalar cs /\ it = text (form e) cs /\ walk fuel it = fold_right step nil cs) \/
    (exists cs, Forall scalar cs /\ walk fuel it = fold_right step bad cs /\ ~ exists cs, Forall scalar cs /\ it = text (form e) cs).
  Proof.
    induction fuel as [|fuel IH]; intros it Hu Hl.
    - destruct it; [|cbn in Hl; lia]. left. exists []. repeat split; constructor.
    - destruct it as [|u it]; [left; exists []; repeat split; constructor|]. cbn [walk].
      destruct (decode_codepoint e (u :: it)) as [[c|] it'] eqn:ED.
      + apply decode_sound in ED; [|assumption]. destruct ED as [Hc E].
        assert (Hu' : units_ok e it') by (unfold units_ok in Hu; rewrite E in Hu; now apply Forall_app in Hu).
        assert (Hl' : (length it' <= fuel)%nat).
        { apply (f_equal (@length Z)) in E. rewrite app_length in E. cbn [length] in *.
          pose proof (form_nonempty e c). destruct (form e c); [congruence|cbn [length] in *; lia]. }
        destruct (IH it' Hu' Hl') as [(cs & HF & -> & ->)|(cs & HF & -> & Hno)].
        * left. exists (c :: cs). split; [now constructor|]. split; [exact E|reflexivity].
        * right. exists (c :: cs). split; [now constructor|]. split; [reflexivity|].
          intros (cs' & HF' & E'). destruct cs' as [|c' cs']; [discriminate|].
          inversion HF' as [|? ? Hc' HF'']; subst. apply Hno. exists cs'. split; [assumption|].
          pose proof (decode_form e c it' Hu' Hc (form_units e c Hc)) as D1. rewrite <- E in D1.
          pose proof (decode_form e c' _ (text_units e cs' HF'') Hc' (form_units e c' Hc')) as D2.
          change (form e c' ++ text (form e) cs') with (text (form e) (c' :: cs')) in D2. rewrite <- E' in D2.
          congruence.
      + right. exists []. split; [constructor|]. split; [reflexivity|].
        intros (cs' & HF' & E'). destruct cs' as [|c' cs']; [discriminate|].
        inversion HF' as [|? ? Hc' HF'']; subst.
        pose proof (decode_form e c' _ (text_units e cs' HF'') Hc' (form_units e c' Hc')) as D2.
        change (form e c' ++ text (form e) cs') with (text (form e) (c' :: cs')) in D2. rewrite <- E' in D2. congruence.
  Qed.
End Walk.

Lemma text_inj e a : forall b, Forall scalar a -> Forall scalar b -> text (form e) a = text (form e) b -> a = b.
Proof.
  intros b Ha Hb E.
  pose proof (walk_text e (@cons Z) [] [] a (length (text (form e) a)) Ha (le_n _)) as W1.
  pose proof (walk_text e (@cons Z) [] [] b (length (text (form e) b)) Hb (le_n _)) as W2.
  rewrite E in W1. assert (ID : forall l : list Z, fold_right cons [] l = l) by (induction l; cbn; congruence).
  rewrite ID in *. congruence.
Qed.

Lemma validate_walk e fuel : forall it, validate_encoding fuel e it = walk e (fun _ b => b) true false fuel it.
Proof.
  induction fuel as [|n IH]; intros [|u it]; try reflexivity. cbn [validate_encoding walk].
  destruct (decode_codepoint e (u :: it)) as [[c|] it']; [apply IH|reflexivity].
Qed.
Definition opt_app (f : Z -> list Z) (c : Z) (o : option (list Z)) : option (list Z) :=
  match o with Some out => Some (f c ++ out) | None => None end.
Lemma convert_walk from to fuel : forall it,
  convert_encoding_into fuel from to it = walk from (opt_app (codepoint_to_string to)) (Some []) None fuel it.
Proof.
  induction fuel as [|n IH]; intros [|u it]; try reflexivity. cbn [convert_encoding_into walk].
  destruct (decode_codepoint from (u :: it)) as [[c|] it']; [now rewrite IH|reflexivity].
Qed.
Lemma escape_walk e upper fuel : forall it,
  escape_all fuel e upper it = walk e (opt_app (escape_codepoint upper)) (Some []) None fuel it.
Proof.
  induction fuel as [|n IH]; intros [|u it]; try reflexivity. cbn [escape_all walk].
  destruct (decode_codepoint e (u :: it)) as [[c|] it']; [now rewrite IH|reflexivity].
Qed.
Lemma fold_opt_some f cs : fold_right (opt_app f) (Some []) cs = Some (flat_map f cs).
Proof. induction cs as [|c cs IH]; [reflexivity|]. cbn [fold_right flat_map]. now rewrite IH. Qed.
Lemma fold_opt_none f cs : fold_right (opt_app f) None cs = None.
Proof. induction cs as [|c cs IH]; [reflexivity|]. cbn [fold_right]. now rewrite IH. Qed.
Lemma flat_map_ext_forall {A B} (f g : A -> list B) (P : A -> Prop) l :
  (forall x, P x -> f x = g x) -> Forall P l -> flat_map f l = flat_map g l.
Proof. intros H. induction 1 as [|x l Hx _ IH]; [reflexivity|]. cbn [flat_map]. now rewrite IH, H. Qed.


Lemma validate_iff e it : units_ok e it -> validate e it = true <-> valid e it.
Proof.
  intros Hu. unfold validate. rewrite validate_walk.
  destruct (walk_cases e (fun _ b => b) true false (length it) it Hu (le_n _)) as [(cs & HF & E & W)|(cs & HF & W & N)]; rewrite W.
  - replace (fold_right (fun _ b => b) true cs) with true by (clear; induction cs; cbn; auto).
    split; [intros _; now exists cs|reflexivity].
  - replace (fold_right (fun _ b => b) false cs) with false by (clear; induction cs; cbn; auto).
    split; [discriminate|]. intros H. now apply N in H.
Qed.

Lemma convert_text from to cs : Forall scalar cs -> convert from to (text (form from) cs) = Some (text (form to) cs).
Proof.
  intros HF. unfold convert. rewrite convert_walk, walk_text by auto. rewrite fold_opt_some. f_equal.
  unfold text. eapply flat_map_ext_forall; [|exact HF]. intros; now apply encode_form.
Qed.
Lemma convert_invalid from to it : units_ok from it -> ~ valid from it -> convert from to it = None.
Proof.
  intros Hu Hn. unfold convert. rewrite convert_walk.
  destruct (walk_cases from (opt_app (codepoint_to_string to)) (Some []) None (length it) it Hu (le_n _)) as [(cs & HF & E & W)|(cs & HF & W & N)].
  - exfalso. apply Hn. now exists cs.
  - rewrite W. apply fold_opt_none.
Qed.
Lemma escape_text e upper cs : Forall scalar cs ->
  escape_all_codepoints e upper (text (form e) cs) = Some (flat_map (escape_codepoint upper) cs).
Proof. intros HF. unfold escape_all_codepoints. rewrite escape_walk, walk_text by auto. apply fold_opt_some. Qed.
Lemma escape_invalid e upper it : units_ok e it -> ~ valid e it -> escape_all_codepoints e upper it = None.
Proof.
  intros Hu Hn. unfold escape_all_codepoints. rewrite escape_walk.
  destruct (walk_cases e (opt_app (escape_codepoint upper)) (Some []) None (length it) it Hu (le_n _)) as [(cs & HF & E & W)|(cs & HF & W & N)].
  - exfalso. apply Hn. now exists cs.
  - rewrite W. apply fold_opt_none.
Qed.

(** * Escapes *)
Definition hexd (d : Z) : Z := nth (Z.to_nat d) s_digits 0.
Lemma hexd_cases d : 0 <= d < 16 -> (0 <= d < 10 /\ hexd d = 48 + d) \/ (10 <= d < 16 /\ hexd d = 87 + d).
Proof.
  intros H. unfold hexd.
  assert (HN : In d [0;1;2;3;4;5;6;7;8;9;10;11;12;13;14;15]) by (cbn [In]; lia).
  cbn [In] in HN. decompose [or] HN; subst; try contradiction; (left; split; [lia|reflexivity]) || (right; split; [lia|reflexivity]).
Qed.
Lemma hexd_printable d : 0 <= d < 16 -> printable (hexd d).
Proof. intros H. unfold printable. destruct (hexd_cases d H); lia. Qed.

Lemma to_hex_step n v : to_hex (S n) v = hexd (v / 16 ^ Z.of_nat n mod 16) :: to_hex n v.
Proof.
  cbn [to_hex]. unfold hexd. do 3 f_equal. change 15 with (2 ^ 4 - 1). rewrite land_mask, Z.shiftr_div_pow2 by lia.
  change (2 ^ 4) with 16. f_equal. f_equal. rewrite Z.pow_mul_r by lia. reflexivity.
Qed.
Lemma to_hex_printable n v : Forall printable (to_hex n v).
Proof.
  induction n as [|n IH]; [constructor|]. rewrite to_hex_step. constructor; [|assumption].
  apply hexd_printable, Z.mod_pos_bound. lia.
Qed.

Lemma u32_u32_add a b : u32 (u32 a + b) = u32 (a + b).
Proof. unfold u32, wrap. now rewrite Zplus_mod_idemp_l. Qed.

Lemma unescape_digit_step n acc d r : 0 <= d < 16 ->
  unescape_digits (S n) acc (hexd d :: r) = unescape_digits n (u32 (acc + d * 16 ^ Z.of_nat n)) r.
Proof.
  intros Hd. cbn [unescape_digits].
  assert (E : forall x, Z.shiftl x (4 * Z.of_nat n) = x * 16 ^ Z.of_nat n).
  { intros x. rewrite Z.shiftl_mul_pow2 by lia. f_equal. rewrite Z.pow_mul_r by lia. reflexivity. }
  rewrite !E. destruct (hexd_cases d Hd) as [[? ->]|[? ->]]; zb; cbn [andb]; do 4 f_equal; lia.
Qed.

Lemma unescape_to_hex n v r : forall acc, 
  unescape_digits n (u32 acc) (to_hex n v ++ r) = (u32 (acc + v mod 16 ^ Z.of_nat n), r).
Proof.
  induction n as [|n IH]; intros acc.
  - cbn [to_hex app unescape_digits]. rewrite Z.mod_1_r, Z.add_0_r. destruct r; reflexivity.
  - rewrite to_hex_step. cbn [app]. rewrite unescape_digit_step by (apply Z.mod_pos_bound; lia).
    rewrite u32_u32_add, IH. do 2 f_equal. rewrite Nat2Z.inj_succ, Z.pow_succ_r by lia.
    rewrite (Z.mul_comm 16), Z.rem_mul_r by (lia || (assert (0 < 16 ^ Z.of_nat n) by (apply Z.pow_pos_nonneg; lia); lia)). lia.
Qed.

Lemma unescape_u v r : 0 <= v < 65536 -> unescape_prefixed false (([92; 117] ++ to_hex 4 v) ++ r) = (v, r).
Proof.
  intros Hv. cbn [app]. unfold unescape_prefixed. change (negb (92 =? 92)) with false. change (negb (117 =? 117)) with false.
  cbv iota. change 0 with (u32 0) at 1. rewrite unescape_to_hex. change (16 ^ Z.of_nat 4) with 65536.
  rewrite Z.mod_small by lia. now rewrite u32_small by lia.
Qed.
Lemma unescape_U v r : 0 <= v < 4294967296 -> unescape_prefixed true (([92; 85] ++ to_hex 8 v) ++ r) = (v, r).
Proof.
  intros Hv. cbn [app]. unfold unescape_prefixed. change (negb (92 =? 92)) with false. change (negb (85 =? 85)) with false.
  cbv iota. change 0 with (u32 0) at 1. rewrite unescape_to_hex. change (16 ^ Z.of_nat 8) with 4294967296.
  rewrite Z.mod_small by lia. now rewrite u32_small by lia.
Qed.

Definition needs_escape (c : Z) : bool := (c <=? 0x1f) || (c >=? 0x7f).

Lemma escape_plain upper c : needs_escape c = false -> escape_codepoint upper c = [c].
Proof. intros H. unfold escape_codepoint. unfold needs_escape in H. now rewrite H. Qed.
Lemma plain_range c : needs_escape c = false -> 0x20 <= c <= 0x7e.
Proof. unfold needs_escape. intros H. apply orb_false_iff in H. rewrite Z.leb_gt, Z.geb_leb, Z.leb_gt in H. lia. Qed.
Lemma form_ascii e c : 0 <= c < 128 -> form e c = [c].
Proof. intros H. destruct e; cbn [form]; unfold utf8, utf16, utf32; zb; reflexivity. Qed.

Lemma surrogate_parts c : 0x10000 <= c <= 0x10ffff ->
  u32 (0xd7c0 + Z.shiftr c 10) = 0xd800 + (c - 0x10000) / 1024 /\ u32 (0xdc00 + Z.land c 0x3ff) = 0xdc00 + (c - 0x10000) mod 1024.
Proof.
  intros Hc. change 0x3ff with (2 ^ 10 - 1). rewrite land_mask, Z.shiftr_div_pow2 by lia. change (2 ^ 10) with 1024.
  pose proof (Z.mod_pos_bound c 1024 ltac:(lia)). assert (0 <= c / 1024 < 2048) by dlia.
  rewrite !u32_small by lia. split; dlia.
Qed.

(** The shape of an escaped code point, and what reading it back gives. *)
Lemma escape_read e upper c r : scalar c -> needs_escape c = true ->
  exists p t, escape_codepoint upper c ++ r = 92 :: p :: t /\ (p = 117 \/ p = 85) /\
    unescape_codepoint e (escape_codepoint upper c ++ r) = (Some (form e c), r).
Proof.
  intros Hc HN. pose proof Hc as HS. unfold scalar in HS.
  assert (HE : encode_codepoint e c = Some (form e c)).
  { unfold encode_codepoint. rewrite (proj2 (validate_scalar c ltac:(lia)) Hc). now rewrite encode_form. }
  unfold escape_codepoint. fold (needs_escape c). rewrite HN.
  destruct (Z.leb_spec c 0xffff).
  - exists 117, (to_hex 4 c ++ r). split; [reflexivity|]. split; [now left|].
    unfold unescape_codepoint. replace (escaped_with (([92; 117] ++ to_hex 4 c) ++ r) 117) with true by reflexivity.
    unfold create_codepoint_from_surrogates. rewrite unescape_u by lia.
    unfold is_high_surrogate, is_low_surrogate, s_high_surrogate_min, s_high_surrogate_max, s_low_surrogate_min, s_low_surrogate_max.
    replace ((c >=? 55296) && (c <=? 56319)) with false by (zb; reflexivity).
    replace ((c >=? 56320) && (c <=? 57343)) with false by (zb; reflexivity).
    now rewrite HE.
  - destruct upper.
    + exists 85, (to_hex 8 c ++ r). split; [reflexivity|]. split; [now right|].
      unfold unescape_codepoint. replace (escaped_with (([92; 85] ++ to_hex 8 c) ++ r) 117) with false by reflexivity.
      replace (escaped_with (([92; 85] ++ to_hex 8 c) ++ r) 85) with true by reflexivity.
      rewrite unescape_U by lia. now rewrite HE.
    + destruct (surrogate_parts c ltac:(lia)) as [-> ->].
      pose proof (Z.mod_pos_bound (c - 65536) 1024 ltac:(lia)) as HM. assert (HD : 0 <= (c - 65536) / 1024 < 1024) by dlia.
      assert (EC : c = 0x10000 + (0xd800 + (c - 65536) / 1024 - 0xd800) * 1024 + (0xdc00 + (c - 65536) mod 1024 - 0xdc00)) by dlia.
      set (h := 0xd800 + (c - 65536) / 1024) in *. set (l := 0xdc00 + (c - 65536) mod 1024) in *.
      assert (Hh : 0xd800 <= h <= 0xdbff) by (subst h; lia). assert (Hl : 0xdc00 <= l <= 0xdfff) by (subst l; lia).
      clearbody h l.
      exists 117, (to_hex 4 h ++ ([92; 117] ++ to_hex 4 l) ++ r).
      split; [rewrite <- app_assoc; reflexivity|]. split; [now left|]. rewrite <- app_assoc.
      unfold unescape_codepoint.
      replace (escaped_with (([92; 117] ++ to_hex 4 h) ++ ([92; 117] ++ to_hex 4 l) ++ r) 117) with true by reflexivity.
      unfold create_codepoint_from_surrogates. rewrite unescape_u by lia.
      unfold is_high_surrogate, is_low_surrogate, s_high_surrogate_min, s_high_surrogate_max, s_low_surrogate_min, s_low_surrogate_max.
      replace ((h >=? 55296) && (h <=? 56319)) with true by (zb; reflexivity).
      rewrite unescape_u by lia.
      replace ((l >=? 56320) && (l <=? 57343)) with true by (zb; reflexivity).
      rewrite surrogates_ok, <- EC by lia. now rewrite HE.
Qed.

Lemma escape_printable upper c : scalar c -> Forall printable (escape_codepoint upper c).
Proof.
  intros Hc. destruct (needs_escape c) eqn:EN.
  - unfold escape_codepoint. fold (needs_escape c). rewrite EN.
    assert (HP : forall p n v, printable p -> Forall printable ([92; p] ++ to_hex n v)).
    { intros p n v Hp. cbn [app]. constructor; [unfold printable; lia|]. constructor; [assumption|]. apply to_hex_printable. }
    assert (printable 117 /\ printable 85) as [? ?] by (unfold printable; lia).
    destruct (c <=? 65535); [now apply HP|]. destruct upper; [now apply HP|].
    apply Forall_app. split; now apply HP.
  - rewrite escape_plain by assumption. constructor; [|constructor]. unfold printable. now apply plain_range.
Qed.

Lemma unescape_escape e upper : forall cs fuel, Forall scalar cs -> no_escape_lookalike cs ->
  (length (flat_map (escape_codepoint upper) cs) <= fuel)%nat ->
  unescape_all fuel e (flat_map (escape_codepoint upper) cs) = Some (text (form e) cs).
Proof.
  induction cs as [|c cs IH]; intros fuel HF HL Hf; [now destruct fuel|].
  inversion HF as [|? ? Hc HF']; subst. cbn [no_escape_lookalike] in HL. destruct HL as [HL HL'].
  cbn [flat_map] in *. rewrite app_length in Hf. cbn [text flat_map].
  destruct (needs_escape c) eqn:EN.
  - destruct (escape_read e upper c (flat_map (escape_codepoint upper) cs) Hc EN) as (p & t & E & Hp & HU).
    assert (Hlen : (0 < length (escape_codepoint upper c))%nat).
    { unfold escape_codepoint. fold (needs_escape c). rewrite EN. destruct (c <=? 65535); [cbn; lia|]. destruct upper; [cbn; lia|].
      rewrite app_length. cbn [app length]. lia. }
    destruct fuel as [|fuel]; [lia|]. rewrite E in *. cbn [unescape_all].
    replace ((92 =? 92) && ((p =? 117) || (p =? 85))) with true by (destruct Hp; subst; reflexivity).
    rewrite HU. rewrite IH by (auto; lia). reflexivity.
  - rewrite escape_plain in * by assumption. apply plain_range in EN as HR. cbn [length app] in *.
    destruct fuel as [|fuel]; [lia|]. cbn [unescape_all].
    rewrite IH by (auto; lia). rewrite form_ascii by lia. cbn [app].
    destruct (flat_map (escape_codepoint upper) cs) as [|p t] eqn:ET; [reflexivity|].
    destruct (Z.eqb_spec c 92) as [->|Hne]; [|reflexivity]. cbn [andb].
    assert (Hp : p <> 117 /\ p <> 85).
    { destruct cs as [|c' cs]; [discriminate|]. specialize (HL eq_refl). cbn [flat_map] in ET.
      inversion HF' as [|? ? Hc' _]; subst.
      destruct (needs_escape c') eqn:EN'.
      - destruct (escape_read e upper c' (flat_map (escape_codepoint upper) cs) Hc' EN') as (p' & t' & E & _ & _).
        rewrite E in ET. injection ET as <- _. lia.
      - rewrite escape_plain in ET by assumption. cbn [app] in ET. injection ET as <- _. exact HL. }
    destruct (Z.eqb_spec p 117), (Z.eqb_spec p 85); tauto || reflexivity.
Qed.
