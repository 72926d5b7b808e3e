(** Lemmas about byte swapping and object representations (fly/types/numeric/endian.hpp). *)
From Verif Require Import Common Bits BitStream_Model.

Definition field (v k : Z) : Z := (v / 2 ^ k) mod 256.

Lemma field_range v k : 0 <= field v k < 256.
Proof. unfold field. apply Z.mod_pos_bound. lia. Qed.

Lemma land_field v k : 0 <= k -> Z.land v (255 * 2 ^ k) = field v k * 2 ^ k.
Proof.
  intros Hk. unfold field. apply Z.bits_inj'. intros i Hi.
  rewrite Z.land_spec, <- !Z.shiftl_mul_pow2, <- Z.shiftr_div_pow2 by lia.
  destruct (Z.ltb_spec i k).
  - rewrite !Z.shiftl_spec_low by lia. apply andb_false_r.
  - rewrite !Z.shiftl_spec by lia.
    change 256 with (2 ^ 8). rewrite <- Z.land_ones, Z.land_spec, Z.shiftr_spec by lia.
    replace (i - k + k) with i by lia. f_equal.
Qed.

Lemma land_shiftr v k s m : 0 <= s <= k -> m = 255 * 2 ^ k ->
  Z.shiftr (Z.land v m) s = field v k * 2 ^ (k - s).
Proof.
  intros Hs ->. rewrite land_field by lia. rewrite Z.shiftr_div_pow2 by lia.
  replace k with (k - s + s) at 2 by lia. rewrite pow2_add by lia.
  rewrite Z.mul_assoc. pose proof (pow2_pos s ltac:(lia)). rewrite Z.div_mul by lia. reflexivity.
Qed.

Lemma land_shiftl v k s m : 0 <= s -> 0 <= k -> m = 255 * 2 ^ k ->
  Z.shiftl (Z.land v m) s = field v k * 2 ^ (k + s).
Proof.
  intros Hs Hk ->. rewrite land_field by lia. rewrite Z.shiftl_mul_pow2 by lia.
  rewrite pow2_add by lia. lia.
Qed.

Lemma lor_low_high a f k : 0 <= k -> 0 <= a < 2 ^ k -> Z.lor a (f * 2 ^ k) = a + f * 2 ^ k.
Proof.
  intros Hk Ha. rewrite Z.lor_comm, (lor_high_low _ _ k); try lia.
  apply Z.mod_mul. pose proof (pow2_pos k Hk). lia.
Qed.

Lemma le_bytes_length n v : length (le_bytes n v) = n.
Proof. revert v; induction n as [|n IH]; intros v; [reflexivity|]. cbn. now rewrite IH. Qed.

Lemma le_bytes_byte n v : Forall (fun b => 0 <= b < 256) (le_bytes n v).
Proof.
  revert v; induction n as [|n IH]; intros v; constructor; [apply Z.mod_pos_bound; lia|apply IH].
Qed.

Lemma le_value_bounds l : Forall (fun b => 0 <= b < 256) l ->
  0 <= le_value l < 2 ^ (8 * Z.of_nat (length l)).
Proof.
  induction 1 as [|b l Hb Hl IH]; [cbn; lia|]. cbn [le_value length].
  replace (8 * Z.of_nat (S (length l))) with (8 + 8 * Z.of_nat (length l)) by lia.
  rewrite pow2_add by lia. change (2 ^ 8) with 256. lia.
Qed.

Lemma le_bytes_value l : Forall (fun b => 0 <= b < 256) l -> le_bytes (length l) (le_value l) = l.
Proof.
  induction 1 as [|b l Hb Hl IH]; [reflexivity|]. cbn [le_value length le_bytes].
  replace ((b + 256 * le_value l) mod 256) with b by dlia.
  replace ((b + 256 * le_value l) / 256) with (le_value l) by dlia. now rewrite IH.
Qed.

Lemma le_value_bytes n v : 0 <= v < 2 ^ (8 * Z.of_nat n) -> le_value (le_bytes n v) = v.
Proof.
  revert v; induction n as [|n IH]; intros v Hv; [cbn in *; lia|].
  cbn [le_bytes le_value]. rewrite IH; [dlia|].
  replace (8 * Z.of_nat (S n)) with (8 + 8 * Z.of_nat n) in Hv by lia.
  rewrite pow2_add in Hv by lia. change (2 ^ 8) with 256 in Hv.
  split; [apply Z.div_pos; lia|]. apply Z.div_lt_upper_bound; lia.
Qed.

Lemma div_256 v k : 0 <= k -> v / 2 ^ k / 256 = v / 2 ^ (k + 8).
Proof.
  intros Hk. pose proof (pow2_pos k Hk).
  rewrite Z.div_div by lia. rewrite pow2_add by lia. reflexivity.
Qed.

Lemma le_bytes_fields n v k : 0 <= k ->
  le_bytes n (v / 2 ^ k) = map (fun i => field v (k + 8 * Z.of_nat i)) (seq 0 n).
Proof.
  revert k; induction n as [|n IH]; intros k Hk; [reflexivity|].
  cbn [le_bytes seq map]. f_equal.
  - unfold field. now rewrite Z.add_0_r.
  - rewrite div_256, IH by lia. rewrite <- seq_shift, map_map. apply map_ext. intros i. f_equal. lia.
Qed.

Ltac pow_lia :=
  change (2 ^ 0) with 1; change (2 ^ 8) with 256; change (2 ^ 16) with 65536;
  change (2 ^ 24) with 16777216; change (2 ^ 32) with 4294967296;
  change (2 ^ 40) with 1099511627776; change (2 ^ 48) with 281474976710656;
  change (2 ^ 56) with 72057594037927936; lia.

Lemma byte_swap16_fields v :
  byte_swap16 v = le_value [field v 8; field v 0].
Proof.
  unfold byte_swap16.
  rewrite (land_shiftr v 8 8) by (lia || reflexivity).
  rewrite (land_shiftl v 0 8) by (lia || reflexivity).
  change (8 - 8) with 0. change (0 + 8) with 8.
  pose proof (field_range v 8). pose proof (field_range v 0).
  rewrite lor_low_high by pow_lia. cbn [le_value].
  change (2 ^ 0) with 1. change (2 ^ 8) with 256. lia.
Qed.

Ltac fields_pose v :=
  pose proof (field_range v 0); pose proof (field_range v 8);
  pose proof (field_range v 16); pose proof (field_range v 24);
  pose proof (field_range v 32); pose proof (field_range v 40);
  pose proof (field_range v 48); pose proof (field_range v 56).

Lemma byte_swap32_fields v :
  byte_swap32 v = le_value [field v 24; field v 16; field v 8; field v 0].
Proof.
  unfold byte_swap32.
  rewrite (land_shiftr v 24 24), (land_shiftr v 16 8) by (lia || reflexivity).
  rewrite (land_shiftl v 8 8), (land_shiftl v 0 24) by (lia || reflexivity).
  change (24 - 24) with 0. change (16 - 8) with 8. change (8 + 8) with 16. change (0 + 24) with 24.
  fields_pose v.
  rewrite (lor_low_high (field v 24 * 2 ^ 0)) by pow_lia.
  do 2 (rewrite (lor_low_high (_ + _)) by pow_lia). cbn [le_value].
  change (2 ^ 0) with 1. change (2 ^ 8) with 256. change (2 ^ 16) with 65536.
  change (2 ^ 24) with 16777216. lia.
Qed.

Lemma byte_swap64_fields v :
  byte_swap64 v = le_value [field v 56; field v 48; field v 40; field v 32;
                            field v 24; field v 16; field v 8; field v 0].
Proof.
  unfold byte_swap64.
  rewrite (land_shiftr v 56 56), (land_shiftr v 48 40), (land_shiftr v 40 24), (land_shiftr v 32 8)
    by (lia || reflexivity).
  rewrite (land_shiftl v 24 8), (land_shiftl v 16 24), (land_shiftl v 8 40), (land_shiftl v 0 56)
    by (lia || reflexivity).
  change (56 - 56) with 0. change (48 - 40) with 8. change (40 - 24) with 16.
  change (32 - 8) with 24. change (24 + 8) with 32. change (16 + 24) with 40.
  change (8 + 40) with 48. change (0 + 56) with 56.
  fields_pose v.
  rewrite (lor_low_high (field v 56 * 2 ^ 0)) by pow_lia.
  do 6 (rewrite (lor_low_high (_ + _)) by pow_lia). cbn [le_value].
  change (2 ^ 0) with 1. change (2 ^ 8) with 256. change (2 ^ 16) with 65536.
  change (2 ^ 24) with 16777216. change (2 ^ 32) with 4294967296.
  change (2 ^ 40) with 1099511627776. change (2 ^ 48) with 281474976710656.
  change (2 ^ 56) with 72057594037927936. lia.
Qed.

Definition swap_size (n : nat) : Prop := n = 1%nat \/ n = 2%nat \/ n = 4%nat \/ n = 8%nat.

Lemma le_bytes_rev_aux n v : swap_size n -> 0 <= v < 2 ^ (8 * Z.of_nat n) ->
  endian_swap n v = le_value (rev (le_bytes n v)).
Proof.
  intros Hn Hv. pose proof (le_bytes_fields n v 0 ltac:(lia)) as E.
  rewrite Z.pow_0_r, Z.div_1_r in E. rewrite E.
  destruct Hn as [->|[->|[->| ->]]]; cbn [seq map rev app endian_swap];
    cbn [Z.of_nat Pos.of_succ_nat Pos.succ Z.add Z.mul Pos.mul Pos.add].
  - cbn [le_value]. unfold field. change (2 ^ 0) with 1. change (8 * Z.of_nat 1) with 8 in Hv.
    change (2 ^ 8) with 256 in Hv. rewrite Z.div_1_r, Z.mod_small by lia. lia.
  - apply byte_swap16_fields.
  - apply byte_swap32_fields.
  - apply byte_swap64_fields.
Qed.

Lemma rev_bytes_forall n v : Forall (fun b => 0 <= b < 256) (rev (le_bytes n v)).
Proof. apply Forall_rev, le_bytes_byte. Qed.

Lemma endian_swap_range n v : swap_size n -> 0 <= v < 2 ^ (8 * Z.of_nat n) ->
  0 <= endian_swap n v < 2 ^ (8 * Z.of_nat n).
Proof.
  intros Hn Hv. rewrite le_bytes_rev_aux by assumption.
  pose proof (le_value_bounds _ (rev_bytes_forall n v)) as H.
  rewrite rev_length, le_bytes_length in H. exact H.
Qed.

Lemma le_bytes_swap n v : swap_size n -> 0 <= v < 2 ^ (8 * Z.of_nat n) ->
  le_bytes n (endian_swap n v) = rev (le_bytes n v).
Proof.
  intros Hn Hv. rewrite le_bytes_rev_aux by assumption.
  pose proof (le_bytes_value _ (rev_bytes_forall n v)) as H.
  rewrite rev_length, le_bytes_length in H. exact H.
Qed.

Lemma endian_swap_involutive_lemma n v : swap_size n -> 0 <= v < 2 ^ (8 * Z.of_nat n) ->
  endian_swap n (endian_swap n v) = v.
Proof.
  intros Hn Hv. rewrite (le_bytes_rev_aux n (endian_swap n v)); [|assumption|].
  - rewrite le_bytes_swap, rev_involutive by assumption. now apply le_value_bytes.
  - now apply endian_swap_range.
Qed.

Lemma mem_store_big hb n v : swap_size n -> 0 <= v < 2 ^ (8 * Z.of_nat n) ->
  mem_store hb n (to_big_endian hb n v) = rev (le_bytes n v).
Proof. intros Hn Hv. destruct hb; cbn; [reflexivity|now apply le_bytes_swap]. Qed.

Lemma mem_load_big hb n l : swap_size n -> length l = n -> Forall (fun b => 0 <= b < 256) l ->
  to_big_endian hb n (mem_load hb l) = le_value (rev l).
Proof.
  intros Hn Hl Hb. destruct hb; cbn; [reflexivity|]. unfold mem_load.
  pose proof (le_value_bounds _ Hb) as Hv. rewrite Hl in Hv.
  rewrite le_bytes_rev_aux by assumption. f_equal. f_equal.
  rewrite <- Hl. now apply le_bytes_value.
Qed.

(** Big-endian bytes and bit strings. *)
Lemma bytes_bits_be n v : bytes_bits (rev (le_bytes n v)) = bits_msb (8 * n) v.
Proof.
  revert v; induction n as [|n IH]; intros v; [reflexivity|].
  cbn [le_bytes rev]. rewrite bytes_bits_app, IH.
  replace (8 * S n)%nat with (8 * n + 8)%nat by lia. rewrite bits_msb_app.
  rewrite Z.shiftr_div_pow2 by lia. f_equal.
  change (bytes_bits [v mod 256]) with (bits_msb 8 (v mod 256) ++ []). rewrite app_nil_r.
  apply (bits_msb_mod 8 8). lia.
Qed.

Lemma le_value_rev_bits l : Forall (fun b => 0 <= b < 256) l ->
  le_value (rev l) = bval (bytes_bits l).
Proof.
  intros H.
  assert (Hr : Forall (fun b => 0 <= b < 256) (rev l)) by now apply Forall_rev.
  pose proof (le_bytes_value _ Hr) as E. apply (f_equal (@rev Z)) in E. rewrite rev_involutive in E.
  rewrite <- E, bytes_bits_be, bval_bits_msb.
  rewrite E. pose proof (le_value_bounds _ Hr) as Hb.
  rewrite Z.mod_small; [reflexivity|]. replace (Z.of_nat (8 * length (rev l)))
    with (8 * Z.of_nat (length (rev l))) by lia. exact Hb.
Qed.
