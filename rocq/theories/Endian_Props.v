(** Property C14: byte swapping. *)
From Verif Require Import Common Bits BitStream_Model Endian_Proofs.

(** Specification: byte [i] (from the least significant) of an integer. *)
Definition byte_of (v : Z) (i : nat) : Z := (v / 256 ^ Z.of_nat i) mod 256.

Definition native_size (n : nat) : Prop := n = 1%nat \/ n = 2%nat \/ n = 4%nat \/ n = 8%nat.

Lemma nth_le_bytes n v i : (i < n)%nat -> nth i (le_bytes n v) 0 = byte_of v i.
Proof.
  revert v i; induction n as [|n IH]; intros v i Hi; [lia|].
  destruct i as [|i]; cbn [le_bytes nth].
  - unfold byte_of. change (256 ^ Z.of_nat 0) with 1. now rewrite Z.div_1_r.
  - rewrite IH by lia. unfold byte_of. rewrite Nat2Z.inj_succ, Z.pow_succ_r by lia.
    rewrite Z.div_div by (try apply Z.pow_pos_nonneg; lia). reflexivity.
Qed.

(** endian_swap exchanges byte i and byte n-1-i. *)
Theorem endian_swap_reverses : forall n v i,
  native_size n -> 0 <= v < 256 ^ Z.of_nat n -> (i < n)%nat ->
  byte_of (endian_swap n v) i = byte_of v (n - 1 - i).
Proof.
  intros n v i Hn Hv Hi.
  assert (Hv' : 0 <= v < 2 ^ (8 * Z.of_nat n)).
  { rewrite Z.pow_mul_r by lia. exact Hv. }
  rewrite <- (nth_le_bytes n) by lia. rewrite le_bytes_swap by assumption.
  rewrite rev_nth by (rewrite le_bytes_length; lia). rewrite le_bytes_length.
  rewrite nth_le_bytes by lia. f_equal. lia.
Qed.

(** endian_swap stays in range and is its own inverse. *)
Theorem endian_swap_involutive : forall n v,
  native_size n -> 0 <= v < 256 ^ Z.of_nat n ->
  0 <= endian_swap n v < 256 ^ Z.of_nat n /\ endian_swap n (endian_swap n v) = v.
Proof.
  intros n v Hn Hv.
  assert (E : 256 ^ Z.of_nat n = 2 ^ (8 * Z.of_nat n)) by (rewrite Z.pow_mul_r by lia; reflexivity).
  rewrite E in *. split; [now apply endian_swap_range|now apply endian_swap_involutive_lemma].
Qed.

(** Signed integers: the same, including negative values. *)
Theorem endian_swap_signed_involutive : forall n v,
  native_size n -> - 2 ^ (8 * Z.of_nat n - 1) <= v < 2 ^ (8 * Z.of_nat n - 1) ->
  - 2 ^ (8 * Z.of_nat n - 1) <= endian_swap_signed n v < 2 ^ (8 * Z.of_nat n - 1) /\
  endian_swap_signed n (endian_swap_signed n v) = v.
Proof.
  intros n v Hn Hv. unfold endian_swap_signed. set (w := 8 * Z.of_nat n) in *.
  assert (Hw : 8 <= w) by (unfold native_size in Hn; lia).
  assert (E2 : 2 ^ w = 2 * 2 ^ (w - 1)) by (rewrite <- Z.pow_succ_r by lia; f_equal; lia).
  pose proof (pow2_pos (w - 1) ltac:(lia)) as P.
  assert (Hr : forall x, - 2 ^ (w - 1) <= signed w x < 2 ^ (w - 1)).
  { intros x. unfold signed. pose proof (Z.mod_pos_bound x (2 ^ w) ltac:(lia)).
    destruct (Z.ltb_spec (x mod 2 ^ w) (2 ^ (w - 1))); lia. }
  assert (Hws : forall x, wrap w (signed w x) = wrap w x).
  { intros x. unfold signed, wrap. destruct (_ <? _); [apply Z.mod_mod; lia|].
    rewrite <- (Z.mod_add (x mod 2 ^ w - 2 ^ w) 1) by lia.
    replace (x mod 2 ^ w - 2 ^ w + 1 * 2 ^ w) with (x mod 2 ^ w) by lia. apply Z.mod_mod; lia. }
  assert (Hsw : signed w (wrap w v) = v).
  { unfold signed, wrap. rewrite Z.mod_mod by lia.
    destruct (Z.leb_spec 0 v).
    - rewrite Z.mod_small by lia. destruct (Z.ltb_spec v (2 ^ (w - 1))); lia.
    - rewrite <- (Z.mod_add v 1), Z.mod_small by lia.
      destruct (Z.ltb_spec (v + 1 * 2 ^ w) (2 ^ (w - 1))); lia. }
  split; [apply Hr|]. rewrite Hws.
  assert (Hb : 0 <= wrap w v < 2 ^ w) by (apply Z.mod_pos_bound; lia).
  pose proof (endian_swap_range n _ Hn Hb) as Hb2. fold w in Hb2.
  unfold wrap at 1. rewrite (Z.mod_small (endian_swap n (wrap w v))) by assumption.
  rewrite endian_swap_involutive_lemma by assumption. exact Hsw.
Qed.

(** Storing a value converted to big endian puts the most significant byte first, and converting
    what was loaded recovers the value, on a host of either endianness. *)
Theorem big_endian_store_load : forall host_big n v,
  native_size n -> 0 <= v < 256 ^ Z.of_nat n ->
  (forall i, (i < n)%nat ->
     nth i (mem_store host_big n (to_big_endian host_big n v)) 0 = byte_of v (n - 1 - i)) /\
  to_big_endian host_big n (mem_load host_big (mem_store host_big n (to_big_endian host_big n v))) = v.
Proof.
  intros hb n v Hn Hv.
  assert (E : 256 ^ Z.of_nat n = 2 ^ (8 * Z.of_nat n)) by (rewrite Z.pow_mul_r by lia; reflexivity).
  rewrite E in Hv. rewrite mem_store_big by assumption. split.
  - intros i Hi. rewrite rev_nth by (rewrite le_bytes_length; lia). rewrite le_bytes_length.
    rewrite nth_le_bytes by lia. f_equal. lia.
  - rewrite mem_load_big; [|assumption|rewrite rev_length; apply le_bytes_length|apply Forall_rev, le_bytes_byte].
    rewrite rev_involutive. now apply le_value_bytes.
Qed.

Example endian_swap_sample : endian_swap 4 0x12345678 = 0x78563412 /\
  endian_swap_signed 2 (-2) = -257 /\ native_size 4 /\ 0 <= 0x12345678 < 256 ^ Z.of_nat 4.
Proof. split; [reflexivity|]. split; [reflexivity|]. unfold native_size. cbn. lia. Qed.
