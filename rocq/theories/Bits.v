(** Bit-list arithmetic used by several proofs. *)
From Verif Require Import Common.
(** [lia] after replacing quotients and remainders by their defining equations. *)
Ltac dlia := zify; Z.div_mod_to_equations; lia.

(** The low [n] bits of [v], most significant first. *)
Definition bits_msb (n : nat) (v : Z) : list bool :=
  map (fun i => Z.testbit v (Z.of_nat i)) (rev (seq 0 n)).

(** The number denoted by a bit string, most significant bit first. *)
Fixpoint bval (l : list bool) : Z :=
  match l with
  | [] => 0
  | b :: r => Z.b2z b * 2 ^ Z.of_nat (length r) + bval r
  end.

Lemma pow2_pos k : 0 <= k -> 0 < 2 ^ k.
Proof. intros; apply Z.pow_pos_nonneg; lia. Qed.

Lemma pow2_add a b : 0 <= a -> 0 <= b -> 2 ^ (a + b) = 2 ^ a * 2 ^ b.
Proof. intros; apply Z.pow_add_r; lia. Qed.

Lemma mul_pow_lt a s k n : 0 <= s -> 0 <= k -> 0 <= a < 2 ^ s -> s + k = n ->
  0 <= a * 2 ^ k < 2 ^ n.
Proof.
  intros Hs Hk Ha <-. rewrite pow2_add by lia. pose proof (pow2_pos k Hk).
  split; [apply Z.mul_nonneg_nonneg; lia|apply Z.mul_lt_mono_pos_r; lia].
Qed.

Lemma high_low_lt h l p n : 0 <= p <= n -> 0 <= h < 2 ^ (n - p) -> 0 <= l < 2 ^ p ->
  0 <= h * 2 ^ p + l < 2 ^ n.
Proof.
  intros Hp Hh Hl. replace (2 ^ n) with (2 ^ (n - p) * 2 ^ p) by (rewrite <- pow2_add by lia; f_equal; lia).
  pose proof (pow2_pos p ltac:(lia)).
  assert (0 <= h * 2 ^ p) by (apply Z.mul_nonneg_nonneg; lia).
  assert (h * 2 ^ p <= (2 ^ (n - p) - 1) * 2 ^ p) by (apply Z.mul_le_mono_nonneg_r; lia).
  rewrite Z.mul_sub_distr_r in *. lia.
Qed.

Lemma div_pow_lt b p n : 0 <= p <= n -> 0 <= b < 2 ^ n -> 0 <= b / 2 ^ p < 2 ^ (n - p).
Proof.
  intros Hp Hb. pose proof (pow2_pos p ltac:(lia)). split; [apply Z.div_pos; lia|].
  apply Z.div_lt_upper_bound; [lia|]. rewrite <- pow2_add by lia.
  replace (p + (n - p)) with n by lia. lia.
Qed.

Lemma bits_msb_0 v : bits_msb 0 v = [].
Proof. reflexivity. Qed.

Lemma bits_msb_S n v : bits_msb (S n) v = Z.testbit v (Z.of_nat n) :: bits_msb n v.
Proof. unfold bits_msb. rewrite seq_S, rev_app_distr. reflexivity. Qed.

Lemma bits_msb_length n v : length (bits_msb n v) = n.
Proof. unfold bits_msb. rewrite map_length, rev_length, seq_length. reflexivity. Qed.

Lemma bits_msb_app a b v :
  bits_msb (a + b) v = bits_msb a (Z.shiftr v (Z.of_nat b)) ++ bits_msb b v.
Proof.
  induction a as [|a IH]; [reflexivity|].
  cbn [plus]. rewrite !bits_msb_S, IH. cbn [app]. f_equal.
  rewrite Z.shiftr_spec by lia. f_equal. lia.
Qed.

Lemma bits_msb_ext n v w :
  (forall i, 0 <= i < Z.of_nat n -> Z.testbit v i = Z.testbit w i) -> bits_msb n v = bits_msb n w.
Proof.
  induction n as [|n IH]; intros H; [reflexivity|].
  rewrite !bits_msb_S. f_equal; [apply H; lia|]. apply IH. intros; apply H; lia.
Qed.

Lemma bits_msb_mod n m v : Z.of_nat n <= m -> bits_msb n (v mod 2 ^ m) = bits_msb n v.
Proof. intros H. apply bits_msb_ext. intros i Hi. apply Z.mod_pow2_bits_low. lia. Qed.

Lemma bval_bounds l : 0 <= bval l < 2 ^ Z.of_nat (length l).
Proof.
  induction l as [|b l IH]; [simpl; lia|].
  cbn [bval length]. rewrite Nat2Z.inj_succ, Z.pow_succ_r by lia.
  destruct b; cbn [Z.b2z]; lia.
Qed.

Lemma bval_app a b : bval (a ++ b) = bval a * 2 ^ Z.of_nat (length b) + bval b.
Proof.
  induction a as [|x a IH]; [simpl; lia|].
  cbn [app bval]. rewrite IH, app_length, Nat2Z.inj_add, pow2_add by lia. lia.
Qed.

Lemma bval_bits_msb n v : bval (bits_msb n v) = v mod 2 ^ Z.of_nat n.
Proof.
  induction n as [|n IH].
  - rewrite bits_msb_0. cbn. rewrite Z.mod_1_r. reflexivity.
  - rewrite bits_msb_S. cbn [bval]. rewrite IH, bits_msb_length.
    rewrite Nat2Z.inj_succ. rewrite Z.testbit_spec' by lia.
    rewrite <- Z.add_1_r, pow2_add by lia.
    pose proof (pow2_pos (Z.of_nat n) ltac:(lia)) as Hp.
    change (2 ^ 1) with 2.
    rewrite Z.rem_mul_r by lia. lia.
Qed.

Lemma bits_msb_bval l : bits_msb (length l) (bval l) = l.
Proof.
  induction l as [|b l IH]; [reflexivity|].
  cbn [length]. rewrite bits_msb_S. cbn [bval].
  pose proof (bval_bounds l) as Hb.
  pose proof (pow2_pos (Z.of_nat (length l)) ltac:(lia)) as Hp.
  f_equal.
  - apply Z.b2z_inj.
    rewrite Z.testbit_spec' by lia.
    rewrite Z.div_add_l, Z.div_small, Z.add_0_r by lia. destruct b; reflexivity.
  - transitivity (bits_msb (length l) (bval l)); [|exact IH].
    rewrite <- (bits_msb_mod _ (Z.of_nat (length l))) by lia.
    rewrite Z.add_comm, Z.mod_add by lia. rewrite Z.mod_small by lia. reflexivity.
Qed.

Lemma bits_msb_inj n v w :
  0 <= v < 2 ^ Z.of_nat n -> 0 <= w < 2 ^ Z.of_nat n -> bits_msb n v = bits_msb n w -> v = w.
Proof.
  intros Hv Hw H. apply (f_equal bval) in H. rewrite !bval_bits_msb in H.
  rewrite !Z.mod_small in H; assumption.
Qed.

Lemma bits_msb_zero n : bits_msb n 0 = repeat false n.
Proof. induction n as [|n IH]; [reflexivity|]. rewrite bits_msb_S, IH. now rewrite Z.bits_0. Qed.

Lemma bits_msb_testbit_false n v :
  (forall i, 0 <= i < Z.of_nat n -> Z.testbit v i = false) -> bits_msb n v = repeat false n.
Proof.
  intros H. rewrite <- bits_msb_zero. apply bits_msb_ext. intros i Hi. now rewrite H, Z.bits_0.
Qed.

(** Disjoint [lor] is addition. *)
Lemma lor_disjoint_add a b : Z.land a b = 0 -> Z.lor a b = a + b.
Proof. intros H. rewrite Z.add_nocarry_lxor by assumption. symmetry. now apply Z.lxor_lor. Qed.

Lemma land_high_low a b k :
  0 <= k -> a mod 2 ^ k = 0 -> 0 <= b < 2 ^ k -> Z.land a b = 0.
Proof.
  intros Hk Ha Hb. apply Z.bits_inj'. intros i Hi. rewrite Z.land_spec, Z.bits_0.
  destruct (Z.ltb_spec i k) as [Hlt|Hge].
  - rewrite <- (Z.mod_pow2_bits_low a k i) by lia. now rewrite Ha, Z.bits_0.
  - rewrite <- (Z.mod_small b (2 ^ k)) by lia.
    rewrite Z.mod_pow2_bits_high by lia. apply andb_false_r.
Qed.

Lemma lor_high_low a b k :
  0 <= k -> a mod 2 ^ k = 0 -> 0 <= b < 2 ^ k -> Z.lor a b = a + b.
Proof. intros. apply lor_disjoint_add. eapply land_high_low; eassumption. Qed.

Lemma land_mask v k : 0 <= k -> Z.land v (2 ^ k - 1) = v mod 2 ^ k.
Proof. intros. rewrite <- Z.land_ones by assumption. f_equal. rewrite Z.ones_equiv. lia. Qed.

(** Bytes to bits. *)
Definition bytes_bits (l : list Z) : list bool := flat_map (bits_msb 8) l.

Lemma bytes_bits_app a b : bytes_bits (a ++ b) = bytes_bits a ++ bytes_bits b.
Proof. apply flat_map_app. Qed.

Lemma bytes_bits_length l : length (bytes_bits l) = (8 * length l)%nat.
Proof.
  induction l as [|x l IH]; [reflexivity|]. cbn [bytes_bits flat_map length].
  rewrite app_length, bits_msb_length. unfold bytes_bits in IH. lia.
Qed.

Lemma bytes_bits_firstn k l : bytes_bits (firstn k l) = firstn (8 * k) (bytes_bits l).
Proof.
  revert l; induction k as [|k IH]; intros l; [reflexivity|].
  destruct l as [|x l]; [now rewrite firstn_nil|].
  replace (8 * S k)%nat with (8 + 8 * k)%nat by lia.
  change (bytes_bits (firstn (S k) (x :: l))) with (bits_msb 8 x ++ bytes_bits (firstn k l)).
  change (bytes_bits (x :: l)) with (bits_msb 8 x ++ bytes_bits l). rewrite IH.
  rewrite firstn_app, bits_msb_length.
  rewrite (firstn_all2 (bits_msb 8 x)) by (rewrite bits_msb_length; lia).
  replace (8 + 8 * k - 8)%nat with (8 * k)%nat by lia. reflexivity.
Qed.

Lemma bytes_bits_skipn k l : bytes_bits (skipn k l) = skipn (8 * k) (bytes_bits l).
Proof.
  revert l; induction k as [|k IH]; intros l; [reflexivity|].
  destruct l as [|x l]; [now rewrite skipn_nil|].
  replace (8 * S k)%nat with (8 + 8 * k)%nat by lia.
  change (bytes_bits (skipn (S k) (x :: l))) with (bytes_bits (skipn k l)).
  change (bytes_bits (x :: l)) with (bits_msb 8 x ++ bytes_bits l). rewrite IH.
  rewrite skipn_app, bits_msb_length.
  rewrite (skipn_all2 (bits_msb 8 x)) by (rewrite bits_msb_length; lia).
  replace (8 + 8 * k - 8)%nat with (8 * k)%nat by lia. reflexivity.
Qed.

Lemma skipn_add {A} (x y : nat) (l : list A) : skipn x (skipn y l) = skipn (y + x) l.
Proof.
  revert l; induction y as [|y IH]; intros l; [reflexivity|].
  destruct l; [now rewrite !skipn_nil|apply IH].
Qed.

Lemma firstn_add {A} (a c : nat) (l : list A) : firstn (a + c) l = firstn a l ++ firstn c (skipn a l).
Proof.
  revert l; induction a as [|a IH]; intros l; [reflexivity|].
  destruct l; [cbn; now rewrite firstn_nil|]. cbn [firstn plus skipn app]. now rewrite IH.
Qed.
