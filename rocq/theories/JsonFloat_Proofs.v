(** Lemmas for JsonFloat_Props: rounding of numbers that need none, and the order of floating-point numbers. *)
From Coq Require Import SpecFloat.
From Verif Require Import Common Bits.
Open Scope Z_scope.

(** * Digits *)
Lemma digits_bounds m : 2 ^ (Z.pos (digits2_pos m) - 1) <= Z.pos m < 2 ^ Z.pos (digits2_pos m).
Proof.
  induction m as [m IH|m IH|]; cbn [digits2_pos]; [| |cbn; lia].
  - rewrite Pos2Z.inj_succ. replace (Z.succ (Z.pos (digits2_pos m)) - 1) with (Z.succ (Z.pos (digits2_pos m) - 1)) by lia.
    rewrite !Z.pow_succ_r by lia. lia.
  - rewrite Pos2Z.inj_succ. replace (Z.succ (Z.pos (digits2_pos m)) - 1) with (Z.succ (Z.pos (digits2_pos m) - 1)) by lia.
    rewrite !Z.pow_succ_r by lia. lia.
Qed.
Lemma digits_unique m d : 2 ^ (d - 1) <= Z.pos m < 2 ^ d -> Z.pos (digits2_pos m) = d.
Proof.
  intros [H1 H2]. pose proof (digits_bounds m) as [B1 B2].
  assert (0 <= d) by (destruct (Z.leb_spec 0 d); [assumption|rewrite (Z.pow_neg_r 2 d) in H2 by lia; lia]).
  assert (d - 1 < Z.pos (digits2_pos m)) by (apply (Z.pow_lt_mono_r_iff 2); lia).
  assert (Z.pos (digits2_pos m) - 1 < d) by (apply (Z.pow_lt_mono_r_iff 2); lia). lia.
Qed.
Lemma digits_shift m m' k : 0 <= k -> Z.pos m' = Z.pos m * 2 ^ k -> Z.pos (digits2_pos m') = Z.pos (digits2_pos m) + k.
Proof.
  intros Hk E. apply digits_unique. pose proof (digits_bounds m) as [B1 B2].
  replace (Z.pos (digits2_pos m) + k - 1) with (Z.pos (digits2_pos m) - 1 + k) by lia.
  rewrite !Z.pow_add_r by lia. rewrite E. pose proof (Z.pow_pos_nonneg 2 k). split; [apply Z.mul_le_mono_nonneg_r; lia|apply Z.mul_lt_mono_pos_r; lia].
Qed.
Lemma digits_le m d : 0 <= d -> Z.pos m < 2 ^ d -> Z.pos (digits2_pos m) <= d.
Proof.
  intros Hd H. pose proof (digits_bounds m) as [B1 _]. assert (Z.pos (digits2_pos m) - 1 < d); [|lia]. apply (Z.pow_lt_mono_r_iff 2); lia.
Qed.
Lemma shift_pos_mul d m : Z.pos (shift_pos d m) = Z.pos m * 2 ^ Z.pos d.
Proof.
  unfold shift_pos. revert m. induction d as [|d IH] using Pos.peano_ind; intros m; [cbn; lia|].
  rewrite Pos.iter_succ. rewrite Pos2Z.inj_xO, IH, Pos2Z.inj_succ, Z.pow_succ_r by lia. lia.
Qed.

(** * Numbers that need no rounding *)
(** [m * 2^e] and [m' * 2^e'] are the same number. *)
Definition same_number (m e m' e' : Z) : Prop := m * 2 ^ (e - Z.min e e') = m' * 2 ^ (e' - Z.min e e').
Lemma iter_comm {A} (f : A -> A) p : forall x, SpecFloat.iter_pos f p (f x) = f (SpecFloat.iter_pos f p x).
Proof. induction p as [p IH|p IH|]; intros x; cbn [SpecFloat.iter_pos]; now rewrite ?IH. Qed.
Lemma iter_succ {A} (f : A -> A) p x : SpecFloat.iter_pos f (Pos.succ p) x = SpecFloat.iter_pos f p (f x).
Proof.
  revert x. induction p as [p IH|p IH|]; intros x; cbn [Pos.succ SpecFloat.iter_pos]; [|reflexivity|reflexivity].
  rewrite !IH. now rewrite <- !iter_comm.
Qed.
Lemma shr_exact n : forall m m', Z.pos m = Z.pos m' * 2 ^ Z.pos n ->
  SpecFloat.iter_pos shr_1 n (Build_shr_record (Z.pos m) false false) = Build_shr_record (Z.pos m') false false.
Proof.
  induction n as [|n IH] using Pos.peano_ind; intros m m' E.
  - cbn [SpecFloat.iter_pos]. change (2 ^ 1) with 2 in E. assert (m = (m'~0)%positive) by lia. subst m. reflexivity.
  - rewrite iter_succ. rewrite Pos2Z.inj_succ, Z.pow_succ_r in E by lia.
    pose proof (Z.pow_pos_nonneg 2 (Z.pos n) ltac:(lia) ltac:(lia)) as HP.
    assert (HQ : 0 < Z.pos m' * 2 ^ Z.pos n) by (apply Z.mul_pos_pos; lia).
    destruct (Z.pos m' * 2 ^ Z.pos n) as [|q|q] eqn:EQ; try lia.
    assert (m = (q~0)%positive) by lia. subst m. cbn [shr_1]. apply IH. lia.
Qed.
Section Exact.
  Variables p emax : Z.
  Lemma round_aux_canonical s m e : bounded p emax m e = true -> binary_round_aux p emax s (Z.pos m) e loc_Exact = S754_finite s m e.
  Proof.
    unfold bounded, canonical_mantissa. rewrite andb_true_iff, <- Zeq_is_eq_bool. intros [HC HB].
    assert (F : shr_fexp p emax (Z.pos m) e loc_Exact = (Build_shr_record (Z.pos m) false false, e)).
    { unfold shr_fexp. cbn [Zdigits2 shr_record_of_loc]. rewrite HC, Z.sub_diag. reflexivity. }
    unfold binary_round_aux. rewrite F. cbn [shr_m loc_of_shr_record round_nearest_even]. rewrite F. cbn [shr_m]. now rewrite HB.
  Qed.
  Lemma round_exact s m e m' e' : bounded p emax m' e' = true -> same_number (Z.pos m) e (Z.pos m') e' ->
    binary_round p emax s m e = S754_finite s m' e'.
  Proof.
    intros HB HS. pose proof HB as HB'. unfold bounded, canonical_mantissa in HB. rewrite andb_true_iff, <- Zeq_is_eq_bool in HB. destruct HB as [HC HB].
    unfold same_number in HS. unfold binary_round, shl_align.
    destruct (Z.ltb_spec e' e) as [Hlt|Hge].
    - rewrite Z.min_r, Z.sub_diag, Z.pow_0_r, Z.mul_1_r in HS by lia. symmetry in HS.
      assert (HD : Z.pos (digits2_pos m) + e = Z.pos (digits2_pos m') + e') by (rewrite (digits_shift m m' (e - e')) by lia; lia).
      rewrite HD, HC. destruct (e' - e) as [|d|d] eqn:ED; try lia.
      assert (shift_pos d m = m') as ->; [|now apply round_aux_canonical].
      apply (f_equal Z.pos) || idtac. assert (Z.pos (shift_pos d m) = Z.pos m') by (rewrite shift_pos_mul, HS; do 2 f_equal; lia). congruence.
    - rewrite Z.min_l, Z.sub_diag, Z.pow_0_r, Z.mul_1_r in HS by lia.
      assert (HD : Z.pos (digits2_pos m) + e = Z.pos (digits2_pos m') + e') by (rewrite (digits_shift m' m (e' - e)) by lia; lia).
      rewrite HD, HC. destruct (e' - e) as [|d|d] eqn:ED; try lia.
      + assert (m = m') as -> by (cbn in HS; lia). assert (e = e') as -> by lia. now apply round_aux_canonical.
      + assert (F : shr_fexp p emax (Z.pos m) e loc_Exact = (Build_shr_record (Z.pos m') false false, e')).
        { unfold shr_fexp. cbn [Zdigits2 shr_record_of_loc]. rewrite HD, HC, ED. unfold SpecFloat.shr. rewrite (shr_exact d m m' HS). f_equal. lia. }
        assert (F' : shr_fexp p emax (Z.pos m') e' loc_Exact = (Build_shr_record (Z.pos m') false false, e')).
        { unfold shr_fexp. cbn [Zdigits2 shr_record_of_loc]. rewrite HC, Z.sub_diag. reflexivity. }
        unfold binary_round_aux. rewrite F. cbn [shr_m loc_of_shr_record round_nearest_even]. rewrite F'. cbn [shr_m].
        now rewrite HB.
  Qed.
  (** An integer of at most [p] bits. *)
  Lemma small_int m : 1 < p -> p < emax -> Z.pos m < 2 ^ p ->
    exists m', Z.pos m' = Z.pos m * 2 ^ (p - Z.pos (digits2_pos m)) /\
      bounded p emax m' (Z.pos (digits2_pos m) - p) = true /\ same_number (Z.pos m) 0 (Z.pos m') (Z.pos (digits2_pos m) - p).
  Proof.
    intros Hp He Hm. pose proof (digits_le m p ltac:(lia) Hm) as HD. set (d := Z.pos (digits2_pos m)) in *.
    assert (HP : 0 < Z.pos m * 2 ^ (p - d)) by (apply Z.mul_pos_pos; [lia|apply Z.pow_pos_nonneg; lia]).
    destruct (Z.pos m * 2 ^ (p - d)) as [|m'|m'] eqn:E; try lia. exists m'. split; [reflexivity|].
    assert (HD' : Z.pos (digits2_pos m') = p) by (rewrite (digits_shift m m' (p - d)) by lia; unfold d; lia).
    assert (1 <= d) by (unfold d; lia).
    split.
    - unfold bounded, canonical_mantissa. rewrite andb_true_iff, <- Zeq_is_eq_bool, Z.leb_le, HD'. unfold fexp, emin. split; lia.
    - unfold same_number. rewrite Z.min_r by lia. rewrite Z.sub_diag, Z.pow_0_r, Z.mul_1_r, <- E. do 2 f_equal. lia.
  Qed.
  (** 2^p itself *)
  Lemma power_int : 1 < p -> p < emax -> bounded p emax (Z.to_pos (2 ^ (p - 1))) 1 = true /\ same_number (2 ^ p) 0 (Z.pos (Z.to_pos (2 ^ (p - 1)))) 1.
  Proof.
    intros Hp He. pose proof (Z.pow_pos_nonneg 2 (p - 1) ltac:(lia) ltac:(lia)). split.
    - unfold bounded, canonical_mantissa. rewrite andb_true_iff, <- Zeq_is_eq_bool, Z.leb_le.
      assert (E : Z.pos (digits2_pos (Z.to_pos (2 ^ (p - 1)))) = p).
      { apply digits_unique. rewrite Z2Pos.id by lia. split; [lia|]. apply Z.pow_lt_mono_r; lia. }
      rewrite E. unfold fexp, emin. lia.
    - unfold same_number. rewrite Z.min_l by lia. rewrite Z2Pos.id by lia. change (0 - 0) with 0. change (1 - 0) with 1. 
      rewrite Z.pow_0_r, Z.mul_1_r, Z.pow_1_r. replace p with (Z.succ (p - 1)) at 1 by lia. rewrite Z.pow_succ_r by lia. lia.
  Qed.
End Exact.

(** * The order of canonical numbers is the order of their values *)
(** [m * 2^e < m' * 2^e'] *)
Definition dyadic_compare (m e m' e' : Z) : comparison := (m * 2 ^ (e - Z.min e e') ?= m' * 2 ^ (e' - Z.min e e')).
Lemma dyadic_scale m e m' e' k : k <= Z.min e e' -> dyadic_compare m e m' e' = (m * 2 ^ (e - k) ?= m' * 2 ^ (e' - k)).
Proof.
  intros Hk. unfold dyadic_compare. set (n := Z.min e e') in *.
  replace (e - k) with (e - n + (n - k)) by lia. replace (e' - k) with (e' - n + (n - k)) by lia. rewrite !Z.pow_add_r by lia.
  rewrite !Z.mul_assoc. assert (0 < 2 ^ (n - k)) by (apply Z.pow_pos_nonneg; lia). apply Zmult_compare_compat_r. lia.
Qed.
Lemma canonical_compare p emax m e m' e' : 1 < p -> bounded p emax m e = true -> bounded p emax m' e' = true ->
  match e ?= e' with Lt => Lt | Gt => Gt | Eq => (Z.pos m ?= Z.pos m') end = dyadic_compare (Z.pos m) e (Z.pos m') e'.
Proof.
  unfold bounded, canonical_mantissa. rewrite !andb_true_iff, <- !Zeq_is_eq_bool. intros Hp [HC _] [HC' _].
  assert (G : forall m e m' e', fexp p emax (Z.pos (digits2_pos m) + e) = e -> fexp p emax (Z.pos (digits2_pos m') + e') = e' -> e < e' ->
    Z.pos m < Z.pos m' * 2 ^ (e' - e)).
  { clear. intros m e m' e' HC HC' H. unfold fexp in *.
    assert (HD : Z.pos (digits2_pos m') = p + (e' - Z.max e' e') \/ e' = emin p emax) by lia. 
    assert (HD1 : Z.pos (digits2_pos m) <= p) by lia. assert (emin p emax <= e) by lia. destruct HD as [HD|HD]; [|lia].
    assert (HD2 : Z.pos (digits2_pos m') = p) by lia.
    pose proof (digits_bounds m) as [_ B]. pose proof (digits_bounds m') as [B' _]. rewrite HD2 in B'.
    apply Z.lt_le_trans with (2 ^ p); [eapply Z.lt_le_trans; [exact B|apply Z.pow_le_mono_r; lia]|].
    replace p with (p - 1 + 1) at 1 by lia. rewrite Z.pow_add_r by lia. assert (0 <= 2 ^ (p - 1)) by (apply Z.pow_nonneg; lia). assert (2 ^ 1 <= 2 ^ (e' - e)) by (apply Z.pow_le_mono_r; lia).
    change (2 ^ 1) with 2 in *. apply Z.mul_le_mono_nonneg; lia. }
  unfold dyadic_compare. destruct (Z.compare_spec e e') as [->|H|H].
  - now rewrite Z.min_id, Z.sub_diag, Z.pow_0_r, !Z.mul_1_r.
  - rewrite Z.min_l, Z.sub_diag, Z.pow_0_r, Z.mul_1_r by lia. symmetry. apply Z.compare_lt_iff. now apply G.
  - rewrite Z.min_r, Z.sub_diag, Z.pow_0_r, Z.mul_1_r by lia. symmetry. apply Z.compare_gt_iff. now apply G.
Qed.
