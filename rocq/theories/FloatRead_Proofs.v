(** Lemmas for FloatRead_Props (C70). *)
From Coq Require Import SpecFloat QArith Qabs Qpower Qfield Lqa.
From Verif Require Import Common Format_Spec Float_Spec Float_Proofs Json_Model JsonFloat_Proofs JsonFloat_Props FloatRead_Spec FloatRead_Model.
Local Open Scope Q_scope.

(** * Powers of two *)
Definition p2 (e : Z) : Q := (2 # 1) ^ e.
Lemma p2_pos e : 0 < p2 e.
Proof. apply Qpower_0_lt. lra. Qed.
Lemma p2_plus a b : p2 (a + b) == p2 a * p2 b.
Proof. apply Qpower_plus. lra. Qed.
Lemma p2_int k : (0 <= k)%Z -> p2 k == inject_Z (2 ^ k).
Proof. intros H. unfold p2. rewrite Zpower_Qpower by assumption. reflexivity. Qed.
Lemma p2_le a b : (a <= b)%Z -> p2 a <= p2 b.
Proof. intros H. apply Qpower_le_compat_l; [assumption|lra]. Qed.
Lemma p2_lt_inv a b : p2 a < p2 b -> (a < b)%Z.
Proof. intros H. destruct (Z.lt_ge_cases a b) as [L|L]; [assumption|]. apply p2_le in L. lra. Qed.
Lemma p2_succ a : p2 (a + 1) == 2 * p2 a.
Proof. rewrite p2_plus. change (p2 1) with (2 # 1). lra. Qed.
Lemma p2_0 : p2 0 == 1.
Proof. reflexivity. Qed.
Lemma p2_neg_mul e : p2 (- e) * p2 e == 1.
Proof. rewrite <- p2_plus. now replace (- e + e)%Z with 0%Z by lia. Qed.

(** * Integers near a rational number *)
Lemma inj_le a b : (a <= b)%Z -> inject_Z a <= inject_Z b.
Proof. now rewrite Zle_Qle. Qed.
Lemma inj_lt a b : (a < b)%Z -> inject_Z a < inject_Z b.
Proof. now rewrite Zlt_Qlt. Qed.
Lemma inj_le_inv a b : inject_Z a <= inject_Z b -> (a <= b)%Z.
Proof. now rewrite Zle_Qle. Qed.
Lemma inj_lt_inv a b : inject_Z a < inject_Z b -> (a < b)%Z.
Proof. now rewrite Zlt_Qlt. Qed.
Lemma inj_abs a : inject_Z (Z.abs a) == Qabs (inject_Z a).
Proof. reflexivity. Qed.
Lemma inj_sub a b : inject_Z (a - b) == inject_Z a - inject_Z b.
Proof. unfold Z.sub. rewrite inject_Z_plus, inject_Z_opp. reflexivity. Qed.

(** The rational number n / d. *)
Definition ratio (n d : Z) : Q := n # Z.to_pos d.
Lemma ratio_mul n d : (0 < d)%Z -> ratio n d * inject_Z d == inject_Z n.
Proof. intros H. unfold ratio, inject_Z, Qeq, Qmult. cbn [Qnum Qden]. rewrite Pos.mul_1_r, Z2Pos.id by assumption. lia. Qed.
Lemma ratio_nonneg n d : (0 <= n)%Z -> 0 <= ratio n d.
Proof. intros H. unfold ratio, Qle. cbn. lia. Qed.
Lemma ratio_le n d k : (0 < d)%Z -> inject_Z k <= ratio n d <-> (k * d <= n)%Z.
Proof. intros H. unfold ratio, Qle, inject_Z. cbn [Qnum Qden]. rewrite Z2Pos.id by assumption. lia. Qed.
Lemma ratio_pos n d : (0 < n)%Z -> 0 < ratio n d.
Proof. intros H. unfold ratio, Qlt. cbn. lia. Qed.

Definition close_int (x : Q) (r : Z) : Prop := 2 * Qabs (inject_Z r - x) <= 1 /\ (2 * Qabs (inject_Z r - x) == 1 -> Z.Even r).
Lemma nearest_int_even n d : (0 < d)%Z -> nearest_even n d (nearest_int n d).
Proof.
  intros Hd. unfold nearest_int, nearest_even. pose proof (Z.div_mod n d ltac:(lia)) as E. pose proof (Z.mod_pos_bound n d Hd) as B.
  set (q := (n / d)%Z) in *. set (m := (n mod d)%Z) in *. clearbody q m. cbv zeta.
  assert (E1 : (q * d - n = - m)%Z) by lia. assert (E2 : ((q + 1) * d - n = d - m)%Z) by lia.
  destruct (Z.ltb_spec (2 * m) d); [rewrite E1; split; [lia|lia]|]. destruct (Z.ltb_spec d (2 * m)); [rewrite E2; split; lia|].
  destruct (Z.even q) eqn:EV; [rewrite E1; split; [lia|intros _; now apply Z.even_spec]|]. rewrite E2. split; [lia|]. intros _.
  apply Z.even_spec. rewrite Z.add_1_r, Z.even_succ. now rewrite <- Z.negb_even, EV.
Qed.
Lemma close_ratio n d r : (0 < d)%Z -> nearest_even n d r -> close_int (ratio n d) r.
Proof.
  intros Hd (H & HE). assert (HD : 0 < inject_Z d) by (change 0 with (inject_Z 0); now apply inj_lt).
  assert (K : Qabs (inject_Z r - ratio n d) * inject_Z d == inject_Z (Z.abs (r * d - n))).
  { rewrite inj_abs, inj_sub, inject_Z_mult, <- (ratio_mul n d Hd). rewrite <- (Qabs_pos (inject_Z d)) at 1 by lra. rewrite <- Qabs_Qmult. apply Qabs_wd. ring. }
  assert (H' : inject_Z (2 * Z.abs (r * d - n)) <= inject_Z d) by now apply inj_le. rewrite inject_Z_mult, <- K in H'. change (inject_Z 2) with 2 in H'.
  split.
  - apply (Qmult_le_r _ _ (inject_Z d)); [assumption|]. rewrite <- Qmult_assoc, Qmult_1_l. exact H'.
  - intros E. apply HE. assert (G : inject_Z (2 * Z.abs (r * d - n)) == inject_Z d). { rewrite inject_Z_mult, <- K. change (inject_Z 2) with 2. rewrite Qmult_assoc, E. ring. }
    unfold inject_Z, Qeq in G. cbn [Qnum Qden] in G. lia.
Qed.
Lemma close_nearest x r k : close_int x r -> Qabs (inject_Z r - x) <= Qabs (inject_Z k - x) /\
  (Qabs (inject_Z r - x) == Qabs (inject_Z k - x) -> r <> k -> Z.Even r /\ Z.Odd k).
Proof.
  intros (H & HE). destruct (Z.eq_dec r k) as [-> |N]; [split; [lra|congruence]|].
  assert (D : 1 <= Qabs (inject_Z r - inject_Z k)). { rewrite <- inj_sub, <- inj_abs. change 1 with (inject_Z 1). apply inj_le. lia. }
  assert (T : Qabs (inject_Z r - inject_Z k) <= Qabs (inject_Z r - x) + Qabs (inject_Z k - x)).
  { rewrite (Qabs_wd (inject_Z r - inject_Z k) ((inject_Z r - x) + (x - inject_Z k))) by ring. eapply Qle_trans; [apply Qabs_triangle|]. rewrite (Qabs_Qminus x (inject_Z k)). lra. }
  split; [lra|]. intros E _. assert (E1 : 2 * Qabs (inject_Z r - x) == 1) by lra. split; [now apply HE|].
  assert (D2 : Qabs (inject_Z r - inject_Z k) <= 1) by lra. rewrite <- inj_sub, <- inj_abs in D2. change 1 with (inject_Z 1) in D2. apply inj_le_inv in D2.
  destruct (HE E1) as (h & ->). assert (D3 : (k = 2 * h + 1 \/ k = 2 * h - 1)%Z) by lia. destruct D3 as [-> | ->]; [now exists h|exists (h - 1)%Z; lia].
Qed.

(** * Values of a format *)
Lemma number_finite s m e : number_of (S754_finite s m e) == (if s then -1 else 1) * (inject_Z (Zpos m) * p2 e).
Proof. unfold number_of, p2. destruct s; [change (Zneg m) with (- Zpos m)%Z; rewrite inject_Z_opp|]; ring. Qed.
Lemma value_bounds ff s m e : format_ok ff -> value_of ff (S754_finite s m e) ->
  (Zpos m < 2 ^ prec ff)%Z /\ (emin (prec ff) (emax ff) <= e <= emax ff - prec ff)%Z /\ (e = emin (prec ff) (emax ff) \/ 2 ^ (prec ff - 1) <= Zpos m)%Z.
Proof.
  intros HF H. unfold value_of in H. cbn [valid_binary] in H. apply andb_true_iff in H. destruct H as [H1 H2]. apply Zeq_bool_eq in H1. apply Zle_bool_imp_le in H2.
  unfold fexp in H1. pose proof (digits_bounds m) as [B1 B2]. unfold format_ok in HF. split; [|split; [lia|]].
  - eapply Z.lt_le_trans; [exact B2|]. apply Z.pow_le_mono_r; lia.
  - destruct (Z.eq_dec e (emin (prec ff) (emax ff))) as [|N]; [now left|right]. assert (Zpos (digits2_pos m) = prec ff) by lia. rewrite <- H. assumption.
Qed.
Lemma value_made ff m e : format_ok ff -> (Zpos m < 2 ^ prec ff)%Z -> (emin (prec ff) (emax ff) <= e <= emax ff - prec ff)%Z -> (e = emin (prec ff) (emax ff) \/ 2 ^ (prec ff - 1) <= Zpos m)%Z ->
  forall s, value_of ff (S754_finite s m e).
Proof.
  intros HF H1 H2 H3 s. unfold value_of. cbn [valid_binary]. apply andb_true_iff. split; [|apply Zle_imp_le_bool; lia]. apply Zeq_is_eq_bool. unfold fexp, format_ok in *.
  assert (D : (Zpos (digits2_pos m) <= prec ff)%Z) by (apply digits_le; lia). destruct H3 as [H3|H3]; [lia|]. rewrite (digits_unique m (prec ff)) by lia. lia.
Qed.

(** * The exponent *)
Lemma mul_cancel a b c : 0 < c -> a * c == b * c -> a == b.
Proof. intros H E. apply (Qmult_inj_r _ _ c); [lra|assumption]. Qed.
Lemma inj_pos d : (0 < d)%Z -> 0 < inject_Z d.
Proof. intros H. change 0 with (inject_Z 0). now apply inj_lt. Qed.
Lemma pow2_pos k : (0 <= k)%Z -> (0 < 2 ^ k)%Z.
Proof. intros H. apply Z.pow_pos_nonneg; lia. Qed.
Lemma scaled_ratio n d e : (0 < d)%Z -> ratio (n * 2 ^ Z.max (- e) 0) (d * 2 ^ Z.max e 0) == ratio n d * p2 (- e).
Proof.
  intros Hd. pose proof (pow2_pos (Z.max e 0) ltac:(lia)) as HP. assert (HD : (0 < d * 2 ^ Z.max e 0)%Z) by lia.
  apply (mul_cancel _ _ (inject_Z (d * 2 ^ Z.max e 0))); [now apply inj_pos|]. rewrite (ratio_mul _ _ HD), !inject_Z_mult, <- !p2_int by lia.
  rewrite (Qmult_assoc _ (inject_Z d)), (Qmult_comm _ (inject_Z d)), (Qmult_assoc (inject_Z d)), (Qmult_comm (inject_Z d)), (ratio_mul n d Hd), <- Qmult_assoc, <- p2_plus.
  replace (- e + Z.max e 0)%Z with (Z.max (- e) 0) by lia. reflexivity.
Qed.
Lemma at_least_pow2_true n d k : (0 < d)%Z -> at_least_pow2 n d k = true <-> p2 k <= ratio n d.
Proof.
  intros Hd. unfold at_least_pow2. pose proof (pow2_pos (Z.max k 0) ltac:(lia)) as HP. assert (HD : (0 < d * 2 ^ Z.max k 0)%Z) by lia.
  rewrite Z.leb_le. rewrite <- (Z.mul_1_l (d * _)), <- (ratio_le _ _ 1 HD), scaled_ratio by assumption. change (inject_Z 1) with 1. pose proof (p2_pos k) as K. pose proof (p2_neg_mul k) as E.
  split; intros H.
  - assert (H' : 1 * p2 k <= ratio n d * p2 (- k) * p2 k) by (apply Qmult_le_compat_r; lra). rewrite <- Qmult_assoc, E in H'. lra.
  - apply (Qmult_le_r _ _ (p2 k)); [assumption|]. rewrite <- Qmult_assoc, E. lra.
Qed.
Definition exponent2 (n d : Z) : Z := let l := (Z.log2 n - Z.log2 d)%Z in if at_least_pow2 n d l then l else (l - 1)%Z.
Lemma exponent2_spec n d : (0 < n)%Z -> (0 < d)%Z -> p2 (exponent2 n d) <= ratio n d < p2 (exponent2 n d + 1).
Proof.
  intros Hn Hd. unfold exponent2. set (a := Z.log2 n). set (b := Z.log2 d). pose proof (Z.log2_spec n Hn) as (A1 & A2). pose proof (Z.log2_spec d Hd) as (B1 & B2). fold a in A1, A2. fold b in B1, B2.
  assert (HA : (0 <= a)%Z) by apply Z.log2_nonneg. assert (HB : (0 <= b)%Z) by apply Z.log2_nonneg. clearbody a b.
  pose proof (inj_pos d Hd) as ID. pose proof (ratio_mul n d Hd) as RM.
  assert (U : ratio n d < p2 (a - b + 1)).
  { apply (Qmult_lt_r _ _ (inject_Z d)); [assumption|]. rewrite RM. apply inj_lt in A2. rewrite <- p2_int in A2 by lia. apply inj_le in B1. rewrite <- p2_int in B1 by lia.
    eapply Qlt_le_trans; [exact A2|]. unfold Z.succ. replace (a + 1)%Z with (a - b + 1 + b)%Z by lia. rewrite p2_plus. rewrite !(Qmult_comm (p2 (a - b + 1))). apply Qmult_le_compat_r; [assumption|]. pose proof (p2_pos (a - b + 1)). lra. }
  assert (L : p2 (a - b - 1) <= ratio n d).
  { apply (Qmult_le_r _ _ (inject_Z d)); [assumption|]. rewrite RM. apply inj_le in A1. rewrite <- p2_int in A1 by lia. apply inj_lt in B2. unfold Z.succ in B2. rewrite <- p2_int in B2 by lia.
    eapply Qle_trans; [|exact A1]. replace a with (a - b - 1 + (b + 1))%Z at 2 by lia. rewrite p2_plus. rewrite !(Qmult_comm (p2 (a - b - 1))). apply Qmult_le_compat_r; [lra|]. pose proof (p2_pos (a - b - 1)). lra. }
  cbv zeta. destruct (at_least_pow2 n d (a - b)) eqn:E.
  - apply at_least_pow2_true in E; [|assumption]. now split.
  - split; [assumption|]. replace (a - b - 1 + 1)%Z with (a - b)%Z by lia. destruct (Qlt_le_dec (ratio n d) (p2 (a - b))) as [|G]; [assumption|]. apply at_least_pow2_true in G; congruence.
Qed.

(** * Rounding *)
(** Grid points: [g] is a number k 2^e, or it is below 2^(p-1) 2^e. *)
Lemma value_on_grid ff m' e' e : format_ok ff -> value_of ff (S754_finite false m' e') ->
  (e <= e')%Z /\ (exists k, inject_Z k * p2 e == inject_Z (Zpos m') * p2 e' /\ (0 < k)%Z /\ (Z.Odd k -> k = Zpos m' /\ e = e')) \/
  (e' < e)%Z /\ (inject_Z (Zpos m') + 1) * p2 e' <= inject_Z (2 ^ (prec ff - 1)) * p2 e.
Proof.
  intros HF HV. destruct (value_bounds ff _ _ _ HF HV) as (B1 & B2 & B3). destruct (Z.le_gt_cases e e') as [L|L]; [left|right]; (split; [assumption|]).
  - exists (Zpos m' * 2 ^ (e' - e))%Z. pose proof (pow2_pos (e' - e) ltac:(lia)) as HP. split; [|split; [lia|]].
    + rewrite inject_Z_mult, <- p2_int, <- Qmult_assoc, <- p2_plus by lia. now replace (e' - e + e)%Z with e' by lia.
    + intros (h & E). destruct (Z.eq_dec e e') as [-> |N]; [rewrite Z.sub_diag, Z.mul_1_r; now split|exfalso].
      replace (e' - e)%Z with (Z.succ (e' - e - 1)) in E by lia. rewrite Z.pow_succ_r in E by lia. lia.
  - unfold format_ok in HF. rewrite <- p2_int by lia. rewrite <- p2_plus. replace (prec ff - 1 + e)%Z with (prec ff + (e - 1))%Z by lia. rewrite p2_plus.
    assert (H1 : inject_Z (Zpos m') + 1 <= p2 (prec ff)). { rewrite p2_int by lia. change 1 with (inject_Z 1). rewrite <- inject_Z_plus. apply inj_le. lia. }
    assert (H2 : p2 e' <= p2 (e - 1)) by (apply p2_le; lia). pose proof (p2_pos e'). pose proof (p2_pos (prec ff)).
    apply Qle_trans with (p2 (prec ff) * p2 e'); [apply Qmult_le_compat_r; lra|]. rewrite !(Qmult_comm (p2 (prec ff))). apply Qmult_le_compat_r; lra.
Qed.
Lemma grid_distance k x q e : q == x * p2 e -> Qabs (inject_Z k * p2 e - q) == Qabs (inject_Z k - x) * p2 e.
Proof. intros ->. pose proof (p2_pos e). rewrite <- (Qabs_pos (p2 e)) at 3 by lra. rewrite <- Qabs_Qmult. apply Qabs_wd. ring. Qed.
Lemma scaled_nearest ff q x e r g : format_ok ff -> 0 <= q -> q == x * p2 e -> close_int x r -> (emin (prec ff) (emax ff) <= e)%Z ->
  (e = emin (prec ff) (emax ff) \/ inject_Z (2 ^ (prec ff - 1)) <= x) -> finite g -> value_of ff g ->
  Qabs (inject_Z r * p2 e - q) <= Qabs (number_of g - q) /\
  (Qabs (inject_Z r * p2 e - q) == Qabs (number_of g - q) -> ~ inject_Z r * p2 e == number_of g -> Z.Even r /\ ~ even_mantissa g).
Proof.
  intros HF Hq Ex HC He HL HG HV. pose proof (p2_pos e) as HP.
  assert (Z0 : Qabs (0 - q) == Qabs (inject_Z 0 - x) * p2 e). { rewrite <- (grid_distance 0 x q e Ex). apply Qabs_wd. change (inject_Z 0) with 0. ring. }
  assert (HZ : Qabs (inject_Z r * p2 e - q) <= Qabs (0 - q)). { rewrite Z0, (grid_distance r x q e Ex). apply Qmult_le_compat_r; [|lra]. apply (close_nearest x r 0 HC). }
  destruct g as [s|s| |s m' e']; [|destruct HG..|].
  - cbn [number_of]. split; [assumption|]. rewrite Z0, (grid_distance r x q e Ex). intros E N. exfalso. apply (mul_cancel _ _ _ HP) in E.
    assert (NE : r <> 0%Z) by (intros ->; apply N; change (inject_Z 0) with 0; ring). destruct (proj2 (close_nearest x r 0 HC) E NE) as (_ & O). destruct O as (h & O). lia.
  - rewrite number_finite. pose proof (p2_pos e') as HP'. assert (HM : 0 < inject_Z (Zpos m') * p2 e') by (apply Qmult_lt_0_compat; [apply inj_pos; lia|assumption]).
    assert (Q0 : Qabs (0 - q) == q). { rewrite (Qabs_wd (0 - q) (- q)) by ring. rewrite Qabs_opp. apply Qabs_pos. assumption. }
    destruct s.
    { assert (QN : Qabs (-1 * (inject_Z (Zpos m') * p2 e') - q) == inject_Z (Zpos m') * p2 e' + q).
      { rewrite (Qabs_wd _ (- (inject_Z (Zpos m') * p2 e' + q))) by ring. rewrite Qabs_opp. apply Qabs_pos. lra. }
      rewrite QN, Q0 in *. split; [lra|]. intros E. exfalso. lra. }
    destruct (value_on_grid ff m' e' e HF HV) as [(L & k & EK & Hk & HO)|(L & HB)].
    + assert (EG : Qabs (1 * (inject_Z (Zpos m') * p2 e') - q) == Qabs (inject_Z k - x) * p2 e).
      { rewrite <- (grid_distance k x q e Ex). apply Qabs_wd. rewrite EK. ring. }
      rewrite EG, (grid_distance r x q e Ex). destruct (close_nearest x r k HC) as (C1 & C2). split; [apply Qmult_le_compat_r; lra|].
      intros E N. apply (mul_cancel _ _ _ HP) in E. assert (NE : r <> k) by (intros ->; apply N; rewrite EK; ring). destruct (C2 E NE) as (EV & OD). split; [assumption|].
      destruct (HO OD) as (-> & _). cbn [even_mantissa]. intros (h & Eh). destruct OD as (h' & Eh'). lia.
    + destruct HL as [HL|HL]; [destruct (value_bounds ff _ _ _ HF HV); lia|]. set (K := inject_Z (2 ^ (prec ff - 1))) in *.
      assert (DK : Qabs (inject_Z r * p2 e - q) <= (x - K) * p2 e).
      { rewrite (grid_distance r x q e Ex). apply Qmult_le_compat_r; [|lra]. eapply Qle_trans; [apply (close_nearest x r (2 ^ (prec ff - 1)) HC)|]. fold K. rewrite Qabs_Qminus, Qabs_pos by lra. lra. }
      assert (B2 : inject_Z (Zpos m') * p2 e' + p2 e' <= K * p2 e) by (rewrite Qmult_plus_distr_l in HB; lra).
      assert (B3 : K * p2 e <= x * p2 e) by (apply Qmult_le_compat_r; lra). assert (E3 : (x - K) * p2 e == x * p2 e - K * p2 e) by ring. rewrite E3, <- Ex in DK. rewrite <- Ex in B3.
      assert (EG : Qabs (1 * (inject_Z (Zpos m') * p2 e') - q) == q - inject_Z (Zpos m') * p2 e').
      { rewrite Qabs_Qminus, Qabs_pos by lra. ring. }
      rewrite EG. split; [lra|]. intros E. exfalso. lra.
Qed.
Lemma same_value ff m e m' e' : format_ok ff -> value_of ff (S754_finite false m e) -> value_of ff (S754_finite false m' e') ->
  inject_Z (Zpos m) * p2 e == inject_Z (Zpos m') * p2 e' -> m = m' /\ e = e'.
Proof.
  intros HF. assert (G : forall m e m' e', value_of ff (S754_finite false m e) -> value_of ff (S754_finite false m' e') -> inject_Z (Zpos m) * p2 e == inject_Z (Zpos m') * p2 e' -> ~ (e < e')%Z).
  { clear m e m' e'. intros m e m' e' H H' E L. destruct (value_on_grid ff m e e' HF H) as [(L' & _)|(_ & B)]; [lia|].
    destruct (value_bounds ff _ _ _ HF H) as (_ & B1 & _). destruct (value_bounds ff _ _ _ HF H') as (_ & _ & [B3|B3]); [lia|]. pose proof (p2_pos e). pose proof (p2_pos e').
    apply inj_le in B3. assert (B4 : inject_Z (2 ^ (prec ff - 1)) * p2 e' <= inject_Z (Zpos m') * p2 e') by (apply Qmult_le_compat_r; lra). rewrite Qmult_plus_distr_l in B. lra. }
  intros H H' E. assert (e = e') as ->. { pose proof (G _ _ _ _ H H' E). pose proof (G _ _ _ _ H' H (Qeq_sym _ _ E)). lia. }
  split; [|reflexivity]. apply mul_cancel in E; [|apply p2_pos]. unfold inject_Z, Qeq in E. cbn in E. lia.
Qed.
Lemma close_le x r k : close_int x r -> x <= inject_Z k -> (r <= k)%Z.
Proof.
  intros (H & _) L. destruct (Z.le_gt_cases r k) as [|G]; [assumption|exfalso]. assert (G' : (k + 1 <= r)%Z) by lia. apply inj_le in G'. rewrite inject_Z_plus in G'. change (inject_Z 1) with 1 in G'.
  rewrite Qabs_pos in H by lra. lra.
Qed.
Lemma close_ge x r k : close_int x r -> inject_Z k <= x -> (k <= r)%Z.
Proof.
  intros (H & _) L. destruct (Z.le_gt_cases k r) as [|G]; [assumption|exfalso]. assert (G' : (r + 1 <= k)%Z) by lia. apply inj_le in G'. rewrite inject_Z_plus in G'. change (inject_Z 1) with 1 in G'.
  rewrite Qabs_Qminus, Qabs_pos in H by lra. lra.
Qed.
Lemma round_correct ff n d : format_ok ff -> (0 <= n)%Z -> (0 < d)%Z ->
  (ratio n d < limit ff -> exists f, match round_magnitude ff n d with Zero_ => f = S754_zero false | Number m e => f = S754_finite false m e | TooLarge => False end /\
     nearest ff (ratio n d) f /\ forall g, nearest ff (ratio n d) g -> sign_of g = false -> g = f) /\
  (limit ff <= ratio n d -> round_magnitude ff n d = TooLarge).
Proof.
  intros HF Hn Hd. assert (HF' := HF). unfold format_ok in HF'. set (p := prec ff) in *. set (E := (emax ff - p)%Z). assert (Hemin : (emin p (emax ff) <= E)%Z) by (unfold emin, E; lia).
  assert (PP : (0 < 2 ^ (p - 1))%Z) by (apply pow2_pos; lia). assert (P2 : (2 ^ p = 2 * 2 ^ (p - 1))%Z) by (replace p with (Z.succ (p - 1)) at 1 by lia; apply Z.pow_succ_r; lia).
  assert (LIM : 0 < limit ff). { unfold limit. fold p E. apply Qmult_lt_0_compat; [|apply p2_pos]. assert (inject_Z 1 <= inject_Z (2 ^ p)) by (apply inj_le; lia). change (inject_Z 1) with 1 in *. lra. }
  destruct (Z.eq_dec n 0) as [-> |NZ].
  { assert (R0 : ratio 0 d == 0) by reflexivity. split; [|intros H; rewrite R0 in H; lra]. intros _. exists (S754_zero false). split; [reflexivity|]. split.
    - split; [exact I|]. split; [reflexivity|]. intros g _ _. cbn [number_of even_mantissa]. split; [|auto]. rewrite R0. change (Qabs (0 - 0)) with 0. apply Qabs_nonneg.
    - intros g (G1 & G2 & G3) HS. specialize (G3 (S754_zero false) I eq_refl). destruct G3 as (G3 & _). cbn [number_of] in G3. rewrite R0 in G3. change (Qabs (0 - 0)) with 0 in G3.
      destruct g as [s|s| |s m e]; [cbn [sign_of] in HS; now subst s|destruct G1..|exfalso]. cbn [sign_of] in HS. subst s. rewrite number_finite in G3.
      assert (0 < inject_Z (Zpos m) * p2 e) by (apply Qmult_lt_0_compat; [apply inj_pos; lia|apply p2_pos]). rewrite Qabs_pos in G3 by lra. lra. }
  assert (Hn' : (0 < n)%Z) by lia. set (q := ratio n d). assert (Hq : 0 < q) by now apply ratio_pos.
  pose proof (exponent2_spec n d Hn' Hd) as (K1 & K2). set (k := exponent2 n d) in *. fold q in K1, K2.
  set (e := exponent_of ff n d). assert (Ee : e = Z.max (k - p + 1) (emin p (emax ff))) by reflexivity.
  set (x := q * p2 (- e)). assert (Ex : q == x * p2 e) by (unfold x; rewrite <- Qmult_assoc, p2_neg_mul; ring).
  set (m := nearest_int (n * 2 ^ Z.max (- e) 0) (d * 2 ^ Z.max e 0)).
  assert (HC : close_int x m).
  { assert (HD : (0 < d * 2 ^ Z.max e 0)%Z) by (pose proof (pow2_pos (Z.max e 0) ltac:(lia)); lia). pose proof (close_ratio (n * 2 ^ Z.max (- e) 0) (d * 2 ^ Z.max e 0) m HD (nearest_int_even _ _ HD)) as (C1 & C2). rewrite scaled_ratio in C1, C2 by assumption. exact (conj C1 C2). }
  assert (X1 : x <= inject_Z (2 ^ p)).
  { apply (Qmult_le_r _ _ (p2 e)); [apply p2_pos|]. rewrite <- Ex, <- p2_int, <- p2_plus by lia. apply Qle_trans with (p2 (k + 1)); [lra|]. apply p2_le. lia. }
  assert (X2 : e = emin p (emax ff) \/ inject_Z (2 ^ (p - 1)) <= x).
  { destruct (Z.le_gt_cases (k - p + 1) (emin p (emax ff))) as [L|L]; [left; lia|right]. apply (Qmult_le_r _ _ (p2 e)); [apply p2_pos|]. rewrite <- Ex, <- p2_int, <- p2_plus by lia. replace (p - 1 + e)%Z with k by lia. assumption. }
  assert (X0 : inject_Z 0 <= x). { unfold x. change (inject_Z 0) with 0. apply Qmult_le_0_compat; [lra|]. pose proof (p2_pos (- e)). lra. }
  pose proof (close_le x m _ HC X1) as M1. pose proof (close_ge x m _ HC X0) as M0. assert (M2 : e = emin p (emax ff) \/ (2 ^ (p - 1) <= m)%Z) by (destruct X2 as [|X2]; [now left|right; exact (close_ge x m _ HC X2)]).
  assert (Hq0 : 0 <= q) by lra. assert (He0 : (emin p (emax ff) <= e)%Z) by lia. pose proof (fun g => scaled_nearest ff q x e m g HF Hq0 Ex HC He0 X2) as Rq.
  unfold round_magnitude. destruct (Z.eqb_spec n 0) as [|_]; [lia|]. fold p e m. cbv zeta.
  set (me := if (m =? 2 ^ p)%Z then (2 ^ (p - 1), e + 1)%Z else (m, e)).
  assert (ME : exists m1 e1, me = (m1, e1) /\ inject_Z m1 * p2 e1 == inject_Z m * p2 e /\ (0 <= m1 < 2 ^ p)%Z /\ (emin p (emax ff) <= e1)%Z /\ (e1 = emin p (emax ff) \/ (2 ^ (p - 1) <= m1)%Z) /\ (Z.Even m -> Z.Even m1) /\
    (e1 = e /\ m1 = m \/ e1 = (e + 1)%Z /\ m = (2 ^ p)%Z)).
  { unfold me. destruct (Z.eqb_spec m (2 ^ p)) as [EM|NM].
    - exists (2 ^ (p - 1))%Z, (e + 1)%Z. split; [reflexivity|]. split; [rewrite EM, P2, inject_Z_mult, p2_succ; change (inject_Z 2) with 2; ring|]. split; [lia|]. split; [lia|]. split; [right; lia|]. split; [|right; auto].
      intros _. exists (2 ^ (p - 2))%Z. replace (p - 1)%Z with (Z.succ (p - 2)) by lia. apply Z.pow_succ_r. lia.
    - exists m, e. split; [reflexivity|]. split; [reflexivity|]. split; [lia|]. split; [lia|]. split; [assumption|]. split; [auto|left; auto]. }
  destruct ME as (m1 & e1 & -> & EV & B1 & B2 & B3 & B4 & B5).
  assert (LT : q < limit ff -> (e1 <= E)%Z).
  { intros L. unfold limit in L. fold p E in L. change ((2 # 1) ^ E) with (p2 E) in L.
    assert (KE : (k < emax ff)%Z). { apply p2_lt_inv. apply Qle_lt_trans with q; [assumption|]. eapply Qlt_le_trans; [exact L|]. replace (emax ff) with (p + E)%Z by (unfold E; lia). rewrite p2_plus, <- p2_int by lia. apply Qmult_le_compat_r; [lra|]. pose proof (p2_pos E). lra. }
    assert (He : (e <= E)%Z) by (unfold E in *; lia). destruct B5 as [(-> & _)|(-> & EM)]; [assumption|]. destruct (Z.eq_dec e E) as [EE|]; [exfalso|lia].
    rewrite Ex, EE in L. apply Qmult_lt_r in L; [|apply p2_pos]. destruct HC as (C1 & _). rewrite EM in C1. rewrite Qabs_pos in C1 by lra. lra. }
  assert (GE : limit ff <= q -> (E < e1)%Z).
  { intros L. unfold limit in L. fold p E in L. change ((2 # 1) ^ E) with (p2 E) in L. destruct (Z.le_gt_cases e1 E) as [L1|]; [exfalso|assumption].
    assert (He : (e <= E)%Z) by (destruct B5 as [(? & _)|(? & _)]; lia).
    assert (KE : (emax ff - 1 < k + 1)%Z). { apply p2_lt_inv. eapply Qle_lt_trans; [|exact K2]. eapply Qle_trans; [|exact L]. replace (emax ff - 1)%Z with (p - 1 + E)%Z by (unfold E; lia). rewrite p2_plus, P2, inject_Z_mult, p2_int by lia. change (inject_Z 2) with 2.
      apply Qmult_le_compat_r; [|pose proof (p2_pos E); lra]. assert (inject_Z 1 <= inject_Z (2 ^ (p - 1))) by (apply inj_le; lia). change (inject_Z 1) with 1 in *. lra. }
    assert (EE : e = E) by (unfold E in *; lia). rewrite Ex, EE in L. apply Qmult_le_r in L; [|apply p2_pos].
    assert (M3 : (2 ^ p - 1 <= m)%Z) by (apply (close_ge x m _ HC); rewrite inj_sub; change (inject_Z 1) with 1; lra).
    destruct (Z.eq_dec m (2 ^ p)) as [EM|NM]; [destruct B5 as [(-> & ->)|(? & _)]; lia|]. assert (M4 : m = (2 ^ p - 1)%Z) by lia.
    destruct HC as (C1 & C2). assert (AB : Qabs (inject_Z m - x) == x - inject_Z m) by (rewrite Qabs_Qminus, Qabs_pos; [reflexivity|]; rewrite M4, inj_sub; change (inject_Z 1) with 1; lra).
    rewrite AB in C1, C2. assert (M5 : inject_Z m == inject_Z (2 ^ p) - 1) by (rewrite M4, inj_sub; reflexivity). destruct (C2 ltac:(lra)) as (h & Eh). lia. }
  rewrite Z.gtb_ltb. fold E. split.
  - intros L. specialize (LT L). destruct (Z.ltb_spec E e1) as [|_]; [lia|].
    assert (NV : exists f, match match m1 with Zpos m => Number m e1 | _ => Zero_ end with Zero_ => f = S754_zero false | Number m e => f = S754_finite false m e | TooLarge => False end /\
      finite f /\ value_of ff f /\ number_of f == inject_Z m * p2 e /\ (Z.Even m -> even_mantissa f) /\ sign_of f = false).
    { destruct m1 as [|m1|m1]; [| |lia].
      - exists (S754_zero false). split; [reflexivity|]. split; [exact I|]. split; [reflexivity|]. split; [rewrite <- EV; cbn [number_of]; change (inject_Z 0) with 0; ring|]. split; [intros; exact I|reflexivity].
      - exists (S754_finite false m1 e1). split; [reflexivity|]. split; [exact I|]. split; [apply value_made; fold p E; auto; lia|]. split; [rewrite number_finite, <- EV; ring|]. split; [exact B4|reflexivity]. }
    destruct NV as (f & F0 & F1 & F2 & F3 & F4 & F5). exists f. split; [assumption|].
    assert (NF : nearest ff q f).
    { split; [assumption|]. split; [assumption|]. intros g HG HV. rewrite F3. destruct (Rq g HG HV) as (R1 & R2). split; [assumption|]. intros Eq N. apply F4. apply (R2 Eq N). }
    split; [assumption|]. intros g NG SG. destruct NG as (G1 & G2 & G3). destruct (Rq g G1 G2) as (R1 & R2). destruct (G3 f F1 F2) as (G4 & G5). rewrite F3 in G4, G5.
    assert (EqD : Qabs (inject_Z m * p2 e - q) == Qabs (number_of g - q)) by lra.
    assert (SV : number_of g == inject_Z m * p2 e).
    { destruct (Qeq_dec (number_of g) (inject_Z m * p2 e)) as [|N]; [assumption|exfalso]. apply (R2 EqD); [intros X; apply N; now rewrite X|]. apply G5; [now rewrite EqD|assumption]. }
    rewrite <- F3 in SV. destruct g as [s|s| |s mg eg]; [|destruct G1..|]; cbn [sign_of] in SG; subst s; (destruct f as [s|s| |s mf ef]; [|destruct F1..|]); cbn [sign_of] in F5; subst s; [reflexivity| | |].
    + exfalso. rewrite number_finite in SV. cbn [number_of] in SV. assert (0 < inject_Z (Zpos mf) * p2 ef) by (apply Qmult_lt_0_compat; [apply inj_pos; lia|apply p2_pos]). lra.
    + exfalso. rewrite number_finite in SV. cbn [number_of] in SV. assert (0 < inject_Z (Zpos mg) * p2 eg) by (apply Qmult_lt_0_compat; [apply inj_pos; lia|apply p2_pos]). lra.
    + rewrite !number_finite in SV. rewrite !Qmult_1_l in SV. now destruct (same_value ff mg eg mf ef HF G2 F2 SV) as (-> & ->).
  - intros L. specialize (GE L). destruct (Z.ltb_spec E e1) as [_|]; [reflexivity|lia].
Qed.
