(** C70: numbers written with enough digits are read back unchanged. *)
From Coq Require Import SpecFloat QArith Qabs Qpower Qfield Lqa.
From Verif Require Import Common Format_Model Format_Spec Format_Proofs Float_Model Float_Spec Float_Proofs Float_Props Json_Model JsonFloat_Model JsonFloat_Props FloatRead_Spec FloatRead_Model FloatRead_Proofs FloatRead_Text_Proofs FloatRead_Props.
Local Open Scope Z_scope.

(** The magnitude of a number, as in Float_Spec. *)
Definition magnitude_of (f : spec_float) : magnitude :=
  match f with S754_zero _ => Finite 0 0 | S754_finite _ m e => Finite (Zpos m) e | S754_infinity _ => Infinity | S754_nan => NotANumber end.

(** * Powers of ten *)
Definition p10 (e : Z) : Q := ((10 # 1) ^ e)%Q.
Lemma p10_pos e : (0 < p10 e)%Q.
Proof. apply Qpower_0_lt. lra. Qed.
Lemma p10_plus a b : (p10 (a + b) == p10 a * p10 b)%Q.
Proof. apply Qpower_plus. lra. Qed.
Lemma p10_int k : 0 <= k -> (p10 k == inject_Z (10 ^ k))%Q.
Proof. intros H. unfold p10. rewrite Zpower_Qpower by assumption. reflexivity. Qed.
Lemma scaled_ratio10 n d k : 0 < d -> (ratio (n * 10 ^ Z.max k 0) (d * 10 ^ Z.max (- k) 0) == ratio n d * p10 k)%Q.
Proof.
  intros Hd. assert (HP : 0 < 10 ^ Z.max (- k) 0) by (apply Z.pow_pos_nonneg; lia). assert (HD : 0 < d * 10 ^ Z.max (- k) 0) by lia.
  apply (mul_cancel _ _ (inject_Z (d * 10 ^ Z.max (- k) 0))); [now apply inj_pos|]. rewrite (ratio_mul _ _ HD), !inject_Z_mult, <- !p10_int by lia.
  rewrite (Qmult_assoc _ (inject_Z d)), (Qmult_comm _ (inject_Z d)), (Qmult_assoc (inject_Z d)), (Qmult_comm (inject_Z d)), (ratio_mul n d Hd), <- Qmult_assoc, <- p10_plus.
  replace (k + Z.max (- k) 0)%Z with (Z.max k 0) by lia. reflexivity.
Qed.
Lemma at_least_ratio n d x : 0 < d -> at_least_pow10 n d x -> (p10 x <= ratio n d)%Q.
Proof.
  intros Hd H. unfold at_least_pow10 in H. assert (HP : 0 < 10 ^ Z.max x 0) by (apply Z.pow_pos_nonneg; lia).
  assert (H1 : (1 <= ratio (n * 10 ^ Z.max (- x) 0) (d * 10 ^ Z.max (- - x) 0))%Q). { change 1%Q with (inject_Z 1). apply ratio_le; rewrite Z.opp_involutive; lia. }
  rewrite scaled_ratio10 in H1 by assumption. pose proof (p10_pos x) as HX.
  assert (H2 : (1 * p10 x <= ratio n d * p10 (- x) * p10 x)%Q) by (apply Qmult_le_compat_r; lra). rewrite <- Qmult_assoc, <- p10_plus in H2. replace (- x + x) with 0 in H2 by lia. change (p10 0) with 1%Q in H2. lra.
Qed.

(** * The distance of the text from the number *)
(** [q] differs from [v] by at most v / (2 T). *)
Definition within (T v q : Q) : Prop := (2 * Qabs (q - v) * T <= v)%Q.
Lemma scientific_within p n d x ds : 0 < d -> 0 < n -> scientific_digits p n d x ds -> within (p10 (Z.of_nat p)) (ratio n d) (inject_Z (positional_value 10 ds) * p10 (x - Z.of_nat p)).
Proof.
  intros Hd Hn (_ & _ & [(-> & _)|(_ & x0 & r & H1 & _ & HR & HC)]); [lia|].
  set (P := Z.of_nat p) in *. assert (EQ : (inject_Z (positional_value 10 ds) * p10 (x - P) == inject_Z r * p10 (x0 - P))%Q).
  { destruct HC as [(_ & -> & ->)|(-> & -> & ->)]; [reflexivity|]. rewrite <- !p10_int by (unfold P; lia). rewrite <- !p10_plus. now replace (P + (x0 + 1 - P)) with (P + 1 + (x0 - P)) by lia. }
  unfold within. rewrite EQ. apply close_ratio in HR; [|now apply scaled_den_pos]. destruct HR as (HR & _). rewrite scaled_ratio10 in HR by assumption.
  set (v := ratio n d) in *. pose proof (p10_pos (x0 - P)) as HP. pose proof (p10_pos P) as HP'.
  assert (ED : (Qabs (inject_Z r * p10 (x0 - P) - v) == Qabs (inject_Z r - v * p10 (P - x0)) * p10 (x0 - P))%Q).
  { rewrite <- (Qabs_pos (p10 (x0 - P))) at 2 by lra. rewrite <- Qabs_Qmult. apply Qabs_wd. unfold Qminus. rewrite Qmult_plus_distr_l. apply Qplus_inj_l.
    assert (EE : (v * p10 (P - x0) * p10 (x0 - P) == v)%Q) by (rewrite <- Qmult_assoc, <- p10_plus; replace (P - x0 + (x0 - P)) with 0 by lia; change (p10 0) with 1%Q; ring).
    rewrite <- EE at 1. ring. }
  rewrite ED. apply at_least_ratio in H1; [|assumption]. fold v in H1.
  assert (E2 : (2 * (Qabs (inject_Z r - v * p10 (P - x0)) * p10 (x0 - P)) * p10 P == 2 * Qabs (inject_Z r - v * p10 (P - x0)) * p10 x0)%Q).
  { rewrite (Qmult_assoc 2), <- Qmult_assoc, <- p10_plus. now replace (x0 - P + P) with x0 by lia. }
  rewrite E2. pose proof (p10_pos x0). apply Qle_trans with (1 * p10 x0)%Q; [apply Qmult_le_compat_r; lra|lra].
Qed.

(** * Spacing of the values of a format *)
Lemma spacing ff m e g : format_ok ff -> value_of ff (S754_finite false m e) -> finite g -> value_of ff g -> ~ (number_of g == inject_Z (Zpos m) * p2 e)%Q ->
  (inject_Z (Zpos m) * p2 e <= p2 (prec ff) * Qabs (number_of g - inject_Z (Zpos m) * p2 e))%Q.
Proof.
  intros HF HV HG HVG HN. destruct (value_bounds ff _ _ _ HF HV) as (B1 & B2 & B3). pose proof (p2_pos e) as HP. pose proof (p2_pos (prec ff)) as HPP. unfold format_ok in HF.
  assert (M1 : (inject_Z (Zpos m) <= p2 (prec ff))%Q) by (rewrite p2_int by lia; apply inj_le; lia). assert (M0 : (1 <= inject_Z (Zpos m))%Q) by (change 1%Q with (inject_Z 1); apply inj_le; lia).
  assert (V0 : (0 < inject_Z (Zpos m) * p2 e)%Q) by (apply Qmult_lt_0_compat; lra). set (v := (inject_Z (Zpos m) * p2 e)%Q) in *.
  assert (VP : (v <= p2 (prec ff) * p2 e)%Q) by (apply Qmult_le_compat_r; lra).
  assert (P1 : (1 <= p2 (prec ff))%Q) by (change 1%Q with (p2 0); apply p2_le; lia).
  assert (FAR : forall D, (v <= D)%Q -> (v <= p2 (prec ff) * D)%Q). { intros D HD. apply Qle_trans with (1 * D)%Q; [lra|]. apply Qmult_le_compat_r; lra. }
  assert (GRID : forall k, (number_of g == inject_Z k * p2 e)%Q -> (v <= p2 (prec ff) * Qabs (number_of g - v))%Q).
  { intros k EK. assert (ED : (Qabs (number_of g - v) == inject_Z (Z.abs (k - Zpos m)) * p2 e)%Q).
    { rewrite inj_abs, inj_sub, EK. rewrite <- (Qabs_pos (p2 e)) at 2 by lra. rewrite <- Qabs_Qmult. apply Qabs_wd. unfold v. ring. }
    assert (NK : k <> Zpos m) by (intros ->; now apply HN). assert (D1 : (1 <= inject_Z (Z.abs (k - Zpos m)))%Q) by (change 1%Q with (inject_Z 1); apply inj_le; lia).
    rewrite ED. eapply Qle_trans; [exact VP|]. rewrite !(Qmult_comm (p2 (prec ff))). apply Qmult_le_compat_r; [|lra]. apply Qle_trans with (1 * p2 e)%Q; [lra|]. apply Qmult_le_compat_r; lra. }
  destruct g as [s|s| |s m' e']; [|destruct HG..|].
  - apply (GRID 0). cbn [number_of]. change (inject_Z 0) with 0%Q. ring.
  - rewrite number_finite in *. assert (HM : (0 < inject_Z (Zpos m') * p2 e')%Q) by (apply Qmult_lt_0_compat; [apply inj_pos; lia|apply p2_pos]). destruct s.
    + apply FAR. rewrite (Qabs_wd _ (- (inject_Z (Zpos m') * p2 e' + v))) by ring. rewrite Qabs_opp, Qabs_pos by lra. lra.
    + destruct (value_on_grid ff m' e' e HF HVG) as [(_ & k & EK & _)|(L & HB)]; [specialize (GRID k); rewrite number_finite in GRID; apply GRID; rewrite EK; ring|].
      destruct B3 as [B3|B3]; [destruct (value_bounds ff _ _ _ HF HVG); lia|].
      (* g is below the binade of v *)
      set (K := 2 ^ (prec ff - 1)) in *. assert (EK : (p2 (prec ff) == 2 * inject_Z K)%Q). { unfold K. rewrite <- p2_int by lia. rewrite <- p2_succ. now replace (prec ff - 1 + 1) with (prec ff) by lia. }
      assert (HB' : (inject_Z (Zpos m') * p2 e' + p2 e' <= inject_Z K * p2 e)%Q) by (rewrite Qmult_plus_distr_l in HB; lra). pose proof (p2_pos e') as HP'.
      rewrite Qabs_Qminus, Qabs_pos; [|assert (KM : (inject_Z K <= inject_Z (Zpos m))%Q) by (now apply inj_le); assert (KV : (inject_Z K * p2 e <= v)%Q) by (apply Qmult_le_compat_r; lra); lra].
      (* the gap is at least half a unit: g <= (2 K - 1) 2^(e-1) *)
      assert (HH : (inject_Z (Zpos m') * p2 e' <= inject_Z K * p2 e - p2 (e - 1))%Q).
      { destruct (value_bounds ff _ _ _ HF HVG) as (C1 & _ & _). assert (Q1 : (inject_Z (Zpos m') <= p2 (prec ff) - 1)%Q). { rewrite p2_int by lia. change 1%Q with (inject_Z 1). rewrite <- inj_sub. apply inj_le. lia. }
        assert (Q2 : (p2 e' <= p2 (e - 1))%Q) by (apply p2_le; lia). assert (Q3 : (p2 e == 2 * p2 (e - 1))%Q) by (rewrite <- p2_succ; now replace (e - 1 + 1) with e by lia). pose proof (p2_pos (e - 1)).
        apply Qle_trans with ((p2 (prec ff) - 1) * p2 (e - 1))%Q.
        - apply Qle_trans with ((p2 (prec ff) - 1) * p2 e')%Q; [apply Qmult_le_compat_r; lra|]. rewrite !(Qmult_comm (p2 (prec ff) - 1)). apply Qmult_le_compat_r; lra.
        - rewrite Q3, EK. lra. }
      assert (Q3 : (p2 e == 2 * p2 (e - 1))%Q) by (rewrite <- p2_succ; now replace (e - 1 + 1) with e by lia). pose proof (p2_pos (e - 1)) as HE1.
      destruct (Z.eq_dec (Zpos m) K) as [EM|NM].
      * assert (EV : (v == p2 (prec ff) * p2 (e - 1))%Q) by (unfold v; rewrite EM, EK, Q3; ring). rewrite EV at 1. rewrite !(Qmult_comm (p2 (prec ff))). apply Qmult_le_compat_r; [|lra].
        assert (VK : (v == inject_Z K * p2 e)%Q) by (unfold v; now rewrite EM). lra.
      * assert (Q4 : (inject_Z K * p2 e + p2 e <= v)%Q). { apply Qle_trans with ((inject_Z K + 1) * p2 e)%Q; [lra|]. apply Qmult_le_compat_r; [|lra]. change 1%Q with (inject_Z 1). rewrite <- inject_Z_plus. apply inj_le. lia. }
        eapply Qle_trans; [exact VP|]. rewrite !(Qmult_comm (p2 (prec ff))). apply Qmult_le_compat_r; lra.
Qed.
(** A number as near to a value as that is read as this value. *)
Lemma within_nearest ff m e T q : format_ok ff -> value_of ff (S754_finite false m e) -> (p2 (prec ff) < T)%Q -> within T (inject_Z (Zpos m) * p2 e) q ->
  nearest ff q (S754_finite false m e) /\ (q < limit ff)%Q /\ ((smallest_normal ff < inject_Z (Zpos m) * p2 e)%Q -> (smallest_normal ff <= q)%Q).
Proof.
  intros HF HV HT HW. pose proof (value_bounds ff _ _ _ HF HV) as (B1 & B2 & B3). pose proof (p2_pos e) as HP. pose proof (p2_pos (prec ff)) as HPP. pose proof HF as HF'. unfold format_ok in HF'.
  set (v := (inject_Z (Zpos m) * p2 e)%Q) in *. unfold within in HW. assert (M0 : (1 <= inject_Z (Zpos m))%Q) by (change 1%Q with (inject_Z 1); apply inj_le; lia).
  assert (V0 : (0 < v)%Q) by (apply Qmult_lt_0_compat; lra). set (D := Qabs (q - v)) in *. pose proof (Qabs_nonneg (q - v)) as D0. fold D in D0.
  assert (P1 : (4 <= p2 (prec ff))%Q) by (change 4%Q with (p2 2); apply p2_le; lia).
  (* 2 D p2 prec < v *)
  assert (DV : (2 * D * p2 (prec ff) < v \/ D == 0)%Q).
  { destruct (Qeq_dec D 0) as [Z|NZ]; [now right|left]. assert (DP : (0 < D)%Q) by (apply Qle_lteq in D0; destruct D0 as [?|X]; [assumption|symmetry in X; contradiction]). eapply Qlt_le_trans; [|exact HW].
    rewrite !(Qmult_comm (2 * D)). apply Qmult_lt_compat_r; lra. }
  assert (DV' : (2 * D * p2 (prec ff) < v)%Q) by (destruct DV as [|Z]; [assumption|rewrite Z; lra]).
  assert (EV : (number_of (S754_finite false m e) == v)%Q) by (rewrite number_finite; unfold v; ring).
  assert (EDq : (Qabs (number_of (S754_finite false m e) - q) == D)%Q) by (rewrite EV, Qabs_Qminus; reflexivity).
  split; [|split].
  - split; [exact I|]. split; [assumption|]. intros g HG HVG. rewrite EDq. destruct (Qeq_dec (number_of g) v) as [Eg|Ng].
    + assert (ED : (Qabs (number_of g - q) == D)%Q) by (rewrite Eg, Qabs_Qminus; reflexivity). rewrite ED. split; [lra|]. intros _ X. exfalso. apply X. rewrite EV, Eg. reflexivity.
    + pose proof (spacing ff m e g HF HV HG HVG Ng) as SP. fold v in SP. set (G := Qabs (number_of g - v)) in *.
      assert (TR : (G <= Qabs (number_of g - q) + D)%Q). { unfold G, D. eapply Qle_trans; [|apply Qabs_triangle]. apply Qle_lteq. right. apply Qabs_wd. ring. }
      assert (GD : (2 * D < G)%Q). { apply (Qmult_lt_r _ _ (p2 (prec ff))); [assumption|]. eapply Qlt_le_trans; [exact DV'|]. rewrite (Qmult_comm G). exact SP. }
      split; [lra|]. intros X. exfalso. lra.
  - (* q <= v + D < limit *)
    assert (QD : (q - v <= D)%Q) by apply Qle_Qabs. unfold limit. change ((2 # 1) ^ (emax ff - prec ff))%Q with (p2 (emax ff - prec ff)). set (E := emax ff - prec ff) in *.
    assert (V1 : (v <= (p2 (prec ff) - 1) * p2 E)%Q).
    { assert (M1 : (inject_Z (Zpos m) <= p2 (prec ff) - 1)%Q). { rewrite p2_int by lia. change 1%Q with (inject_Z 1). rewrite <- inj_sub. apply inj_le. lia. }
      assert (PE : (p2 e <= p2 E)%Q) by (apply p2_le; lia). apply Qle_trans with ((p2 (prec ff) - 1) * p2 e)%Q; [apply Qmult_le_compat_r; lra|]. rewrite !(Qmult_comm (p2 (prec ff) - 1)). apply Qmult_le_compat_r; lra. }
    pose proof (p2_pos E) as HE. rewrite <- p2_int by lia. assert (D1 : (2 * D < p2 E)%Q).
    { apply (Qmult_lt_r _ _ (p2 (prec ff))); [assumption|]. eapply Qlt_le_trans; [exact DV'|]. eapply Qle_trans; [exact V1|]. rewrite (Qmult_comm (p2 E)). apply Qmult_le_compat_r; lra. }
    assert (R : ((p2 (prec ff) - (1 # 2)) * p2 E == (p2 (prec ff) - 1) * p2 E + (1 # 2) * p2 E)%Q) by ring. rewrite R. lra.
  - (* the next value above the smallest normal number is more than a unit away *)
    intros HS. unfold smallest_normal in *. set (e0 := emin (prec ff) (emax ff)) in *. change ((2 # 1) ^ (e0 + prec ff - 1))%Q with (p2 (e0 + prec ff - 1)) in *. set (N := p2 (e0 + prec ff - 1)) in *.
    assert (KN : value_of ff (S754_finite false (Z.to_pos (2 ^ (prec ff - 1))) e0)).
    { assert (0 < 2 ^ (prec ff - 1)) by (apply pow2_pos; lia). assert (2 ^ (prec ff - 1) < 2 ^ prec ff) by (apply Z.pow_lt_mono_r; lia). apply value_made; [assumption|rewrite Z2Pos.id by lia; lia|fold e0; lia|now left]. }
    assert (EN : (number_of (S754_finite false (Z.to_pos (2 ^ (prec ff - 1))) e0) == N)%Q).
    { rewrite number_finite, Z2Pos.id by (apply pow2_pos; lia). rewrite <- p2_int by lia. rewrite <- p2_plus. unfold N. replace (prec ff - 1 + e0) with (e0 + prec ff - 1) by lia. ring. }
    pose proof (spacing ff m e (S754_finite false (Z.to_pos (2 ^ (prec ff - 1))) e0) HF HV I KN) as SP. rewrite EN in SP. fold v in SP. specialize (SP ltac:(intros X; lra)). rewrite Qabs_Qminus, Qabs_pos in SP by lra.
    assert (GD : (2 * D < v - N)%Q). { apply (Qmult_lt_r _ _ (p2 (prec ff))); [assumption|]. eapply Qlt_le_trans; [exact DV'|]. rewrite (Qmult_comm (v - N)). exact SP. }
    assert (QD : (v - q <= D)%Q) by (unfold D; rewrite Qabs_Qminus; apply Qle_Qabs). lra.
Qed.

(** * What is written is a decimal text *)
Lemma point_mantissa alt ip fp : decimal_digits ip -> decimal_digits fp -> ip <> [] -> mantissa_text decimal_digit ip fp (ip ++ point alt fp).
Proof.
  intros H1 H2 N. split; [assumption|]. split; [assumption|]. split; [intros E; apply app_eq_nil in E; tauto|]. destruct fp as [|c fp]; cbn [point]; [|now right]. destruct alt; [now right|left; now rewrite app_nil_r].
Qed.
Lemma exponent_reads x s : exponent_text x s -> exponent_suffix 101 69 x s.
Proof.
  intros (ds & -> & (F & V & N & _)). right. exists 101, [if x <? 0 then 45 else 43], ((if Z.abs x <? 10 then [48] else []) ++ ds). split; [now left|]. split; [reflexivity|].
  split; [intros E; apply app_eq_nil in E; tauto|]. split; [apply Forall_app; split; [destruct (Z.abs x <? 10); [constructor; [left; lia|constructor]|constructor]|assumption]|].
  assert (EV : positional_value 10 ((if Z.abs x <? 10 then [48] else []) ++ ds) = Z.abs x). { destruct (Z.abs x <? 10); cbn [app positional_value]; rewrite V; [change (value_of_digit 48) with 0; lia|reflexivity]. }
  rewrite EV. destruct (Z.ltb_spec x 0); [right; split; [reflexivity|lia]|left; split; [now right|lia]].
Qed.
Lemma stripped_value alt ip fp fp' : without_zeros alt fp fp' ->
  (inject_Z (positional_value 10 (ip ++ fp')) * p10 (- Z.of_nat (length fp')) == inject_Z (positional_value 10 (ip ++ fp)) * p10 (- Z.of_nat (length fp)))%Q.
Proof.
  destruct alt; cbn [without_zeros]; [now intros ->|]. intros (k & -> & _). rewrite app_assoc, (positional_value_app 10 (ip ++ fp')) by lia. rewrite zeros_value, Z.add_0_r, app_length, !repeat_length.
  rewrite inject_Z_mult, <- p10_int by lia. rewrite <- Qmult_assoc, <- p10_plus. now replace (Z.of_nat k + - Z.of_nat (length fp' + k)) with (- Z.of_nat (length fp')) by lia.
Qed.
Lemma without_zeros_digits alt fp fp' : without_zeros alt fp fp' -> decimal_digits fp -> decimal_digits fp'.
Proof. destruct alt; cbn [without_zeros]; [now intros ->|]. intros (k & -> & _) H. apply Forall_app in H. tauto. Qed.
Lemma scientific_style alt n d x c fp fp' ex : scientific_digits (length fp) n d x (c :: fp) -> without_zeros alt fp fp' -> exponent_text x ex ->
  exists q, decimal_text q (c :: point alt fp' ++ ex) /\ (q == inject_Z (positional_value 10 (c :: fp)) * p10 (x - Z.of_nat (length fp)))%Q.
Proof.
  intros (HD & _ & _) HW HX. inversion HD as [|? ? Hc Hf]; subst. pose proof (without_zeros_digits _ _ _ HW Hf) as Hf'. eexists. split.
  - exists [c], fp', x, (c :: point alt fp'), ex. split; [reflexivity|]. split; [apply (point_mantissa alt [c] fp'); [now constructor|assumption|discriminate]|]. split; [now apply exponent_reads|reflexivity].
  - change ((10 # 1) ^ (x - Z.of_nat (length fp')))%Q with (p10 (x + - Z.of_nat (length fp'))). change (x - Z.of_nat (length fp)) with (x + - Z.of_nat (length fp)). rewrite !p10_plus, !(Qmult_comm (p10 x)), !Qmult_assoc.
    pose proof (stripped_value alt [c] fp fp' HW) as SV. cbn [app] in SV. rewrite <- SV. reflexivity.
Qed.
Lemma fixed_value P n d x ds ip fp : 0 < d -> 0 <= n -> (0 < P)%nat -> x < Z.of_nat P ->
  scientific_digits (P - 1) n d x ds -> fixed_digits (Z.to_nat (Z.of_nat P - 1 - x)) n d ip fp -> positional_value 10 (ip ++ fp) = positional_value 10 ds.
Proof.
  intros Hd Hn HP HX (_ & _ & HC) (_ & _ & _ & _ & _ & HR). rewrite Z2Nat.id in HR by lia. destruct HC as [(-> & _ & EV)|(HN & x0 & r & _ & _ & HR0 & HCC)].
  - rewrite EV. apply (nearest_even_unique 0 d); [assumption|exact HR|]. split; [cbn; lia|intros _; now exists 0].
  - destruct HCC as [(RB & -> & ->)|(RB & -> & ->)].
    + symmetry. apply (nearest_even_unique (n * 10 ^ (Z.of_nat P - 1 - x0)) d); [assumption| |exact HR].
      unfold nearest_scaled in HR0. replace (Z.of_nat (P - 1) - x0) with (Z.of_nat P - 1 - x0) in HR0 by lia. rewrite (Z.max_l (Z.of_nat P - 1 - x0) 0), (Z.max_r (- (Z.of_nat P - 1 - x0)) 0) in HR0 by lia. now rewrite Z.mul_1_r in HR0.
    + unfold nearest_scaled in HR0. replace (Z.of_nat (P - 1) - x0) with (Z.of_nat P - 1 - (x0 + 1) + 1) in HR0 by lia. rewrite (Z.max_l (Z.of_nat P - 1 - (x0 + 1) + 1) 0), (Z.max_r (- (Z.of_nat P - 1 - (x0 + 1) + 1)) 0) in HR0 by lia. rewrite Z.mul_1_r in HR0.
      rewrite Z.pow_add_r in HR0 by lia. change (10 ^ 1) with 10 in HR0. rewrite RB in HR0. replace (Z.of_nat (P - 1) + 1) with (Z.of_nat P - 1 + 1) in HR0 by lia. rewrite Z.pow_add_r in HR0 by lia. change (10 ^ 1) with 10 in HR0.
      replace (Z.of_nat (P - 1)) with (Z.of_nat P - 1) by lia. set (T := 10 ^ (Z.of_nat P - 1)) in *. set (N := n * 10 ^ (Z.of_nat P - 1 - (x0 + 1))) in *. rewrite Z.mul_assoc in HR0. fold N in HR0.
      set (v := positional_value 10 (ip ++ fp)) in *. clearbody T N v. destruct HR0 as (A & _), HR as (B & _). replace (T * 10 * d - N * 10) with (10 * (T * d - N)) in A by lia.
      destruct (Z.lt_trichotomy v T) as [L|[L|L]]; [exfalso| assumption|exfalso].
      * assert ((v + 1) * d <= T * d) by (apply Z.mul_le_mono_nonneg_r; lia). lia.
      * assert ((T + 1) * d <= v * d) by (apply Z.mul_le_mono_nonneg_r; lia). lia.
Qed.
(** The digits after the first one. *)
Definition following (t : ftype) (p : nat) : nat := match t with TGeneral => Nat.max 1 p - 1 | _ => p end.
Lemma printed_reads t alt p m e s : t = TScientific \/ t = TGeneral -> 0 <= m -> printf_text t alt p (Finite m e) s ->
  exists q x ds, decimal_text q s /\ scientific_digits (following t p) (numerator m e) (denominator e) x ds /\ (q == inject_Z (positional_value 10 ds) * p10 (x - Z.of_nat (following t p)))%Q.
Proof.
  intros HT Hm H. pose proof (denominator_pos e) as Hd. apply (numerator_nonneg m e) in Hm. set (n := numerator m e) in *. set (d := denominator e) in *. cbn [printf_text] in H. fold n d in H. clearbody n d. destruct HT as [-> | ->]; cbn [following].
  - destruct H as (x & c & fp & ex & HS & HX & ->). assert (L : length fp = p) by (destruct HS as (_ & L & _); cbn [length] in L; lia).
    assert (HW : without_zeros true fp fp) by reflexivity. rewrite <- L in HS |- *. destruct alt.
    + destruct (scientific_style true n d x c fp fp ex HS HW HX) as (q & Q1 & Q2). exists q, x, (c :: fp). auto.
    + pose proof HS as (HD & _ & _). inversion HD as [|? ? Hc Hf]; subst. eexists. exists x, (c :: fp). split; [|split; [exact HS|reflexivity]].
      exists [c], fp, x, (c :: point false fp), ex. split; [reflexivity|]. split; [apply (point_mantissa false [c] fp); [now constructor|assumption|discriminate]|]. split; [now apply exponent_reads|reflexivity].
  - destruct H as (x & c & ds & HS & HC). set (P := Nat.max 1 p) in *. assert (HP : (0 < P)%nat) by lia. assert (L : length ds = (P - 1)%nat) by (destruct HS as (_ & L & _); cbn [length] in L; lia).
    destruct HC as [(HX & ip & fp & fp' & HFx & HW & ->)|(HX & ds' & ex & HW & HE & ->)].
    + pose proof (fixed_value P n d x _ ip fp Hd Hm HP (proj2 HX) HS HFx) as EV. destruct HFx as (D1 & D2 & LF & N & _). pose proof (without_zeros_digits _ _ _ HW D2) as D3.
      eexists. exists x, (c :: ds). split; [|split; [assumption|]].
      * exists ip, fp', 0, (ip ++ point alt fp'), []. split; [now rewrite app_nil_r|]. split; [now apply point_mantissa|]. split; [now left|reflexivity].
      * change ((10 # 1) ^ (0 - Z.of_nat (length fp')))%Q with (p10 (- Z.of_nat (length fp'))). rewrite (stripped_value alt ip fp fp' HW), EV, LF. now replace (x - Z.of_nat (P - 1)) with (- Z.of_nat (Z.to_nat (Z.of_nat P - 1 - x))) by lia.
    + rewrite <- L in HS |- *. destruct (scientific_style alt n d x c ds ds' ex HS HW HE) as (q & Q1 & Q2). exists q, x, (c :: ds). auto.
Qed.
(** Upper case does not change what a text stands for. *)
Definition upper (x : Z) : Z := if (97 <=? x) && (x <=? 122) then x - 32 else x.
Lemma upper_digits l : Forall decimal_digit l -> map upper l = l.
Proof. induction 1 as [|c l Hc H IH]; [reflexivity|]. cbn [map]. rewrite IH. f_equal. unfold upper. unfold decimal_digit, digit_of in Hc. destruct (Z.leb_spec 97 c); cbn [andb]; lia. Qed.
Lemma decimal_in_case c q s : decimal_text q s -> decimal_text q (in_case c s).
Proof.
  destruct c; [auto|]. intros (ip & fp & x & mt & ex & -> & (F1 & F2 & N & HM) & HX & EQ). cbn [in_case]. fold upper. change (fun x0 : Z => if (97 <=? x0) && (x0 <=? 122) then x0 - 32 else x0) with upper. rewrite map_app.
  assert (EM : map upper mt = mt). { destruct HM as [(-> & ->)| ->]; [now apply upper_digits|]. rewrite map_app. cbn [map]. rewrite !upper_digits by assumption. reflexivity. }
  exists ip, fp, x, mt, (map upper ex). split; [now rewrite EM|]. split; [now split|]. split; [|assumption]. destruct HX as [(-> & ->)|(l & sign & ds & HL & -> & ND & FD & HS)]; [now left|]. right.
  exists (upper l), sign, ds. split; [destruct HL as [-> | ->]; right; reflexivity|]. split; [|split; [assumption|split; assumption]]. cbn [map]. rewrite map_app, (upper_digits ds) by assumption. destruct HS as [([-> | ->] & _)|(-> & _)]; reflexivity.
Qed.

Lemma same_upper a c : same_letter a c -> same_letter a (upper c).
Proof. unfold same_letter, upper. destruct (Z.leb_spec 97 c), (Z.leb_spec c 122); cbn [andb]; lia. Qed.
Lemma word_in_case cs w s : word w s -> word w (in_case cs s).
Proof. destruct cs; [auto|]. intros H. induction H as [|a c w s HS H IH]; [constructor|]. cbn [in_case map]. constructor; [exact (same_upper _ _ HS)|exact IH]. Qed.

(** * Theorems *)
(** Above the smallest normal number, or zero: underflow is not reported. *)
Definition not_tiny (ff : fp_format) (f : spec_float) : Prop :=
  match f with S754_finite _ m e => (smallest_normal ff < inject_Z (Zpos m) * (2 # 1) ^ e)%Q | _ => True end.
Lemma ratio_number m e : (ratio (numerator m e) (denominator e) == inject_Z m * p2 e)%Q.
Proof. unfold numerator, denominator. rewrite (power_ratio 2 m e) by lia. reflexivity. Qed.
Lemma nearest_zero ff s : nearest ff 0 (S754_zero s).
Proof.
  split; [exact I|]. split; [reflexivity|]. intros g _ _. cbn [number_of even_mantissa]. split; [|auto]. change (Qabs (0 - 0)) with 0%Q. apply Qabs_nonneg.
Qed.
Lemma limit_pos ff : format_ok ff -> (0 < limit ff)%Q.
Proof.
  unfold format_ok. intros HF. unfold limit. apply Qmult_lt_0_compat; [|apply p2_pos]. assert (Q1 : (inject_Z 1 <= inject_Z (2 ^ prec ff))%Q) by (apply inj_le; pose proof (pow2_pos (prec ff)); lia). change (inject_Z 1) with 1%Q in Q1. lra.
Qed.
(** A text with so many digits that 2^prec < 10^k, k being the number of digits after the first, is read as the number it was written for. *)
Theorem read_back : forall ff tiny t alternate p c f text, format_ok ff -> underflow_policy ff tiny -> t = TScientific \/ t = TGeneral -> 2 ^ prec ff < 10 ^ Z.of_nat (following t p) ->
  value_of ff f -> not_tiny ff f -> printf_text t alternate p (magnitude_of f) text ->
  convert_charconv ff tiny ((if sign_of f then [45] else []) ++ in_case c text) = Some f.
Proof.
  intros ff tiny t alt p c f text HF HT Ht HP HV HN HX. apply charconv_exact; [assumption..|].
  assert (G : forall g, stands_for ff tiny decimal_text (in_case c text) g -> f = (if sign_of f then negated g else g) -> charconv_text ff tiny ((if sign_of f then [45] else []) ++ in_case c text) f).
  { intros g HG E. destruct (sign_of f); [right; exists (in_case c text), g; auto|left; now subst g]. }
  destruct HT as (T1 & T2 & T3). destruct f as [s|s| |s m e]; cbn [magnitude_of sign_of] in *.
  - apply (G (S754_zero false)); [|now destruct s]. left. destruct (printed_reads t alt p 0 0 text Ht ltac:(lia) HX) as (q & x & ds & Q1 & Q2 & Q3).
    assert (Q0 : (q == 0)%Q). { destruct Q2 as (_ & _ & [(_ & _ & EV)|(NN & _)]); [|change (numerator 0 0) with 0 in NN; lia]. rewrite Q3, EV. change (inject_Z 0) with 0%Q. ring. }
    exists q. split; [now apply decimal_in_case|]. rewrite (T1 q 0%Q Q0). split; [rewrite Q0; now apply limit_pos|]. split; [assumption|]. split; [|reflexivity]. apply (nearest_proper ff 0%Q q); [now rewrite Q0|]. apply nearest_zero.
  - apply (G (S754_infinity false)); [|now destruct s]. right. left. split; [|reflexivity]. left. apply word_in_case. cbn in HX. subst text. repeat (constructor; [now left|]). constructor.
  - apply (G S754_nan); [|reflexivity]. right. right. split; [|reflexivity]. exists (in_case c text), []. split; [apply word_in_case; cbn in HX; subst text; repeat (constructor; [now left|]); constructor|]. split; [now rewrite app_nil_r|now left].
  - apply (G (S754_finite false m e)); [|now destruct s]. left. destruct (printed_reads t alt p (Zpos m) e text Ht ltac:(lia) HX) as (q & x & ds & Q1 & Q2 & Q3).
    assert (HD : 0 < denominator e) by apply denominator_pos. assert (HNm : 0 < numerator (Zpos m) e) by (unfold numerator; pose proof (pow2_pos (Z.max e 0) ltac:(lia)); lia).
    pose proof (scientific_within _ _ _ _ _ HD HNm Q2) as HW. unfold within in HW. rewrite ratio_number, <- Q3 in HW.
    assert (HTp : (p2 (prec ff) < p10 (Z.of_nat (following t p)))%Q). { unfold format_ok in HF. rewrite p2_int, p10_int by lia. now apply inj_lt. }
    assert (HV' : value_of ff (S754_finite false m e)) by exact HV.
    destruct (within_nearest ff m e _ q HF HV' HTp HW) as (N1 & N2 & N3). exists q. split; [now apply decimal_in_case|]. split; [assumption|]. split; [apply T2, N3; exact HN|]. split; [assumption|reflexivity].
Qed.
(** The same through the formatter: without a width, and without a sign option that adds a character. *)
Theorem format_then_convert : forall ff tiny size spec precision f buf out, format_ok ff -> underflow_policy ff tiny -> Z.of_nat size < 2 ^ 32 -> 0 <= precision < 2 ^ 31 ->
  m_type spec = TScientific \/ m_type spec = TGeneral -> 2 ^ prec ff < 10 ^ Z.of_nat (following (m_type spec) (Z.to_nat precision)) -> m_sign spec = SDefault \/ m_sign spec = SNegativeOnly ->
  (m_alternate_form spec = true -> is_finite (magnitude_of f) /\ (m_type spec = TGeneral -> no_leading_zeros (magnitude_of f))) ->
  value_of ff f -> not_tiny ff f -> converted size spec precision (magnitude_of f) buf -> fits size (m_type spec) precision (magnitude_of f) ->
  format_float spec 0 precision (sign_of f) buf = Some out -> convert_charconv ff tiny out = Some f /\ convert_stod ff tiny out = Some f.
Proof.
  intros ff tiny size spec precision f buf out HF HT HS HPr Ht HP HSg HA HV HN HC HFit HO.
  destruct (float_formatted size spec 0 precision (sign_of f) (magnitude_of f) buf) as (number & l & z & q & H1 & H2 & H3 & H4); [assumption|lia|assumption|unfold decimal_type; tauto|assumption..|].
  cbv zeta in *. assert (HZ : l = O /\ z = O /\ q = O).
  { rewrite !app_length, !repeat_length in H4. assert (length (in_case (m_case spec) number) = length number) by (destruct (m_case spec); [reflexivity|apply map_length]). lia. }
  destruct HZ as (-> & -> & ->). cbn [repeat app] in H1. rewrite app_nil_r, HO in H1. injection H1 as H1.
  assert (E : convert_charconv ff tiny out = Some f).
  { assert (ES : shown_sign (m_sign spec) (sign_of f) = if sign_of f then [45] else []) by (unfold shown_sign; destruct (sign_of f); [reflexivity|destruct HSg as [-> | ->]; reflexivity]).
    rewrite H1, ES. eapply read_back; [assumption|assumption|exact Ht|exact HP|assumption|assumption|exact H2]. }
  split; [assumption|]. now apply stod_reads_more.
Qed.
(** For double, {:.16e}, {:.17g} and more digits up to the size of the buffer. *)
Lemma binary64_ok : format_ok binary64.
Proof. split; reflexivity. Qed.
Lemma binary64_double s m e : value_of binary64 (S754_finite s m e) -> double (Zpos m) e.
Proof. intros H. destruct (value_bounds binary64 _ _ _ binary64_ok H) as (B1 & B2 & _). change (emin (prec binary64) (emax binary64)) with (-1074) in B2. cbn [prec emax binary64] in B1, B2. split; lia. Qed.
Theorem double_round_trip : forall tiny spec precision f buf out, underflow_policy binary64 tiny ->
  m_type spec = TScientific /\ 16 <= precision <= 46 \/ m_type spec = TGeneral /\ 17 <= precision <= 46 -> m_sign spec = SDefault \/ m_sign spec = SNegativeOnly -> m_alternate_form spec = false ->
  value_of binary64 f -> not_tiny binary64 f -> converted double_buffer spec precision (magnitude_of f) buf ->
  format_float spec 0 precision (sign_of f) buf = Some out -> convert_charconv binary64 tiny out = Some f /\ convert_stod binary64 tiny out = Some f.
Proof.
  intros tiny spec precision f buf out HT Ht HSg HA HV HN HC HO.
  assert (FIT : fits double_buffer (m_type spec) precision (magnitude_of f)).
  { destruct f as [s|s| |s m e]; cbn [magnitude_of].
    - destruct (double_fits 0 0 precision ltac:(split; lia) ltac:(lia)) as (D1 & D2). destruct Ht as [(-> & _)|(-> & _)]; assumption.
    - apply special_fits; [now left|unfold double_buffer, buffer_size; lia].
    - apply special_fits; [now right|unfold double_buffer, buffer_size; lia].
    - destruct (double_fits (Zpos m) e precision (binary64_double _ _ _ HV) ltac:(lia)) as (D1 & D2). destruct Ht as [(-> & _)|(-> & _)]; assumption. }
  apply (format_then_convert binary64 tiny double_buffer spec precision f buf out); try assumption; [exact binary64_ok|unfold double_buffer, buffer_size; lia|lia|tauto| |congruence].
  cbn [prec binary64]. apply Z.lt_le_trans with (10 ^ 16); [reflexivity|]. apply Z.pow_le_mono_r; [lia|]. destruct Ht as [(-> & H)|(-> & H)]; cbn [following]; lia.
Qed.
(** Six digits, as {} shows them, are not enough: 1 + 2^-30 is shown as 1. *)
Definition one_and_more : spec_float := S754_finite false (Z.to_pos (2 ^ 52 + 2 ^ 22)) (-52).
Theorem default_format_loses_refuted : forall tiny buf, underflow_policy binary64 tiny -> converted double_buffer plain_float 6 (magnitude_of one_and_more) buf ->
  value_of binary64 one_and_more /\ format_float plain_float 0 6 false buf = Some [49] /\ convert_charconv binary64 tiny [49] = Some (S754_finite false (Z.to_pos (2 ^ 52)) (-52)).
Proof.
  intros tiny buf HT HC. split; [reflexivity|]. assert (D : double (2 ^ 52 + 2 ^ 22) (-52)) by (split; lia). destruct (default_double_shown _ _ false buf D HC) as (number & H1 & H2).
  assert (H3 : printf_text TGeneral false 6 (Finite (2 ^ 52 + 2 ^ 22) (-52)) [49]).
  { exists 0, 49, [48; 48; 48; 48; 48]. split.
    - split; [repeat (apply Forall_cons; [left; lia|]); apply Forall_nil|]. split; [reflexivity|]. right. split; [reflexivity|]. exists 0, 100000. split; [unfold at_least_pow10; vm_compute; discriminate|]. split; [unfold at_least_pow10; vm_compute; intros X; now apply X|].
      split; [split; [vm_compute; discriminate|vm_compute; discriminate]|]. left. split; [reflexivity|]. split; reflexivity.
    - left. split; [lia|]. exists [49], [48; 48; 48; 48; 48], []. split; [|split; [exists 5%nat; split; [reflexivity|now left]|reflexivity]].
      split; [constructor; [left; lia|constructor]|]. split; [repeat (apply Forall_cons; [left; lia|]); apply Forall_nil|]. split; [reflexivity|]. split; [discriminate|]. split; [now left|]. split; [vm_compute; discriminate|vm_compute; discriminate]. }
  rewrite (printf_text_unique _ _ _ _ _ _ H1 H3) in H2. split; [exact H2|]. rewrite charconv_core. cbn [after Z.eqb]. unfold core.
  assert (T1 : tiny (1 # 1) = false). { apply HT. unfold smallest_normal. change 1%Q with (p2 0). apply p2_le. cbn. lia. }
  change (scan_special [49]) with (@None (special * list Z)). cbv beta iota. change (scan_decimal [49]) with (Some (1, 1, @nil Z)). cbv beta iota. unfold read_value.
  change (round_magnitude binary64 1 1) with (Number (Z.to_pos (2 ^ 52)) (-52)). cbv beta iota. change (1 # Z.to_pos 1) with (1 # 1). now rewrite T1.
Qed.

(** ** The hypotheses can be met *)
(** "{:.16e}" of 1 + 2^-30 is read back. *)
Example round_trip_case : let spec := Specifier 0 None ADefault SDefault false false None None (Some 16) None false TScientific CLower 0 0 in
  value_of binary64 one_and_more /\ not_tiny binary64 one_and_more /\
  exists buf out, converted double_buffer spec 16 (magnitude_of one_and_more) buf /\ format_float spec 0 16 (sign_of one_and_more) buf = Some out /\ convert_charconv binary64 (fun _ => false) out = Some one_and_more.
Proof.
  cbv zeta. set (spec := Specifier 0 None ADefault SDefault false false None None (Some 16) None false TScientific CLower 0 0). assert (HV : value_of binary64 one_and_more) by reflexivity.
  assert (HN : not_tiny binary64 one_and_more).
  { unfold not_tiny, one_and_more, smallest_normal. apply Qle_lt_trans with (p2 0); [apply p2_le; vm_compute; discriminate|]. change ((2 # 1) ^ (-52))%Q with (p2 (-52)). replace (Zpos (Z.to_pos (2 ^ 52 + 2 ^ 22))) with (2 ^ 52 + 2 ^ 22) by reflexivity.
    apply Qle_lt_trans with (inject_Z (2 ^ 52) * p2 (-52))%Q; [rewrite <- p2_int by lia; rewrite <- p2_plus; apply Qle_refl|]. apply Qmult_lt_compat_r; [apply p2_pos|apply inj_lt; lia]. }
  split; [assumption|]. split; [assumption|].
  destruct (printf_text_exists TScientific false 16 (magnitude_of one_and_more)) as (s & S); [unfold decimal_type; tauto|intros ? ? E; injection E as <- <-; lia|].
  assert (D : double (2 ^ 52 + 2 ^ 22) (-52)) by (split; lia).
  destruct (double_fits _ _ 16 D ltac:(lia)) as (D1 & D2).
  assert (HC : exists buf, converted double_buffer spec 16 (magnitude_of one_and_more) buf).
  { exists (if (length s <=? double_buffer)%nat then s else repeat 0 double_buffer), s. split; [exact S|]. unfold to_chars_into. destruct (length s <=? double_buffer)%nat; [reflexivity|]. reflexivity. }
  destruct HC as (buf & HC).
  destruct (float_formatted double_buffer spec 0 16 (sign_of one_and_more) (magnitude_of one_and_more) buf) as (number & l & z & q & H1 & _); [unfold double_buffer, buffer_size; lia|lia|lia|unfold decimal_type; cbn; tauto|assumption|exact D1 || exact D2|discriminate|].
  eexists. eexists. split; [exact HC|]. split; [exact H1|]. apply (double_round_trip (fun _ => false) spec 16 one_and_more buf _ (proj1 some_policy)); [left; cbn; split; [reflexivity|lia]|now left|reflexivity|assumption|assumption|assumption|exact H1].
Qed.
