(** Proofs about decimal texts and the floating-point formatter. *)
From Verif Require Import Common Bits Lexer_Model Lexer_Props Format_Model Format_Spec Format_Proofs Float_Model Float_Spec.

Lemma pow10_pos k : 0 <= k -> 0 < 10 ^ k.
Proof. intros H. apply Z.pow_pos_nonneg; lia. Qed.
Lemma pow10_gt k : 0 <= k -> k < 10 ^ k.
Proof. intros H. apply Z.pow_gt_lin_r; lia. Qed.

(** ** The nearest integer *)
Lemma nearest_even_unique n d r r' : 0 < d -> nearest_even n d r -> nearest_even n d r' -> r = r'.
Proof.
  intros Hd (H & E) (H' & E').
  destruct (Z.eq_dec r r') as [|NE]; [assumption|exfalso].
  assert (HK : exists k, r' = r + k /\ k <> 0) by (exists (r' - r); lia). destruct HK as (k & -> & HK).
  rewrite Z.mul_add_distr_r in *. set (a := r * d - n) in *. replace (r * d + k * d - n) with (a + k * d) in * by (unfold a; lia). clearbody a.
  assert (HD : k = 1 \/ k = -1 \/ d * 2 <= k * d \/ k * d <= - (d * 2)).
  { destruct (Z.le_gt_cases 2 k); [right; right; left; rewrite (Z.mul_comm d 2); apply Z.mul_le_mono_nonneg_r; lia|].
    destruct (Z.le_gt_cases k (-2)); [right; right; right; replace (- (d * 2)) with (-2 * d) by lia; apply Z.mul_le_mono_nonneg_r; lia|]. lia. }
  destruct HD as [-> |[-> |[HD|HD]]]; [| |lia|lia].
  - destruct E as (q & ->); [lia|]. destruct E' as (q' & Q); lia.
  - destruct E as (q & ->); [lia|]. destruct E' as (q' & Q); lia.
Qed.
Lemma nearest_even_exists n d : 0 < d -> exists r, nearest_even n d r.
Proof.
  intros Hd. pose proof (Z.div_mod n d ltac:(lia)) as E. pose proof (Z.mod_pos_bound n d Hd) as B. set (q := n / d) in *. set (m := n mod d) in *. clearbody q m.
  destruct (Z.lt_trichotomy (2 * m) d) as [H|[H|H]].
  - exists q. unfold nearest_even. replace (q * d - n) with (- m) by lia. split; [|intros X]; lia.
  - destruct (Z.Even_or_Odd q) as [HE|(h & HO)].
    + exists q. split; [|intros _; assumption]. replace (q * d - n) with (- m) by lia. lia.
    + exists (q + 1). split; [|intros _; exists (h + 1); lia]. replace ((q + 1) * d - n) with (d - m) by lia. lia.
  - exists (q + 1). unfold nearest_even. replace ((q + 1) * d - n) with (d - m) by lia. split; [|intros X]; lia.
Qed.
Lemma nearest_even_ge n d r k : 0 < d -> nearest_even n d r -> k * d <= n -> k <= r.
Proof.
  intros Hd (H & _) L. destruct (Z.le_gt_cases k r) as [|G]; [assumption|exfalso].
  assert ((r + 1) * d <= k * d) by (apply Z.mul_le_mono_nonneg_r; lia). lia.
Qed.
Lemma nearest_even_le n d r k : 0 < d -> nearest_even n d r -> n <= k * d -> r <= k.
Proof.
  intros Hd (H & _) L. destruct (Z.le_gt_cases r k) as [|G]; [assumption|exfalso].
  assert ((k + 1) * d <= r * d) by (apply Z.mul_le_mono_nonneg_r; lia). lia.
Qed.

(** ** The decimal exponent *)
Lemma at_least_mono n d x y : 0 < d -> 0 <= n -> x <= y -> at_least_pow10 n d y -> at_least_pow10 n d x.
Proof.
  unfold at_least_pow10. intros Hd Hn HX H. replace y with (x + (y - x)) in H by lia. set (k := y - x) in *. assert (Hk : 0 <= k) by (unfold k; lia). clearbody k. clear HX y.
  pose proof (pow10_pos (Z.max x 0) ltac:(lia)). pose proof (pow10_pos (Z.max (- x) 0) ltac:(lia)). pose proof (pow10_pos k Hk).
  destruct (Z.le_gt_cases 0 x).
  - rewrite (Z.max_l x 0), (Z.max_r (- x) 0), (Z.max_l (x + k) 0), (Z.max_r (- (x + k)) 0) in * by lia. rewrite Z.pow_add_r in H by lia.
    assert (d * 10 ^ x * 1 <= d * 10 ^ x * 10 ^ k) by (apply Z.mul_le_mono_nonneg_l; [apply Z.mul_nonneg_nonneg|]; lia). lia.
  - destruct (Z.le_gt_cases 0 (x + k)).
    + rewrite (Z.max_r x 0), (Z.max_l (- x) 0) by lia. rewrite (Z.max_l (x + k) 0), (Z.max_r (- (x + k)) 0) in H by lia.
      pose proof (pow10_pos (x + k) ltac:(lia)). pose proof (pow10_pos (- x) ltac:(lia)).
      assert (d * 1 <= d * 10 ^ (x + k)) by (apply Z.mul_le_mono_nonneg_l; lia).
      assert (n * 1 <= n * 10 ^ (- x)) by (apply Z.mul_le_mono_nonneg_l; lia). lia.
    + rewrite (Z.max_r x 0), (Z.max_l (- x) 0) by lia. rewrite (Z.max_r (x + k) 0), (Z.max_l (- (x + k)) 0) in H by lia.
      replace (- x) with (- (x + k) + k) by lia. rewrite Z.pow_add_r by lia. rewrite Z.mul_assoc.
      pose proof (pow10_pos (- (x + k)) ltac:(lia)).
      assert (n * 10 ^ (- (x + k)) * 1 <= n * 10 ^ (- (x + k)) * 10 ^ k) by (apply Z.mul_le_mono_nonneg_l; [apply Z.mul_nonneg_nonneg|]; lia). lia.
Qed.
Lemma exponent_unique n d x y : 0 < d -> 0 <= n -> at_least_pow10 n d x -> ~ at_least_pow10 n d (x + 1) -> at_least_pow10 n d y -> ~ at_least_pow10 n d (y + 1) -> x = y.
Proof.
  intros Hd Hn H1 H2 H3 H4. destruct (Z.lt_trichotomy x y) as [L|[L|L]]; [|assumption|].
  - elim H2. apply (at_least_mono n d _ y); [assumption..|lia|assumption].
  - elim H4. apply (at_least_mono n d _ x); [assumption..|lia|assumption].
Qed.
Lemma exponent_exists n d : 0 < d -> 0 < n -> exists x, at_least_pow10 n d x /\ ~ at_least_pow10 n d (x + 1).
Proof.
  intros Hd Hn.
  assert (HL : at_least_pow10 n d (- d)).
  { unfold at_least_pow10. rewrite (Z.max_r (- d) 0), (Z.max_l (- - d) 0) by lia. rewrite Z.opp_involutive. pose proof (pow10_gt d ltac:(lia)). pose proof (pow10_pos d ltac:(lia)).
    assert (1 * 10 ^ d <= n * 10 ^ d) by (apply Z.mul_le_mono_nonneg_r; lia). lia. }
  assert (HU : ~ at_least_pow10 n d n).
  { unfold at_least_pow10. rewrite (Z.max_l n 0), (Z.max_r (- n) 0) by lia. pose proof (pow10_gt n ltac:(lia)).
    assert (1 * 10 ^ n <= d * 10 ^ n) by (apply Z.mul_le_mono_nonneg_r; lia). lia. }
  assert (HS : forall k x, at_least_pow10 n d x -> ~ at_least_pow10 n d (x + Z.of_nat k) -> exists x, at_least_pow10 n d x /\ ~ at_least_pow10 n d (x + 1)).
  { induction k as [|k IH]; intros x H1 H2; [elim H2; now rewrite Z.add_0_r|].
    assert (HD : at_least_pow10 n d (x + 1) \/ ~ at_least_pow10 n d (x + 1)) by (unfold at_least_pow10; lia).
    destruct HD as [HD|HD]; [|now exists x]. apply (IH (x + 1) HD). now replace (x + 1 + Z.of_nat k) with (x + Z.of_nat (S k)) by lia. }
  apply (HS (Z.to_nat (n + d)) (- d) HL). now replace (- d + Z.of_nat (Z.to_nat (n + d))) with n by lia.
Qed.

(** ** Digits *)
Lemma digits_exist k : forall v, 0 <= v < 10 ^ Z.of_nat k -> exists s, decimal_digits s /\ length s = k /\ positional_value 10 s = v.
Proof.
  induction k as [|k IH]; intros v H; [exists []; cbn in *; repeat split; [constructor|lia]|].
  rewrite Nat2Z.inj_succ, Z.pow_succ_r in H by lia. pose proof (pow10_pos (Z.of_nat k) ltac:(lia)) as HP.
  pose proof (Z.div_mod v (10 ^ Z.of_nat k) ltac:(lia)) as E. pose proof (Z.mod_pos_bound v (10 ^ Z.of_nat k) HP) as B.
  destruct (IH _ B) as (s & D & L & V). exists (48 + v / 10 ^ Z.of_nat k :: s).
  assert (0 <= v / 10 ^ Z.of_nat k < 10) by (split; [apply Z.div_pos; lia|apply Z.div_lt_upper_bound; lia]).
  split; [|split].
  - constructor; [|assumption]. left. lia.
  - cbn. now rewrite L.
  - cbn [positional_value]. rewrite L, V. unfold value_of_digit. destruct (Z.leb_spec (48 + v / 10 ^ Z.of_nat k) 57); lia.
Qed.
Lemma positional_exists v : 0 <= v -> exists s, positional 10 false v s.
Proof.
  intros H. destruct (to_chars_spec (S (Z.to_nat v)) 10 v []) as (s & _ & P & _); [lia..| |exists s; exact P].
  split; [assumption|]. pose proof (pow10_gt (Z.of_nat (S (Z.to_nat v))) ltac:(lia)). lia.
Qed.
Lemma canonical_ge ip fp : decimal_digits ip -> decimal_digits fp -> ip <> [] -> hd 0 ip <> 48 -> 10 ^ Z.of_nat (length ip + length fp - 1) <= positional_value 10 (ip ++ fp).
Proof.
  intros D D' N H. destruct ip as [|c ip]; [now elim N|]. cbn [hd app positional_value length] in *. inversion D as [|? ? Hc Hs]; subst.
  rewrite app_length. replace (S (length ip) + length fp - 1)%nat with (length ip + length fp)%nat by lia.
  assert (B : decimal_digits (ip ++ fp)) by (apply Forall_app; now split). apply (positional_bound 10 false) in B; [|lia].
  pose proof (pow10_pos (Z.of_nat (length ip + length fp)) ltac:(lia)).
  assert (1 <= value_of_digit c) by (unfold digit_of in Hc; unfold value_of_digit; destruct (Z.leb_spec c 57); [lia|]; destruct (Z.leb_spec c 90); lia).
  assert (1 * 10 ^ Z.of_nat (length ip + length fp) <= value_of_digit c * 10 ^ Z.of_nat (length ip + length fp)) by (apply Z.mul_le_mono_nonneg_r; lia). lia.
Qed.
Lemma digits_length ip fp P : decimal_digits ip -> decimal_digits fp -> ip <> [] -> length ip = 1%nat \/ hd 0 ip <> 48 -> (length fp < P)%nat ->
  10 ^ (Z.of_nat P - 1) <= positional_value 10 (ip ++ fp) < 10 ^ Z.of_nat P -> (length ip + length fp = P)%nat.
Proof.
  intros D D' N C L (B1 & B2).
  assert (B : decimal_digits (ip ++ fp)) by (apply Forall_app; now split). apply (positional_bound 10 false) in B; [|lia]. rewrite app_length in B.
  assert (G : Z.of_nat P - 1 < Z.of_nat (length ip + length fp)) by (apply (Z.pow_lt_mono_r_iff 10); lia).
  destruct C as [C|C]; [lia|]. pose proof (canonical_ge ip fp D D' N C) as HG.
  assert (G' : Z.of_nat (length ip + length fp - 1) < Z.of_nat P) by (apply (Z.pow_lt_mono_r_iff 10); lia). lia.
Qed.

Lemma scaled_ge n d x p : 0 < d -> 0 <= n -> 0 <= p -> at_least_pow10 n d x -> 10 ^ p * (d * 10 ^ Z.max (- (p - x)) 0) <= n * 10 ^ Z.max (p - x) 0.
Proof.
  unfold at_least_pow10. intros Hd Hn Hp H. destruct (Z.le_gt_cases 0 x) as [Hx|Hx].
  - rewrite (Z.max_l x 0), (Z.max_r (- x) 0) in H by lia. rewrite Z.mul_1_r in H. destruct (Z.le_gt_cases x p) as [L|L].
    + rewrite (Z.max_r (- (p - x)) 0), (Z.max_l (p - x) 0) by lia. rewrite Z.mul_1_r. replace (10 ^ p) with (10 ^ x * 10 ^ (p - x)) by (rewrite <- Z.pow_add_r by lia; f_equal; lia).
      pose proof (pow10_pos (p - x) ltac:(lia)). assert (d * 10 ^ x * 10 ^ (p - x) <= n * 10 ^ (p - x)) by (apply Z.mul_le_mono_nonneg_r; lia). lia.
    + rewrite (Z.max_l (- (p - x)) 0), (Z.max_r (p - x) 0) by lia. rewrite Z.mul_1_r. replace (10 ^ x) with (10 ^ p * 10 ^ (- (p - x))) in H by (rewrite <- Z.pow_add_r by lia; f_equal; lia). lia.
  - rewrite (Z.max_r x 0), (Z.max_l (- x) 0) in H by lia. rewrite Z.mul_1_r in H. rewrite (Z.max_r (- (p - x)) 0), (Z.max_l (p - x) 0) by lia. rewrite Z.mul_1_r.
    replace (p - x) with (- x + p) by lia. rewrite Z.pow_add_r by lia. pose proof (pow10_pos p ltac:(lia)).
    assert (d * 10 ^ p <= n * 10 ^ (- x) * 10 ^ p) by (apply Z.mul_le_mono_nonneg_r; lia). lia.
Qed.
Lemma scaled_le n d x p : 0 < d -> 0 <= n -> 0 <= p -> ~ at_least_pow10 n d (x + 1) -> n * 10 ^ Z.max (p - x) 0 <= 10 ^ (p + 1) * (d * 10 ^ Z.max (- (p - x)) 0).
Proof.
  unfold at_least_pow10. intros Hd Hn Hp H. destruct (Z.le_gt_cases 0 (x + 1)) as [Hx|Hx].
  - rewrite (Z.max_l (x + 1) 0), (Z.max_r (- (x + 1)) 0) in H by lia. rewrite Z.mul_1_r in H. destruct (Z.le_gt_cases x p) as [L|L].
    + rewrite (Z.max_r (- (p - x)) 0), (Z.max_l (p - x) 0) by lia. rewrite Z.mul_1_r. replace (10 ^ (p + 1)) with (10 ^ (x + 1) * 10 ^ (p - x)) by (rewrite <- Z.pow_add_r by lia; f_equal; lia).
      pose proof (pow10_pos (p - x) ltac:(lia)). assert (n * 10 ^ (p - x) <= d * 10 ^ (x + 1) * 10 ^ (p - x)) by (apply Z.mul_le_mono_nonneg_r; lia). lia.
    + rewrite (Z.max_l (- (p - x)) 0), (Z.max_r (p - x) 0) by lia. rewrite Z.mul_1_r. replace (10 ^ (x + 1)) with (10 ^ (p + 1) * 10 ^ (- (p - x))) in H by (rewrite <- Z.pow_add_r by lia; f_equal; lia). lia.
  - rewrite (Z.max_r (x + 1) 0), (Z.max_l (- (x + 1)) 0) in H by lia. rewrite Z.mul_1_r in H. rewrite (Z.max_r (- (p - x)) 0), (Z.max_l (p - x) 0) by lia. rewrite Z.mul_1_r.
    replace (p - x) with (- (x + 1) + (p + 1)) by lia. rewrite Z.pow_add_r by lia. pose proof (pow10_pos (p + 1) ltac:(lia)).
    assert (n * 10 ^ (- (x + 1)) * 10 ^ (p + 1) <= d * 10 ^ (p + 1)) by (apply Z.mul_le_mono_nonneg_r; lia). lia.
Qed.
Lemma scaled_den_pos d k : 0 < d -> 0 < d * 10 ^ Z.max k 0.
Proof. intros H. apply Z.mul_pos_pos; [assumption|]. apply pow10_pos. lia. Qed.

(** The digits of %e: between 10^p and 10^(p+1), unless the value is 0. *)
Lemma scientific_range p n d x ds : 0 < d -> 0 <= n -> scientific_digits p n d x ds -> n = 0 /\ x = 0 \/ 0 < n /\ 10 ^ Z.of_nat p <= positional_value 10 ds.
Proof.
  intros Hd Hn (_ & _ & [(-> & -> & _)|(HN & x0 & r & H1 & H2 & HR & HC)]); [left; now split|right; split; [assumption|]].
  destruct HC as [(_ & _ & ->)|(_ & _ & ->)]; [|lia].
  apply (nearest_even_ge _ _ _ _ (scaled_den_pos d _ Hd) HR). apply scaled_ge; (assumption || lia).
Qed.

(** In the style of %f with P - 1 - x digits after the point, x being the exponent of %e, there are P digits. *)
Lemma general_length P n d x ds ip fp : 0 < d -> 0 <= n -> (0 < P)%nat -> 0 <= x < Z.of_nat P ->
  scientific_digits (P - 1) n d x ds -> fixed_digits (Z.to_nat (Z.of_nat P - 1 - x)) n d ip fp -> (length ip + length fp = P)%nat.
Proof.
  intros Hd Hn HP HX HS (DI & DF & HL & HI & HC & HR). rewrite Z2Nat.id in HR by lia.
  destruct (scientific_range _ _ _ _ _ Hd Hn HS) as [(-> & ->)|(HN & _)].
  - assert (EV : positional_value 10 (ip ++ fp) = 0).
    { apply (nearest_even_unique 0 d); [assumption|exact HR|]. split; [cbn; lia|intros _; now exists 0]. }
    destruct HC as [HC|HC]; [rewrite HC, HL; lia|]. pose proof (canonical_ge ip fp DI DF HI HC) as G. rewrite EV in G. pose proof (pow10_pos (Z.of_nat (length ip + length fp - 1)) ltac:(lia)). lia.
  - apply (digits_length ip fp P); try assumption; [lia|].
    destruct HS as (_ & _ & [(-> & _)|(_ & x0 & r & H1 & H2 & HR0 & HCC)]); [lia|].
    destruct HCC as [(RB & -> & _)|(RB & -> & _)].
    + assert (r = positional_value 10 (ip ++ fp)) as <-.
      { apply (nearest_even_unique (n * 10 ^ (Z.of_nat P - 1 - x0)) d); [assumption| |exact HR].
        unfold nearest_scaled in HR0. replace (Z.of_nat (P - 1) - x0) with (Z.of_nat P - 1 - x0) in HR0 by lia. rewrite (Z.max_l (Z.of_nat P - 1 - x0) 0), (Z.max_r (- (Z.of_nat P - 1 - x0)) 0) in HR0 by lia. now rewrite Z.mul_1_r in HR0. }
      split.
      * replace (Z.of_nat P - 1) with (Z.of_nat (P - 1)) by lia. apply (nearest_even_ge _ _ _ _ (scaled_den_pos d _ Hd) HR0). apply scaled_ge; (assumption || lia).
      * now replace (Z.of_nat (P - 1) + 1) with (Z.of_nat P) in RB by lia.
    + assert (EV : positional_value 10 (ip ++ fp) = 10 ^ (Z.of_nat P - 1)).
      { unfold nearest_scaled in HR0. replace (Z.of_nat (P - 1) - x0) with (Z.of_nat P - 1 - (x0 + 1) + 1) in HR0 by lia. rewrite (Z.max_l (Z.of_nat P - 1 - (x0 + 1) + 1) 0), (Z.max_r (- (Z.of_nat P - 1 - (x0 + 1) + 1)) 0) in HR0 by lia. rewrite Z.mul_1_r in HR0.
        rewrite Z.pow_add_r in HR0 by lia. change (10 ^ 1) with 10 in HR0. rewrite RB in HR0. replace (Z.of_nat (P - 1) + 1) with (Z.of_nat P - 1 + 1) in HR0 by lia. rewrite Z.pow_add_r in HR0 by lia. change (10 ^ 1) with 10 in HR0.
        set (T := 10 ^ (Z.of_nat P - 1)) in *. set (N := n * 10 ^ (Z.of_nat P - 1 - (x0 + 1))) in *. rewrite Z.mul_assoc in HR0. fold N in HR0.
        set (v := positional_value 10 (ip ++ fp)) in *. clearbody T N v. destruct HR0 as (A & _), HR as (B & _).
        replace (T * 10 * d - N * 10) with (10 * (T * d - N)) in A by lia.
        destruct (Z.lt_trichotomy v T) as [L|[L|L]]; [exfalso| assumption|exfalso].
        - assert ((v + 1) * d <= T * d) by (apply Z.mul_le_mono_nonneg_r; lia). lia.
        - assert ((T + 1) * d <= v * d) by (apply Z.mul_le_mono_nonneg_r; lia). lia. }
      rewrite EV. split; [lia|]. apply Z.pow_lt_mono_r; lia.
Qed.

(** ** There is exactly one text *)
Lemma split_value (a b a' b' : list Z) : decimal_digits b -> decimal_digits b' -> length b = length b' ->
  positional_value 10 (a ++ b) = positional_value 10 (a' ++ b') -> positional_value 10 a = positional_value 10 a' /\ positional_value 10 b = positional_value 10 b'.
Proof.
  intros D D' L E. rewrite !positional_value_app in E by lia. rewrite <- L in E.
  apply (positional_bound 10 false) in D; [|lia]. apply (positional_bound 10 false) in D'; [|lia]. rewrite <- L in D'.
  apply (Z.div_mod_unique (10 ^ Z.of_nat (length b))); lia.
Qed.
Lemma fixed_unique p n d ip fp ip' fp' : 0 < d -> fixed_digits p n d ip fp -> fixed_digits p n d ip' fp' -> ip = ip' /\ fp = fp'.
Proof.
  intros Hd (D1 & D2 & L & N & C & R) (D1' & D2' & L' & N' & C' & R').
  pose proof (nearest_even_unique _ _ _ _ Hd R R') as E. apply split_value in E; [|assumption..|congruence]. destruct E as (E1 & E2). split.
  - apply (positional_unique_lemma 10 false (positional_value 10 ip)); [lia|..]; unfold positional; auto.
  - apply (positional_same_length 10 false); [lia|congruence|assumption..].
Qed.
Lemma scientific_unique p n d x ds x' ds' : 0 < d -> scientific_digits p n d x ds -> scientific_digits p n d x' ds' -> x = x' /\ ds = ds'.
Proof.
  intros Hd (D & L & C) (D' & L' & C').
  assert (EX : x = x' /\ positional_value 10 ds = positional_value 10 ds').
  { destruct C as [(N0 & X0 & E)|(HN & x0 & r & H1 & H2 & R & C)], C' as [(N0' & X0' & E')|(HN' & x0' & r' & H1' & H2' & R' & C')]; try lia.
    assert (x0 = x0') as <- by (eapply (exponent_unique n d); (eassumption || lia)).
    pose proof (nearest_even_unique _ _ _ _ (scaled_den_pos _ _ Hd) R R') as <-. lia. }
  destruct EX as (-> & EV). split; [reflexivity|]. apply (positional_same_length 10 false); [lia|congruence|assumption..].
Qed.
Lemma exponent_text_unique x s s' : exponent_text x s -> exponent_text x s' -> s = s'.
Proof.
  intros (ds & -> & P) (ds' & -> & P'). do 3 f_equal. apply (positional_unique_lemma 10 false (Z.abs x)); [lia|assumption..].
Qed.
Lemma last_zeros (a : list Z) k : (0 < k)%nat -> last (a ++ repeat 48 k) 0 = 48 /\ a ++ repeat 48 k <> [].
Proof.
  intros H. destruct k as [|k]; [lia|]. replace (S k) with (k + 1)%nat by lia. rewrite repeat_app, app_assoc. cbn [repeat]. rewrite last_last. split; [reflexivity|]. intros E. apply app_eq_nil in E. destruct E; discriminate.
Qed.
Lemma without_zeros_unique alt fp a b : without_zeros alt fp a -> without_zeros alt fp b -> a = b.
Proof.
  destruct alt; cbn [without_zeros]; [congruence|]. intros (k & E & N) (k' & E' & N').
  assert (G : forall k k' a b, (k <= k')%nat -> fp = a ++ repeat 48 k -> fp = b ++ repeat 48 k' -> a = [] \/ last a 0 <> 48 -> a = b).
  { clear. intros k k' a b HL E E' N. replace k' with ((k' - k) + k)%nat in E' by lia. rewrite repeat_app, app_assoc in E'.
    assert (EA : a = b ++ repeat 48 (k' - k)) by (apply (app_inv_tail (repeat 48 k)); congruence).
    destruct (Nat.eq_dec (k' - k) 0) as [Z0|NZ]; [rewrite Z0 in EA; cbn in EA; now rewrite app_nil_r in EA|].
    destruct (last_zeros b (k' - k) ltac:(lia)) as (H1 & H2). rewrite <- EA in *. destruct N; contradiction. }
  destruct (Nat.le_ge_cases k k') as [L|L]; [eapply G; eauto|symmetry; eapply G; eauto].
Qed.
Lemma without_zeros_exists alt fp : exists a, without_zeros alt fp a.
Proof.
  destruct alt; cbn [without_zeros]; [now exists fp|]. induction fp as [|c fp IH] using rev_ind; [exists [], O; now split; [|left]|].
  destruct (Z.eq_dec c 48) as [->|NE].
  - destruct IH as (a & k & E & N). exists a, (k + 1)%nat. split; [|assumption]. rewrite repeat_app, app_assoc. cbn [repeat]. now rewrite <- E.
  - exists (fp ++ [c]), O. split; [now rewrite app_nil_r|]. right. now rewrite last_last.
Qed.
Lemma fixed_exists p n d : 0 < d -> 0 <= n -> exists ip fp, fixed_digits p n d ip fp.
Proof.
  intros Hd Hn. destruct (nearest_even_exists (n * 10 ^ Z.of_nat p) d Hd) as (r & R). pose proof (pow10_pos (Z.of_nat p) ltac:(lia)) as HP.
  assert (Hr : 0 <= r) by (apply (nearest_even_ge _ _ _ _ Hd R); cbn; apply Z.mul_nonneg_nonneg; lia).
  destruct (positional_exists (r / 10 ^ Z.of_nat p)) as (ip & D & V & N & C); [apply Z.div_pos; lia|].
  destruct (digits_exist p (r mod 10 ^ Z.of_nat p)) as (fp & D' & L & V'); [now apply Z.mod_pos_bound|].
  exists ip, fp. unfold fixed_digits. do 5 (split; [assumption|]).
  replace (positional_value 10 (ip ++ fp)) with r; [assumption|]. rewrite positional_value_app, V, V', L by lia. rewrite Z.mul_comm. apply Z.div_mod. lia.
Qed.
Lemma scientific_exists p n d : 0 < d -> 0 <= n -> exists x c fp, scientific_digits p n d x (c :: fp).
Proof.
  intros Hd Hn. assert (G : exists x ds, scientific_digits p n d x ds).
  { destruct (Z.eq_dec n 0) as [->|NZ].
    - destruct (digits_exist (S p) 0) as (ds & D & L & V); [pose proof (pow10_pos (Z.of_nat (S p)) ltac:(lia)); lia|].
      exists 0, ds. split; [assumption|split; [assumption|]]. left. auto.
    - destruct (exponent_exists n d Hd ltac:(lia)) as (x0 & H1 & H2).
      destruct (nearest_even_exists (n * 10 ^ Z.max (Z.of_nat p - x0) 0) (d * 10 ^ Z.max (- (Z.of_nat p - x0)) 0)) as (r & R); [now apply scaled_den_pos|].
      assert (B1 : 10 ^ Z.of_nat p <= r) by (apply (nearest_even_ge _ _ _ _ (scaled_den_pos d _ Hd) R); apply scaled_ge; (assumption || lia)).
      assert (B2 : r <= 10 ^ (Z.of_nat p + 1)) by (apply (nearest_even_le _ _ _ _ (scaled_den_pos d _ Hd) R); apply scaled_le; (assumption || lia)).
      pose proof (pow10_pos (Z.of_nat p) ltac:(lia)).
      destruct (Z.eq_dec r (10 ^ (Z.of_nat p + 1))) as [ER|NR].
      + destruct (digits_exist (S p) (10 ^ Z.of_nat p)) as (ds & D & L & V); [rewrite Nat2Z.inj_succ, Z.pow_succ_r by lia; lia|].
        exists (x0 + 1), ds. split; [assumption|split; [assumption|]]. right. split; [lia|]. exists x0, r. auto 10.
      + destruct (digits_exist (S p) r) as (ds & D & L & V); [rewrite Nat2Z.inj_succ; unfold Z.succ; lia|].
        exists x0, ds. split; [assumption|split; [assumption|]]. right. split; [lia|]. exists x0, r. do 3 (split; [assumption|]). left. split; [lia|]. auto. }
  destruct G as (x & ds & S). destruct ds as [|c fp]; [destruct S as (_ & L & _); discriminate|]. now exists x, c, fp.
Qed.
Lemma exponent_text_exists x : exists s, exponent_text x s.
Proof. destruct (positional_exists (Z.abs x)) as (ds & P); [lia|]. eexists. exists ds. split; [reflexivity|assumption]. Qed.

Lemma numerator_nonneg m e : 0 <= m -> 0 <= numerator m e.
Proof. intros H. apply Z.mul_nonneg_nonneg; [assumption|]. apply Z.pow_nonneg. lia. Qed.
Lemma denominator_pos e : 0 < denominator e.
Proof. apply Z.pow_pos_nonneg; lia. Qed.

Lemma fixed_text_unique alt p n d s s' : 0 < d -> fixed_text alt p n d s -> fixed_text alt p n d s' -> s = s'.
Proof. intros Hd (ip & fp & F & ->) (ip' & fp' & F' & ->). now destruct (fixed_unique _ _ _ _ _ _ _ Hd F F') as (-> & ->). Qed.
Lemma scientific_text_unique alt p n d s s' : 0 < d -> scientific_text alt p n d s -> scientific_text alt p n d s' -> s = s'.
Proof.
  intros Hd (x & c & fp & ex & S & X & ->) (x' & c' & fp' & ex' & S' & X' & ->). destruct (scientific_unique _ _ _ _ _ _ _ Hd S S') as (<- & E). injection E as <- <-.
  now rewrite (exponent_text_unique _ _ _ X X').
Qed.
Lemma general_text_unique alt p n d s s' : 0 < d -> general_text alt p n d s -> general_text alt p n d s' -> s = s'.
Proof.
  intros Hd (x & c & ds & S & C) (x' & c' & ds' & S' & C'). destruct (scientific_unique _ _ _ _ _ _ _ Hd S S') as (<- & E). injection E as <- <-.
  destruct C as [(B & ip & fp & fp1 & F & W & ->)|(B & ds1 & ex & W & X & ->)], C' as [(B' & ip' & fp' & fp1' & F' & W' & ->)|(B' & ds1' & ex' & W' & X' & ->)]; try contradiction.
  - destruct (fixed_unique _ _ _ _ _ _ _ Hd F F') as (<- & <-). now rewrite (without_zeros_unique _ _ _ _ W W').
  - now rewrite (without_zeros_unique _ _ _ _ W W'), (exponent_text_unique _ _ _ X X').
Qed.
