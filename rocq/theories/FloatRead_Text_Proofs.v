(** Lemmas for FloatRead_Props (C70): the scanners accept the texts of FloatRead_Spec. *)
From Coq Require Import SpecFloat QArith Qabs Qpower Qfield Lqa.
From Verif Require Import Common Format_Spec Float_Spec Float_Proofs Json_Model JsonFloat_Props FloatRead_Spec FloatRead_Model FloatRead_Proofs.
Local Open Scope Z_scope.

Definition stops (f : Z -> bool) (s : list Z) : Prop := match s with [] => True | c :: _ => f c = false end.
Lemma span_sound f s : forall a b, span f s = (a, b) -> s = a ++ b /\ Forall (fun c => f c = true) a /\ stops f b.
Proof.
  induction s as [|c s IH]; cbn [span]; intros a b E; [injection E as <- <-; repeat split; constructor|].
  destruct (f c) eqn:F; [|injection E as <- <-; repeat split; [constructor|exact F]].
  destruct (span f s) as [a' b'] eqn:ES. injection E as <- <-. destruct (IH _ _ eq_refl) as (-> & H1 & H2). split; [reflexivity|]. split; [now constructor|assumption].
Qed.
Lemma span_complete f a b : Forall (fun c => f c = true) a -> stops f b -> span f (a ++ b) = (a, b).
Proof.
  intros HA HB. induction HA as [|c a Hc HA IH]; cbn [app span].
  - destruct b as [|c b]; [reflexivity|]. cbn [stops] in HB. cbn [span]. now rewrite HB.
  - now rewrite Hc, IH.
Qed.
Lemma after_some c s r : after c s = Some r -> s = c :: r.
Proof. destruct s as [|x s]; cbn [after]; [discriminate|]. destruct (Z.eqb_spec x c); [|discriminate]. intros E. injection E as <-. now subst. Qed.
Lemma after_here c r : after c (c :: r) = Some r.
Proof. cbn [after]. now rewrite Z.eqb_refl. Qed.
Lemma after_none c s : match s with [] => True | x :: _ => x <> c end -> after c s = None.
Proof. destruct s as [|x s]; [reflexivity|]. cbn [after]. intros H. destruct (Z.eqb_spec x c); [contradiction|reflexivity]. Qed.
Lemma after_none_inv c s : after c s = None -> match s with [] => True | x :: _ => x <> c end.
Proof. destruct s as [|x s]; [auto|]. cbn [after]. destruct (Z.eqb_spec x c); [discriminate|auto]. Qed.

(** * Digits *)
Lemma is_decimal_spec c : is_decimal c = true <-> decimal_digit c.
Proof. unfold is_decimal, decimal_digit, digit_of. rewrite andb_true_iff, !Z.leb_le. lia. Qed.
Lemma is_hexadecimal_spec c : is_hexadecimal c = true <-> hexadecimal_digit c.
Proof. unfold is_hexadecimal, is_decimal, hexadecimal_digit, digit_of. rewrite !orb_true_iff, !andb_true_iff, !Z.leb_le. lia. Qed.
Lemma digit_number_spec c : hexadecimal_digit c -> digit_number c = value_of_digit c.
Proof.
  unfold hexadecimal_digit, digit_of, digit_number, value_of_digit, is_decimal. intros H. destruct (Z.leb_spec 48 c), (Z.leb_spec c 57), (Z.leb_spec c 70), (Z.leb_spec c 90); cbn [andb]; lia.
Qed.
Lemma decimal_hexadecimal c : decimal_digit c -> hexadecimal_digit c.
Proof. unfold decimal_digit, hexadecimal_digit, digit_of. lia. Qed.
Lemma digit_number_nonneg c : hexadecimal_digit c -> 0 <= digit_number c.
Proof. intros H. rewrite digit_number_spec by assumption. unfold hexadecimal_digit, digit_of, value_of_digit in *. destruct (Z.leb_spec c 57), (Z.leb_spec c 90); lia. Qed.
Lemma digits_fold base ds : 0 <= base -> Forall hexadecimal_digit ds -> forall a, fold_left (fun a c => a * base + digit_number c) ds a = a * base ^ Z.of_nat (length ds) + positional_value base ds.
Proof.
  intros HB H. induction H as [|c ds Hc H IH]; intros a; cbn [fold_left length positional_value]; [cbn; lia|].
  rewrite IH, digit_number_spec by assumption. rewrite Nat2Z.inj_succ, Z.pow_succ_r by lia. ring.
Qed.
Lemma digits_number_spec base ds : 0 <= base -> Forall hexadecimal_digit ds -> digits_number base ds = positional_value base ds.
Proof. intros HB H. unfold digits_number. rewrite digits_fold by assumption. lia. Qed.
Lemma positional_nonneg base ds : 0 <= base -> Forall hexadecimal_digit ds -> 0 <= positional_value base ds.
Proof.
  intros HB H. induction H as [|c ds Hc H IH]; cbn [positional_value]; [lia|]. rewrite <- digit_number_spec by assumption. pose proof (digit_number_nonneg c Hc).
  assert (0 <= base ^ Z.of_nat (length ds)) by (apply Z.pow_nonneg; lia). assert (0 <= digit_number c * base ^ Z.of_nat (length ds)) by (apply Z.mul_nonneg_nonneg; lia). lia.
Qed.
Lemma decimals_hexadecimal ds : Forall decimal_digit ds -> Forall hexadecimal_digit ds.
Proof. apply Forall_impl. exact decimal_hexadecimal. Qed.

(** * Mantissa and exponent *)
Lemma mantissa_sound dig (D : Z -> Prop) s ds places r : (forall c, dig c = true <-> D c) -> scan_mantissa dig s = Some (ds, places, r) ->
  exists ip fp mt, s = mt ++ r /\ mantissa_text D ip fp mt /\ ds = ip ++ fp /\ places = Z.of_nat (length fp).
Proof.
  intros HD. unfold scan_mantissa. destruct (span dig s) as [ip r1] eqn:E1. destruct (span_sound _ _ _ _ E1) as (-> & F1 & _).
  assert (F1' : Forall D ip) by (eapply Forall_impl; [|exact F1]; intros c; apply HD).
  destruct (after 46 r1) as [r2|] eqn:E2.
  - apply after_some in E2. subst r1. destruct (span dig r2) as [fp r3] eqn:E3. destruct (span_sound _ _ _ _ E3) as (-> & F2 & _).
    assert (F2' : Forall D fp) by (eapply Forall_impl; [|exact F2]; intros c; apply HD).
    intros E. exists ip, fp, (ip ++ 46 :: fp). destruct (ip ++ fp) as [|c l] eqn:EL; [discriminate|]. injection E as <- <- <-.
    split; [now rewrite <- app_assoc|]. split; [|split; reflexivity || auto]. split; [assumption|]. split; [assumption|]. split; [rewrite EL; discriminate|now right].
  - rewrite app_nil_r. intros E. exists ip, [], ip. destruct ip as [|c l] eqn:EL; [discriminate|]. injection E as <- <- <-.
    split; [reflexivity|]. split; [|split; [now rewrite app_nil_r|reflexivity]]. split; [assumption|]. split; [constructor|]. split; [now rewrite app_nil_r|now left].
Qed.
Lemma mantissa_complete dig (D : Z -> Prop) ip fp mt ex : (forall c, dig c = true <-> D c) -> ~ D 46 -> mantissa_text D ip fp mt -> match ex with [] => True | c :: _ => ~ D c /\ c <> 46 end ->
  scan_mantissa dig (mt ++ ex) = Some (ip ++ fp, Z.of_nat (length fp), ex).
Proof.
  intros HD H46 (F1 & F2 & N & HM) HX. assert (ST : stops dig ex). { destruct ex as [|c ex]; cbn [stops]; [exact I|]. destruct (dig c) eqn:E; [|reflexivity]. apply HD in E. tauto. }
  assert (F1' : Forall (fun c => dig c = true) ip) by (eapply Forall_impl; [|exact F1]; intros c; apply HD). assert (F2' : Forall (fun c => dig c = true) fp) by (eapply Forall_impl; [|exact F2]; intros c; apply HD).
  assert (D46 : dig 46 = false) by (destruct (dig 46) eqn:E; [apply HD in E; contradiction|reflexivity]).
  unfold scan_mantissa. destruct HM as [(-> & ->)| ->].
  - rewrite span_complete by assumption. rewrite after_none by (destruct ex; tauto). rewrite app_nil_r in *. destruct ip; [contradiction|reflexivity].
  - rewrite <- app_assoc. cbn [app]. rewrite span_complete by assumption. rewrite after_here. rewrite span_complete by assumption. destruct (ip ++ fp); [contradiction|reflexivity].
Qed.
Lemma sign_sound s neg r : scan_sign s = (neg, r) -> exists sign, s = sign ++ r /\ (neg = false /\ (sign = [] \/ sign = [43]) \/ neg = true /\ sign = [45]).
Proof.
  unfold scan_sign. destruct (after 45 s) as [r1|] eqn:E1; [|destruct (after 43 s) as [r1|] eqn:E2]; intros E; injection E as <- <-.
  - apply after_some in E1. exists [45]. subst. split; [reflexivity|now right].
  - apply after_some in E2. exists [43]. subst. split; [reflexivity|left; auto].
  - exists []. split; [reflexivity|left; auto].
Qed.
Lemma sign_none s : match s with [] => True | c :: _ => c <> 45 /\ c <> 43 end -> scan_sign s = (false, s).
Proof. intros H. unfold scan_sign. rewrite !after_none by (destruct s; tauto). reflexivity. Qed.
Lemma sign_minus s : scan_sign (45 :: s) = (true, s).
Proof. reflexivity. Qed.
Lemma sign_plus s : scan_sign (43 :: s) = (false, s).
Proof. reflexivity. Qed.
Lemma exponent_sound lo up s x r : scan_exponent lo up s = (x, r) -> exists ex, s = ex ++ r /\ exponent_suffix lo up x ex.
Proof.
  assert (Z0 : forall s, (0, s) = (x, r) -> exists ex, s = ex ++ r /\ exponent_suffix lo up x ex) by (intros s' E; injection E as <- <-; exists []; split; [reflexivity|now left]).
  destruct s as [|c s]; cbn [scan_exponent]; [apply Z0|]. destruct ((c =? lo) || (c =? up)) eqn:EC; [|apply Z0].
  destruct (scan_sign s) as [neg r1] eqn:E1. destruct (sign_sound _ _ _ E1) as (sign & ES & HS). destruct (span is_decimal r1) as [ds r2] eqn:E2. destruct (span_sound _ _ _ _ E2) as (E3 & F & _).
  destruct ds as [|d ds]; [apply Z0|]. intros E. injection E as <- <-. exists (c :: sign ++ d :: ds). split; [rewrite ES, E3; cbn [app]; now rewrite <- app_assoc|]. right.
  assert (F' : Forall decimal_digit (d :: ds)) by (eapply Forall_impl; [|exact F]; intros z; apply is_decimal_spec).
  exists c, sign, (d :: ds). apply orb_true_iff in EC. rewrite !Z.eqb_eq in EC. split; [assumption|]. split; [reflexivity|]. split; [discriminate|]. split; [assumption|].
  rewrite digits_number_spec by (lia || now apply decimals_hexadecimal). destruct HS as [(-> & HS)|(-> & HS)]; auto.
Qed.
Lemma exponent_complete lo up x ex : exponent_suffix lo up x ex -> scan_exponent lo up ex = (x, []).
Proof.
  intros [(-> & ->)|(c & sign & ds & HC & -> & N & F & HS)]; [reflexivity|]. cbn [scan_exponent].
  assert (EC : (c =? lo) || (c =? up) = true) by (apply orb_true_iff; rewrite !Z.eqb_eq; assumption). rewrite EC.
  assert (F' : Forall (fun c => is_decimal c = true) ds) by (eapply Forall_impl; [|exact F]; intros z; apply is_decimal_spec).
  assert (ED : span is_decimal ds = (ds, [])) by (rewrite <- (app_nil_r ds) at 1; apply span_complete; [assumption|exact I]).
  assert (EV : digits_number 10 ds = positional_value 10 ds) by (apply digits_number_spec; [lia|now apply decimals_hexadecimal]).
  assert (E1 : scan_sign (sign ++ ds) = (match sign with [] => false | c :: _ => c =? 45 end, ds)).
  { destruct HS as [([-> | ->] & _)|(-> & _)]; [|reflexivity|reflexivity]. cbn [app]. apply sign_none. destruct ds as [|d ds]; [exact I|]. inversion F as [|? ? Hd _]; subst. unfold decimal_digit, digit_of in Hd. lia. }
  rewrite E1, ED. destruct ds as [|d ds]; [contradiction|]. rewrite EV. destruct HS as [([-> | ->] & ->)|(-> & ->)]; reflexivity.
Qed.
Lemma exponent_start lo up x ex : exponent_suffix lo up x ex -> match ex with [] => True | c :: _ => c = lo \/ c = up end.
Proof. intros [(-> & _)|(c & sign & ds & HC & -> & _)]; auto. Qed.

(** * Numbers *)
Lemma power_ratio b M k : 0 < b -> (ratio (M * b ^ Z.max k 0) (b ^ Z.max (- k) 0) == inject_Z M * (inject_Z b) ^ k)%Q.
Proof.
  intros Hb. assert (HD : 0 < b ^ Z.max (- k) 0) by (apply Z.pow_pos_nonneg; lia). pose proof (inj_pos b Hb) as HQ.
  apply (mul_cancel _ _ (inject_Z (b ^ Z.max (- k) 0))); [now apply inj_pos|]. rewrite (ratio_mul _ _ HD), inject_Z_mult, !Zpower_Qpower by lia. rewrite <- Qmult_assoc, <- Qpower_plus by lra.
  replace (k + Z.max (- k) 0)%Z with (Z.max k 0) by lia. reflexivity.
Qed.
Definition number_scanner (scan : list Z -> option (Z * Z * list Z)) (number : Q -> list Z -> Prop) : Prop :=
  (forall s n d rest, scan s = Some (n, d, rest) -> 0 <= n /\ 0 < d /\ exists t, s = t ++ rest /\ t <> [] /\ number (ratio n d) t) /\
  (forall q s, number q s -> exists n d, scan s = Some (n, d, []) /\ (q == ratio n d)%Q).
Lemma mantissa_nonempty D ip fp mt : mantissa_text D ip fp mt -> mt <> [].
Proof. intros (_ & _ & N & [(-> & ->)| ->]); [now rewrite app_nil_r in N|]. intros E. apply app_eq_nil in E. destruct E; discriminate. Qed.
Lemma decimal_scanner : number_scanner scan_decimal decimal_text.
Proof.
  split.
  - intros s n d rest. unfold scan_decimal. destruct (scan_mantissa is_decimal s) as [[[ds places] r]|] eqn:E1; [|discriminate].
    destruct (mantissa_sound _ _ _ _ _ _ is_decimal_spec E1) as (ip & fp & mt & -> & HM & -> & ->). destruct (scan_exponent 101 69 r) as [x r'] eqn:E2. destruct (exponent_sound _ _ _ _ _ E2) as (ex & -> & HX).
    assert (HH : Forall hexadecimal_digit (ip ++ fp)) by (apply decimals_hexadecimal; destruct HM as (F1 & F2 & _); apply Forall_app; now split).
    rewrite digits_number_spec by (lia || assumption). pose proof (positional_nonneg 10 _ ltac:(lia) HH) as HN. intros E. injection E as <- <- <-. set (k := x - Z.of_nat (length fp)).
    assert (0 < 10 ^ Z.max k 0) by (apply Z.pow_pos_nonneg; lia). assert (0 < 10 ^ Z.max (- k) 0) by (apply Z.pow_pos_nonneg; lia). split; [apply Z.mul_nonneg_nonneg; lia|]. split; [assumption|].
    exists (mt ++ ex). split; [now rewrite app_assoc|]. split; [pose proof (mantissa_nonempty _ _ _ _ HM); intros EN; apply app_eq_nil in EN; destruct EN; contradiction|].
    exists ip, fp, x, mt, ex. split; [reflexivity|]. split; [assumption|]. split; [assumption|]. apply power_ratio. lia.
  - intros q s (ip & fp & x & mt & ex & -> & HM & HX & EQ). pose proof (exponent_start _ _ _ _ HX) as HS. unfold scan_decimal.
    rewrite (mantissa_complete _ _ _ _ _ _ is_decimal_spec) with (2 := HM) by (unfold decimal_digit, digit_of; lia || (destruct ex; [exact I|unfold decimal_digit, digit_of; lia])).
    rewrite (exponent_complete _ _ _ _ HX). assert (HH : Forall hexadecimal_digit (ip ++ fp)) by (apply decimals_hexadecimal; destruct HM as (F1 & F2 & _); apply Forall_app; now split).
    rewrite digits_number_spec by (lia || assumption). do 2 eexists. split; [reflexivity|]. rewrite EQ. rewrite power_ratio by lia. reflexivity.
Qed.
Lemma hexadecimal_scanner : number_scanner scan_hexadecimal hexadecimal_text.
Proof.
  split.
  - intros s n d rest. unfold scan_hexadecimal. destruct (after 48 s) as [[|xx r0]|] eqn:E0; try discriminate. apply after_some in E0. subst s. destruct ((xx =? 120) || (xx =? 88)) eqn:EX; [|discriminate].
    destruct (scan_mantissa is_hexadecimal r0) as [[[ds places] r]|] eqn:E1; [|discriminate].
    destruct (mantissa_sound _ _ _ _ _ _ is_hexadecimal_spec E1) as (ip & fp & mt & -> & HM & -> & ->). destruct (scan_exponent 112 80 r) as [x r'] eqn:E2. destruct (exponent_sound _ _ _ _ _ E2) as (ex & -> & HX).
    assert (HH : Forall hexadecimal_digit (ip ++ fp)) by (destruct HM as (F1 & F2 & _); apply Forall_app; now split).
    rewrite digits_number_spec by (lia || assumption). pose proof (positional_nonneg 16 _ ltac:(lia) HH) as HN. intros E. injection E as <- <- <-. set (k := x - 4 * Z.of_nat (length fp)).
    assert (0 < 2 ^ Z.max k 0) by (apply Z.pow_pos_nonneg; lia). assert (0 < 2 ^ Z.max (- k) 0) by (apply Z.pow_pos_nonneg; lia). split; [apply Z.mul_nonneg_nonneg; lia|]. split; [assumption|].
    exists (48 :: xx :: mt ++ ex). split; [cbn [app]; now rewrite <- app_assoc|]. split; [discriminate|]. apply orb_true_iff in EX. rewrite !Z.eqb_eq in EX.
    exists ip, fp, x, mt, ex. split; [destruct EX as [-> | ->]; auto|]. split; [assumption|]. split; [assumption|]. apply power_ratio. lia.
  - intros q s (ip & fp & x & mt & ex & ES & HM & HX & EQ). pose proof (exponent_start _ _ _ _ HX) as HS.
    assert (E0 : scan_mantissa is_hexadecimal (mt ++ ex) = Some (ip ++ fp, Z.of_nat (length fp), ex)).
    { apply (mantissa_complete _ _ _ _ _ _ is_hexadecimal_spec); [unfold hexadecimal_digit, digit_of; lia|assumption|]. destruct ex; [exact I|unfold hexadecimal_digit, digit_of; lia]. }
    unfold scan_hexadecimal. assert (E1 : exists xx, after 48 s = Some (xx :: mt ++ ex) /\ (xx =? 120) || (xx =? 88) = true) by (destruct ES as [-> | ->]; eexists; split; reflexivity).
    destruct E1 as (xx & -> & ->). rewrite E0, (exponent_complete _ _ _ _ HX). assert (HH : Forall hexadecimal_digit (ip ++ fp)) by (destruct HM as (F1 & F2 & _); apply Forall_app; now split).
    rewrite digits_number_spec by (lia || assumption). do 2 eexists. split; [reflexivity|]. rewrite EQ. rewrite power_ratio by lia. reflexivity.
Qed.
(** A decimal text does not begin like a hexadecimal one, and does not begin with a letter or sign. *)
Lemma decimal_start q s : decimal_text q s -> exists c r, s = c :: r /\ (decimal_digit c \/ c = 46).
Proof.
  intros (ip & fp & x & mt & ex & -> & (F1 & F2 & N & HM) & _). destruct ip as [|c ip].
  - destruct HM as [(-> & ->)| ->]; [contradiction|]. cbn [app]. do 2 eexists. split; [reflexivity|now right].
  - inversion F1 as [|? ? Hc _]; subst. destruct HM as [(-> & ->)| ->]; cbn [app]; (do 2 eexists; split; [reflexivity|now left]).
Qed.
Lemma decimal_not_hexadecimal q s : decimal_text q s -> scan_hexadecimal s = None.
Proof.
  intros HD. destruct (scan_hexadecimal s) as [[[n d] rest]|] eqn:E; [exfalso|reflexivity]. destruct (proj1 hexadecimal_scanner _ _ _ _ E) as (_ & _ & t & -> & _ & (ip' & fp' & x' & mt' & ex' & HT & _)).
  assert (HX : exists xx l, (t ++ rest = 48 :: xx :: l) /\ (xx = 120 \/ xx = 88)). { destruct HT as [-> | ->]; cbn [app]; (do 2 eexists; split; [reflexivity|auto]). }
  destruct HX as (xx & l & EX & HXX). rewrite EX in HD. destruct HD as (ip & fp & x & mt & ex & ES & (F1 & F2 & N & HM) & HX & _). pose proof (exponent_start _ _ _ _ HX) as HS.
  assert (G : forall ip rest, Forall decimal_digit ip -> 48 :: xx :: l = ip ++ rest -> match rest with [] => True | c :: _ => c = 46 \/ c = 101 \/ c = 69 end -> False).
  { intros [|c1 [|c2 i]] r0 HF E0 HR; cbn [app] in E0.
    - subst r0. lia. - injection E0 as _ E0. subst r0. lia.
    - injection E0 as _ E0 _. inversion HF as [|? ? _ HF']; subst. inversion HF' as [|? ? H2 _]; subst. unfold decimal_digit, digit_of in H2. lia. }
  destruct HM as [(-> & ->)| ->].
  - apply (G ip ex F1 ES). destruct ex; [exact I|lia].
  - rewrite <- app_assoc in ES. apply (G ip _ F1 ES). cbn. auto.
Qed.
Lemma any_scanner : number_scanner (fun r => match scan_hexadecimal r with Some x => Some x | None => scan_decimal r end) any_text.
Proof.
  split.
  - intros s n d rest E. destruct (scan_hexadecimal s) as [[[n' d'] rest']|] eqn:EH.
    + injection E as -> -> ->. destruct (proj1 hexadecimal_scanner _ _ _ _ EH) as (A & B & t & C & D & F). split; [assumption|]. split; [assumption|]. exists t. split; [assumption|]. split; [assumption|now right].
    + destruct (proj1 decimal_scanner _ _ _ _ E) as (A & B & t & C & D & F). split; [assumption|]. split; [assumption|]. exists t. split; [assumption|]. split; [assumption|now left].
  - intros q s [H|H].
    + rewrite (decimal_not_hexadecimal _ _ H). now apply decimal_scanner.
    + destruct (proj2 hexadecimal_scanner _ _ H) as (n & d & E & EQ). exists n, d. rewrite E. now split.
Qed.

(** * Words *)
Lemma same_letter_spec a c : 97 <= a <= 122 -> (lower_case c =? a) = true <-> same_letter a c.
Proof. intros H. unfold lower_case, same_letter. rewrite Z.eqb_eq. destruct (Z.leb_spec 65 c), (Z.leb_spec c 90); cbn [andb]; lia. Qed.
Lemma word_sound w : Forall (fun a => 97 <= a <= 122) w -> forall s r, scan_word w s = Some r -> exists t, s = t ++ r /\ word w t.
Proof.
  induction 1 as [|a w Ha Hw IH]; intros s r E; cbn [scan_word] in E.
  - injection E as <-. exists []. split; [reflexivity|constructor].
  - destruct s as [|c s]; [discriminate|]. destruct (lower_case c =? a) eqn:EC; [|discriminate]. apply same_letter_spec in EC; [|assumption]. destruct (IH _ _ E) as (t & -> & HT). exists (c :: t). split; [reflexivity|now constructor].
Qed.
Lemma word_complete w : Forall (fun a => 97 <= a <= 122) w -> forall t r, word w t -> scan_word w (t ++ r) = Some r.
Proof.
  induction 1 as [|a w Ha Hw IH]; intros t r HT; inversion HT as [|? ? ? ? HS HT']; subst; [reflexivity|]. cbn [app scan_word]. rewrite (proj2 (same_letter_spec _ _ Ha) HS). now apply IH.
Qed.
Ltac letters := repeat (apply Forall_cons; [lia|]); apply Forall_nil.
Lemma is_payload_spec c : is_payload c = true <-> payload_char c.
Proof.
  unfold is_payload, payload_char, lower_case, is_decimal. rewrite !orb_true_iff, !andb_true_iff, !Z.leb_le, Z.eqb_eq. destruct (Z.leb_spec 65 c), (Z.leb_spec c 90); cbn [andb]; lia.
Qed.
Lemma special_sound s v r : scan_special s = Some (v, r) -> exists t, s = t ++ r /\ t <> [] /\ (v = SInfinity /\ infinity_text t \/ v = SNan /\ nan_text t).
Proof.
  assert (L1 : Forall (fun a => 97 <= a <= 122) [105; 110; 102]) by letters. assert (L2 : Forall (fun a => 97 <= a <= 122) [105; 110; 105; 116; 121]) by letters. assert (L3 : Forall (fun a => 97 <= a <= 122) [110; 97; 110]) by letters.
  unfold scan_special. destruct (scan_word [105; 110; 102] s) as [r1|] eqn:E1.
  - destruct (word_sound _ L1 _ _ E1) as (t1 & -> & W1). assert (N1 : t1 <> []) by (inversion W1; discriminate). destruct (scan_word [105; 110; 105; 116; 121] r1) as [r2|] eqn:E2; intros E; injection E as <- <-.
    + destruct (word_sound _ L2 _ _ E2) as (t2 & -> & W2). exists (t1 ++ t2). split; [now rewrite app_assoc|]. split; [intros E; apply app_eq_nil in E; tauto|]. left. split; [reflexivity|]. right. exact (Forall2_app W1 W2).
    + exists t1. split; [reflexivity|]. split; [assumption|]. left. split; [reflexivity|now left].
  - destruct (scan_word [110; 97; 110] s) as [r1|] eqn:E2; [|discriminate]. destruct (word_sound _ L3 _ _ E2) as (t1 & -> & W1). assert (N1 : t1 <> []) by (inversion W1; discriminate).
    assert (PL : exists t, t1 ++ r1 = t ++ r1 /\ t <> [] /\ nan_text t). { exists t1. split; [reflexivity|]. split; [assumption|]. exists t1, []. split; [assumption|]. split; [now rewrite app_nil_r|now left]. }
    intros E. injection E as <- <-. destruct (after 40 r1) as [r2|] eqn:E3; [|destruct PL as (t & P1 & P2 & P3); exists t; auto].
    destruct (span is_payload r2) as [l r3] eqn:E4. cbn [snd]. destruct (after 41 r3) as [r4|] eqn:E5; [|destruct PL as (t & P1 & P2 & P3); exists t; auto].
    apply after_some in E3, E5. destruct (span_sound _ _ _ _ E4) as (E6 & F & _). subst. exists (t1 ++ 40 :: l ++ [41]). split; [now rewrite <- !app_assoc; cbn [app]; rewrite <- app_assoc|].
    split; [intros E; apply app_eq_nil in E; tauto|]. right. split; [reflexivity|]. exists t1, (40 :: l ++ [41]). split; [assumption|]. split; [reflexivity|]. right. exists l. split; [eapply Forall_impl; [|exact F]; intros c; apply is_payload_spec|reflexivity].
Qed.
Lemma infinity_complete s : infinity_text s -> scan_special s = Some (SInfinity, []).
Proof.
  assert (L1 : Forall (fun a => 97 <= a <= 122) [105; 110; 102]) by letters. assert (L2 : Forall (fun a => 97 <= a <= 122) [105; 110; 105; 116; 121]) by letters.
  unfold scan_special. intros [H|H].
  - rewrite <- (app_nil_r s). rewrite (word_complete _ L1 _ _ H). reflexivity.
  - apply (Forall2_app_inv_l [105; 110; 102] [105; 110; 105; 116; 121]) in H. destruct H as (t1 & t2 & W1 & W2 & ->). rewrite (word_complete _ L1 _ _ W1). rewrite <- (app_nil_r t2). now rewrite (word_complete _ L2 _ _ W2).
Qed.
Lemma nan_complete s : nan_text s -> scan_special s = Some (SNan, []).
Proof.
  assert (L3 : Forall (fun a => 97 <= a <= 122) [110; 97; 110]) by letters. intros (w & p & W & -> & HP). unfold scan_special. rewrite (word_complete _ L3 _ _ W).
  assert (E1 : scan_word [105; 110; 102] (w ++ p) = None).
  { inversion W as [|? c ? ? HS _]; subst. cbn [app scan_word]. destruct (lower_case c =? 105) eqn:E; [|reflexivity]. apply (same_letter_spec 105) in E; [|lia]. unfold same_letter in *. lia. }
  rewrite E1. destruct HP as [-> |(l & F & ->)]; [reflexivity|]. rewrite after_here, span_complete; [reflexivity| |reflexivity].
  eapply Forall_impl; [|exact F]. intros c. apply is_payload_spec.
Qed.
Lemma number_not_special q s : any_text q s -> scan_special s = None.
Proof.
  intros H. assert (HS : exists c r, s = c :: r /\ c <= 57).
  { destruct H as [H|H]; [destruct (decimal_start _ _ H) as (c & r & -> & HC); exists c, r; split; [reflexivity|unfold decimal_digit, digit_of in HC; lia]|].
    destruct H as (ip & fp & x & mt & ex & [-> | ->] & _); (do 2 eexists; split; [reflexivity|lia]). }
  destruct HS as (c & r & -> & HC). unfold scan_special. cbn [scan_word].
  assert (LC : lower_case c <= 57) by (unfold lower_case; destruct (Z.leb_spec 65 c), (Z.leb_spec c 90); cbn [andb]; lia).
  destruct (Z.eqb_spec (lower_case c) 105); [lia|]. destruct (Z.eqb_spec (lower_case c) 110); [lia|]. reflexivity.
Qed.

(** * Whole texts *)
Section Core.
  Variables (ff : fp_format) (tiny : Q -> bool) (scan : list Z -> option (Z * Z * list Z)) (number : Q -> list Z -> Prop).
  Definition core (negative : bool) (s : list Z) : option spec_float :=
    match scan_special s with
    | Some (v, []) => Some (special_value negative v)
    | Some _ => None
    | None => match scan s with
              | Some (n, d, []) => match read_value ff tiny negative n d with (NoError, f) => Some f | _ => None end
              | _ => None
              end
    end.
  Hypothesis HF : format_ok ff.
  Hypothesis HT : underflow_policy ff tiny.
  Hypothesis HS : number_scanner scan number.
  Hypothesis HN : forall q s, number q s -> any_text q s.
  Lemma nearest_proper q q' f : (q == q')%Q -> nearest ff q f -> nearest ff q' f.
  Proof. intros E (A & B & C). split; [assumption|]. split; [assumption|]. intros g HG HV. specialize (C g HG HV). rewrite <- E. exact C. Qed.
  Lemma core_spec negative s f : core negative s = Some f <-> exists g, stands_for ff tiny number s g /\ f = (if negative then negated g else g).
  Proof.
    destruct HT as (T1 & _ & _). unfold core. split.
    - destruct (scan_special s) as [[v [|]]|] eqn:E1; [|discriminate|].
      + intros E. injection E as <-. destruct (special_sound _ _ _ E1) as (t & -> & _ & HV). rewrite app_nil_r. destruct HV as [(-> & HV)|(-> & HV)].
        * exists (S754_infinity false). split; [right; left; auto|]. now destruct negative.
        * exists S754_nan. split; [right; right; auto|]. now destruct negative.
      + destruct (scan s) as [[[n d] [|]]|] eqn:E2; try discriminate. destruct (proj1 HS _ _ _ _ E2) as (Hn & Hd & t & -> & _ & HQ). rewrite app_nil_r.
        destruct (round_correct ff n d HF Hn Hd) as (R1 & R2). unfold read_value. fold (ratio n d).
        destruct (Qlt_le_dec (ratio n d) (limit ff)) as [L|L]; [|rewrite (R2 L); discriminate]. destruct (R1 L) as (g & G1 & G2 & _).
        destruct (tiny (ratio n d)) eqn:ET; [destruct (round_magnitude ff n d); [contradiction|discriminate|discriminate]|].
        intros E. exists g. split.
        * left. exists (ratio n d). split; [assumption|]. split; [assumption|]. split; [assumption|]. split; [assumption|]. destruct (round_magnitude ff n d); [contradiction|now subst g|now subst g].
        * destruct (round_magnitude ff n d); [contradiction| |]; injection E as <-; subst g; now destruct negative.
    - intros (g & [(q & NQ & L & ET & NG & SG)|[(H & ->)|(H & ->)]] & ->).
      + rewrite (number_not_special _ _ (HN _ _ NQ)). destruct (proj2 HS _ _ NQ) as (n & d & E & EQ). rewrite E. destruct (proj1 HS _ _ _ _ E) as (Hn & Hd & _).
        destruct (round_correct ff n d HF Hn Hd) as (R1 & _). rewrite EQ in L. destruct (R1 L) as (f & F1 & F2 & F3). rewrite <- (F3 g) in F1 by (assumption || now apply (nearest_proper q)).
        unfold read_value. fold (ratio n d). rewrite (T1 q _ EQ) in ET. rewrite ET. destruct (round_magnitude ff n d); [contradiction| |]; subst g; now destruct negative.
      + rewrite (infinity_complete _ H). now destruct negative.
      + rewrite (nan_complete _ H). now destruct negative.
  Qed.
End Core.
Lemma whole_rest (s t rest : list Z) : s = t ++ rest -> t <> [] -> forall pre, (length (pre ++ s) - length rest =? length (pre ++ s))%nat = match rest with [] => true | _ => false end.
Proof. intros -> HT pre. rewrite !app_length. destruct t; [contradiction|]. destruct rest; cbn [length]; [apply Nat.eqb_eq; lia|apply Nat.eqb_neq; lia]. Qed.
Lemma charconv_core ff tiny s : convert_charconv ff tiny s =
  match after 45 s with Some r => core ff tiny scan_decimal true r | None => core ff tiny scan_decimal false s end.
Proof.
  assert (G : forall pre r neg, s = pre ++ r -> (match after 45 s with Some r => (true, r) | None => (false, s) end) = (neg, r) -> convert_charconv ff tiny s = core ff tiny scan_decimal neg r).
  { intros pre r neg ES EA. unfold convert_charconv, from_chars, core. rewrite EA. destruct (scan_special r) as [[v rest]|] eqn:E1.
    - destruct (special_sound _ _ _ E1) as (t & HT & NT & _). cbn [fc_ptr fc_ec fc_value]. rewrite ES, (whole_rest _ _ _ HT NT). destruct rest; reflexivity.
    - destruct (scan_decimal r) as [[[n d] rest]|] eqn:E2.
      + destruct (proj1 decimal_scanner _ _ _ _ E2) as (_ & _ & t & HT & NT & _). destruct (read_value ff tiny neg n d) as [ec f]. cbn [fc_ptr fc_ec fc_value]. rewrite ES, (whole_rest _ _ _ HT NT). destruct rest; [|reflexivity]. now destruct ec.
      + cbn [fc_ptr fc_ec]. destruct (negb _); reflexivity. }
  destruct (after 45 s) as [r|] eqn:E.
  - apply (G [45] r true); [now apply after_some|reflexivity].
  - now apply (G [] s false).
Qed.
Lemma stod_core ff tiny s : convert_stod ff tiny s =
  let '(_, r) := span is_space s in let '(negative, r) := scan_sign r in core ff tiny (fun r => match scan_hexadecimal r with Some x => Some x | None => scan_decimal r end) negative r.
Proof.
  unfold convert_stod, stod, core. destruct (span is_space s) as [w r0] eqn:E0. destruct (span_sound _ _ _ _ E0) as (ES & _ & _). destruct (scan_sign r0) as [neg r] eqn:E1. destruct (sign_sound _ _ _ E1) as (sign & ES' & _).
  assert (EP : s = (w ++ sign) ++ r) by (rewrite ES, ES'; now rewrite app_assoc). clear E0 E1 ES ES'.
  destruct (scan_special r) as [[v rest]|] eqn:E1.
  - destruct (special_sound _ _ _ E1) as (t & HT & NT & _). rewrite EP, (whole_rest _ _ _ HT NT). destruct rest; reflexivity.
  - destruct (match scan_hexadecimal r with Some x => Some x | None => scan_decimal r end) as [[[n d] rest]|] eqn:E2; [|reflexivity].
    destruct (proj1 any_scanner _ _ _ _ E2) as (_ & _ & t & HT & NT & _). destruct (read_value ff tiny neg n d) as [[| |] f]; [|destruct rest; reflexivity..]. rewrite EP, (whole_rest _ _ _ HT NT). destruct rest; reflexivity.
Qed.
(** A text that stands for something begins with a digit, a point or a letter. *)
Lemma stands_start ff tiny s f : stands_for ff tiny any_text s f -> exists c r, s = c :: r /\ (48 <= c \/ c = 46).
Proof.
  assert (W : forall a w s, 97 <= a -> word (a :: w) s -> exists c r, s = c :: r /\ 48 <= c).
  { intros a w s' Ha H. inversion H as [|? c ? r HS _]; subst. exists c, r. split; [reflexivity|]. unfold same_letter in HS. lia. }
  intros [(q & [H|H] & _)|[([H|H] & _)|((w & p & H & -> & _) & _)]].
  - destruct (decimal_start _ _ H) as (c & r & -> & HC). exists c, r. split; [reflexivity|]. unfold decimal_digit, digit_of in HC. lia.
  - destruct H as (ip & fp & x & mt & ex & [-> | ->] & _); (do 2 eexists; split; [reflexivity|lia]).
  - apply W in H; [|lia]. destruct H as (c & r & -> & HC). exists c, r. auto.
  - apply W in H; [|lia]. destruct H as (c & r & -> & HC). exists c, r. auto.
  - apply W in H; [|lia]. destruct H as (c & r & -> & HC). exists c, (r ++ p). auto.
Qed.
Lemma stands_wider ff tiny s f : stands_for ff tiny decimal_text s f -> stands_for ff tiny any_text s f.
Proof. intros [(q & H & R)|H]; [left; exists q; split; [now left|assumption]|now right]. Qed.
