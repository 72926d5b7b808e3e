(** printf's %g as a function, which computes the texts Float_Spec describes; and when a text survives being read and written again. *)
From Coq Require Import SpecFloat QArith Qabs Qpower Qfield Lqa.
From Verif Require Import Common Format_Model Format_Spec Format_Proofs Float_Model Float_Spec Float_Proofs Float_Props Json_Model JsonFloat_Model JsonFloat_Props FloatRead_Spec FloatRead_Model FloatRead_Proofs FloatRead_Text_Proofs FloatRead_Props FloatRound_Props.
Local Open Scope Z_scope.

(** * The function *)
Fixpoint find_exponent (fuel : nat) (n d x : Z) : Z :=
  match fuel with
  | O => x
  | S f => if d * 10 ^ Z.max x 0 <=? n * 10 ^ Z.max (- x) 0 then x else find_exponent f n d (x - 1)
  end.
Fixpoint digits (k : nat) (v : Z) : list Z :=
  match k with O => [] | S k' => 48 + v / 10 ^ Z.of_nat k' :: digits k' (v mod 10 ^ Z.of_nat k') end.
Definition decimal (v : Z) : list Z := match to_chars (S (Z.to_nat (Z.log2 v))) v 10 [] with Some s => s | None => [] end.
Fixpoint stripped (l : list Z) : list Z :=
  match l with
  | [] => []
  | c :: r => match stripped r with [] => if c =? 48 then [] else [c] | r' => c :: r' end
  end.
Definition exponent (x : Z) : list Z := 101 :: (if x <? 0 then 45 else 43) :: (if Z.abs x <? 10 then [48] else []) ++ decimal (Z.abs x).
Definition scientific (p : nat) (n d : Z) : Z * Z :=
  if n =? 0 then (0, 0) else
  let x0 := find_exponent (Z.to_nat (Z.log2 n + Z.log2 d + 3)) n d (Z.log2 n) in
  let k := Z.of_nat p - x0 in
  let r := nearest_int (n * 10 ^ Z.max k 0) (d * 10 ^ Z.max (- k) 0) in
  if r =? 10 ^ (Z.of_nat p + 1) then (x0 + 1, 10 ^ Z.of_nat p) else (x0, r).
Definition print_general (p : nat) (n d : Z) : list Z :=
  let P := Nat.max 1 p in
  let '(x, v) := scientific (P - 1) n d in
  if (-4 <=? x) && (x <? Z.of_nat P) then
    let pl := Z.to_nat (Z.of_nat P - 1 - x) in
    let r := nearest_int (n * 10 ^ Z.of_nat pl) d in
    decimal (r / 10 ^ Z.of_nat pl) ++ point false (stripped (digits pl (r mod 10 ^ Z.of_nat pl)))
  else
    match digits P v with
    | c :: ds => c :: point false (stripped ds) ++ exponent x
    | [] => []
    end.

Lemma digits_spec k : forall v, 0 <= v < 10 ^ Z.of_nat k -> decimal_digits (digits k v) /\ length (digits k v) = k /\ positional_value 10 (digits k v) = v.
Proof.
  induction k as [|k IH]; intros v H; [cbn in *; split; [constructor|]; split; [reflexivity|lia]|]. cbn [digits].
  rewrite Nat2Z.inj_succ, Z.pow_succ_r in H by lia. pose proof (pow10_pos (Z.of_nat k) ltac:(lia)) as HP.
  pose proof (Z.div_mod v (10 ^ Z.of_nat k) ltac:(lia)) as E. pose proof (Z.mod_pos_bound v (10 ^ Z.of_nat k) HP) as B.
  destruct (IH _ B) as (D & L & V). assert (0 <= v / 10 ^ Z.of_nat k < 10) by (split; [apply Z.div_pos; lia|apply Z.div_lt_upper_bound; lia]).
  split; [|split].
  - constructor; [|assumption]. left. lia.
  - cbn [length]. now rewrite L.
  - cbn [positional_value]. rewrite L, V. unfold value_of_digit. destruct (Z.leb_spec (48 + v / 10 ^ Z.of_nat k) 57); lia.
Qed.
Lemma log2_pow10 v : 0 <= v -> v < 10 ^ (Z.log2 v + 1).
Proof.
  intros H. pose proof (Z.log2_nonneg v). destruct (Z.eq_dec v 0) as [-> |N]; [reflexivity|]. destruct (Z.log2_spec v ltac:(lia)) as (_ & L). eapply Z.lt_le_trans; [exact L|]. apply Z.pow_le_mono_l. lia.
Qed.
Lemma decimal_spec v : 0 <= v -> positional 10 false v (decimal v).
Proof.
  intros H. unfold decimal. pose proof (Z.log2_nonneg v). destruct (to_chars_spec (S (Z.to_nat (Z.log2 v))) 10 v []) as (s & E & P & _); [lia|lia| |].
  - split; [assumption|]. rewrite Nat2Z.inj_succ, Z2Nat.id by assumption. now apply log2_pow10.
  - rewrite E, app_nil_r. exact P.
Qed.
Lemma stripped_spec l : without_zeros false l (stripped l).
Proof.
  cbn [without_zeros]. induction l as [|c l (k & E & H)]; [exists O; split; [reflexivity|now left]|]. cbn [stripped]. destruct (stripped l) as [|a r] eqn:ES.
  - destruct (Z.eqb_spec c 48) as [-> |N]; [exists (S k); split; [rewrite E; reflexivity|now left]|]. exists k. split; [rewrite E; reflexivity|right; assumption].
  - exists k. split; [rewrite E at 1; reflexivity|]. right. destruct H as [H|H]; [discriminate|]. exact H.
Qed.
Lemma exponent_spec x : exponent_text x (exponent x).
Proof. exists (decimal (Z.abs x)). split; [reflexivity|]. apply decimal_spec. lia. Qed.
Lemma find_spec n d : 0 < d -> 0 < n -> forall fuel x, ~ at_least_pow10 n d (x + 1) -> at_least_pow10 n d (x - Z.of_nat fuel) ->
  at_least_pow10 n d (find_exponent fuel n d x) /\ ~ at_least_pow10 n d (find_exponent fuel n d x + 1).
Proof.
  intros Hd Hn. induction fuel as [|fuel IH]; intros x H1 H2.
  - cbn [find_exponent]. replace (x - Z.of_nat 0) with x in H2 by lia. auto.
  - cbn [find_exponent]. destruct (Z.leb_spec (d * 10 ^ Z.max x 0) (n * 10 ^ Z.max (- x) 0)) as [L|L]; [split; assumption|]. apply IH.
    + replace (x - 1 + 1) with x by lia. unfold at_least_pow10. lia.
    + now replace (x - 1 - Z.of_nat fuel) with (x - Z.of_nat (S fuel)) by lia.
Qed.
Lemma scientific_spec p n d x v : 0 < d -> 0 <= n -> scientific p n d = (x, v) -> 0 <= v < 10 ^ Z.of_nat (S p) /\ scientific_digits p n d x (digits (S p) v).
Proof.
  intros Hd Hn. unfold scientific. assert (PP : 0 < 10 ^ Z.of_nat (S p)) by (apply pow10_pos; lia). assert (P1 : 10 ^ (Z.of_nat p + 1) = 10 ^ Z.of_nat (S p)) by (f_equal; lia).
  assert (P0 : 10 ^ Z.of_nat (S p) = 10 * 10 ^ Z.of_nat p) by (rewrite Nat2Z.inj_succ; apply Z.pow_succ_r; lia). pose proof (pow10_pos (Z.of_nat p) ltac:(lia)) as P00.
  destruct (Z.eqb_spec n 0) as [-> |NZ].
  - intros E. injection E as <- <-. split; [lia|]. destruct (digits_spec (S p) 0 ltac:(lia)) as (A & B & C). split; [assumption|]. split; [assumption|]. left. auto.
  - set (x0 := find_exponent _ n d (Z.log2 n)). pose proof (Z.log2_nonneg n). pose proof (Z.log2_nonneg d).
    assert (HX : at_least_pow10 n d x0 /\ ~ at_least_pow10 n d (x0 + 1)).
    { apply find_spec; [assumption|lia| |].
      - unfold at_least_pow10. rewrite Z.max_l, Z.max_r by lia. change (10 ^ 0) with 1. pose proof (log2_pow10 n Hn). assert (1 * 10 ^ (Z.log2 n + 1) <= d * 10 ^ (Z.log2 n + 1)) by (apply Z.mul_le_mono_nonneg_r; lia). lia.
      - rewrite Z2Nat.id by lia. replace (Z.log2 n - (Z.log2 n + Z.log2 d + 3)) with (- (Z.log2 d + 3)) by lia. apply (at_least_mono n d _ (- (Z.log2 d + 1))); [assumption|assumption|lia|].
        unfold at_least_pow10. rewrite Z.max_r, Z.max_l by lia. replace (- - (Z.log2 d + 1)) with (Z.log2 d + 1) by lia. change (10 ^ 0) with 1. pose proof (log2_pow10 d ltac:(lia)). assert (1 * 10 ^ (Z.log2 d + 1) <= n * 10 ^ (Z.log2 d + 1)) by (apply Z.mul_le_mono_nonneg_r; lia). lia. }
    clearbody x0. destruct HX as (H1 & H2). cbv zeta. set (k := Z.of_nat p - x0). pose proof (scaled_den_pos d (- k) Hd) as HD.
    pose proof (nearest_int_even (n * 10 ^ Z.max k 0) (d * 10 ^ Z.max (- k) 0) HD) as R. set (r := nearest_int _ _) in *. clearbody r.
    assert (B1 : 10 ^ Z.of_nat p <= r) by (apply (nearest_even_ge _ _ _ _ HD R); apply scaled_ge; (assumption || lia)).
    assert (B2 : r <= 10 ^ (Z.of_nat p + 1)) by (apply (nearest_even_le _ _ _ _ HD R); apply scaled_le; (assumption || lia)).
    destruct (Z.eqb_spec r (10 ^ (Z.of_nat p + 1))) as [ER|NR]; intros E; injection E as <- <-.
    + destruct (digits_spec (S p) (10 ^ Z.of_nat p) ltac:(lia)) as (A & B & C). split; [lia|]. split; [assumption|]. split; [assumption|]. right. split; [lia|]. exists x0, r. split; [assumption|]. split; [assumption|]. split; [exact R|]. right. auto.
    + destruct (digits_spec (S p) r ltac:(lia)) as (A & B & C). split; [lia|]. split; [assumption|]. split; [assumption|]. right. split; [lia|]. exists x0, r. split; [assumption|]. split; [assumption|]. split; [exact R|]. left. split; [lia|]. auto.
Qed.
(** The function writes what the specification says. *)
Theorem print_general_correct : forall p m e, 0 <= m -> printf_text TGeneral false p (Finite m e) (print_general p (numerator m e) (denominator e)).
Proof.
  intros p m e Hm. cbn [printf_text]. pose proof (denominator_pos e) as Hd. apply (numerator_nonneg m e) in Hm. set (n := numerator m e) in *. set (d := denominator e) in *. clearbody n d. unfold general_text, print_general.
  set (P := Nat.max 1 p). assert (HP : (0 < P)%nat) by (unfold P; lia). clearbody P. destruct (scientific (P - 1) n d) as [x v] eqn:E. destruct (scientific_spec _ _ _ _ _ Hd Hm E) as (HV & HS). replace (S (P - 1)) with P in * by lia.
  destruct (digits P v) as [|c ds] eqn:ED; [destruct HS as (_ & L & _); cbn in L; lia|]. exists x, c, ds. split; [assumption|].
  destruct (Z.leb_spec (-4) x), (Z.ltb_spec x (Z.of_nat P)); cbn [andb]; [left|right..]; [split; [lia|]|split; [lia|]; exists (stripped ds), (exponent x); split; [apply stripped_spec|split; [apply exponent_spec|reflexivity]]..].
  set (pl := Z.to_nat (Z.of_nat P - 1 - x)). pose proof (nearest_int_even (n * 10 ^ Z.of_nat pl) d Hd) as R. set (r := nearest_int _ _) in *. clearbody r. pose proof (pow10_pos (Z.of_nat pl) ltac:(lia)) as PP.
  assert (Hr : 0 <= r) by (apply (nearest_even_ge _ _ _ _ Hd R); cbn; apply Z.mul_nonneg_nonneg; lia).
  destruct (decimal_spec (r / 10 ^ Z.of_nat pl)) as (D & V & N & C); [apply Z.div_pos; lia|]. destruct (digits_spec pl (r mod 10 ^ Z.of_nat pl)) as (D' & L & V'); [now apply Z.mod_pos_bound|].
  exists (decimal (r / 10 ^ Z.of_nat pl)), (digits pl (r mod 10 ^ Z.of_nat pl)), (stripped (digits pl (r mod 10 ^ Z.of_nat pl))). split; [|split; [apply stripped_spec|reflexivity]].
  unfold fixed_digits. do 5 (split; [assumption|]). replace (positional_value 10 (_ ++ _)) with r; [assumption|]. rewrite positional_value_app, V, V', L by lia. rewrite Z.mul_comm. apply Z.div_mod. lia.
Qed.

(** * The error of the nearest number *)
Lemma nearest_error ff q g : format_ok ff -> (smallest_normal ff <= q)%Q -> (q < limit ff)%Q -> nearest ff q g -> (Qabs (number_of g - q) * p2 (prec ff) <= q)%Q.
Proof.
  intros HF HN HL (G1 & G2 & G3). assert (N0 : (0 < smallest_normal ff)%Q) by apply p2_pos. destruct q as [n d]. assert (Hn : 0 < n) by (assert (X : (0 < n # d)%Q) by lra; unfold Qlt in X; cbn in X; lia).
  destruct (round_correct ff n (Zpos d) HF ltac:(lia) ltac:(lia)) as (R & _). change (ratio n (Zpos d)) with (n # d) in R. destruct (R HL) as (f & F1 & (F2 & F3 & _) & _). destruct (G3 f F2 F3) as (LE & _).
  set (q := n # d) in *. assert (Hd : 0 < Zpos d) by lia. pose proof (exponent2_spec n (Zpos d) Hn Hd) as (K1 & K2). change (ratio n (Zpos d)) with q in K1, K2. set (k := exponent2 n (Zpos d)) in *.
  set (p := prec ff) in *. pose proof HF as HF'. unfold format_ok in HF'. fold p in HF'.
  assert (KE : emin p (emax ff) + p - 1 < k + 1). { apply p2_lt_inv. eapply Qle_lt_trans; [|exact K2]. exact HN. }
  set (e := exponent_of ff n (Zpos d)). assert (Ee : e = k - p + 1). { assert (E0 : e = Z.max (k - p + 1) (emin p (emax ff))) by reflexivity. lia. }
  set (x := (q * p2 (- e))%Q). assert (Ex : (q == x * p2 e)%Q) by (unfold x; rewrite <- Qmult_assoc, p2_neg_mul; ring).
  set (m := nearest_int (n * 2 ^ Z.max (- e) 0) (Zpos d * 2 ^ Z.max e 0)).
  assert (HC : close_int x m).
  { assert (HD : 0 < Zpos d * 2 ^ Z.max e 0) by (pose proof (pow2_pos (Z.max e 0) ltac:(lia)); lia). pose proof (close_ratio _ _ m HD (nearest_int_even _ _ HD)) as (C1 & C2). rewrite scaled_ratio in C1, C2 by assumption. exact (conj C1 C2). }
  assert (EF : (number_of f == inject_Z m * p2 e)%Q).
  { unfold round_magnitude in F1. destruct (Z.eqb_spec n 0) as [|_]; [lia|]. fold p e in F1. cbv zeta in F1. fold m in F1.
    assert (P2 : 2 ^ p = 2 * 2 ^ (p - 1)) by (replace p with (Z.succ (p - 1)) at 1 by lia; apply Z.pow_succ_r; lia).
    destruct (Z.eqb_spec m (2 ^ p)) as [EM|NM].
    - destruct (e + 1 >? emax ff - p); [contradiction|]. destruct (2 ^ (p - 1)) as [|m1|m1] eqn:E1; [pose proof (pow2_pos (p - 1) ltac:(lia)); lia| |pose proof (pow2_pos (p - 1) ltac:(lia)); lia].
      subst f. rewrite number_finite, p2_succ, EM, P2, inject_Z_mult. change (inject_Z 2) with 2%Q. ring.
    - destruct (e >? emax ff - p); [contradiction|]. assert (M0 : 0 <= m). { apply (close_ge x m 0 HC). unfold x. change (inject_Z 0) with 0%Q. apply Qmult_le_0_compat; [lra|]. pose proof (p2_pos (- e)). lra. }
      destruct m as [|m1|m1]; [| |lia]; subst f; [cbn [number_of]; change (inject_Z 0) with 0%Q; ring|rewrite number_finite; ring]. }
  eapply Qle_trans; [apply Qmult_le_compat_r; [exact LE|apply Qlt_le_weak, p2_pos]|]. assert (ED : (Qabs (number_of f - q) == Qabs (inject_Z m - x) * p2 e)%Q) by (rewrite EF; now apply grid_distance). rewrite ED. destruct HC as (C1 & _).
  apply Qle_trans with ((1 # 2) * p2 e * p2 p)%Q.
  - apply Qmult_le_compat_r; [|apply Qlt_le_weak, p2_pos]. apply Qmult_le_compat_r; [lra|apply Qlt_le_weak, p2_pos].
  - eapply Qle_trans; [|exact K1]. rewrite <- Qmult_assoc, <- p2_plus. replace (e + p) with (k + 1) by lia. rewrite p2_succ. pose proof (p2_pos k). lra.
Qed.

(** * Reading and writing again *)
Lemma ratio_at_least n d x : 0 < d -> (p10 x <= ratio n d)%Q -> at_least_pow10 n d x.
Proof.
  intros Hd H. unfold at_least_pow10. pose proof (p10_pos (- x)) as HX.
  assert (H1 : (1 <= ratio (n * 10 ^ Z.max (- x) 0) (d * 10 ^ Z.max (- - x) 0))%Q).
  { rewrite scaled_ratio10 by assumption. apply Qle_trans with (p10 x * p10 (- x))%Q; [rewrite <- p10_plus; replace (x + - x) with 0 by lia; apply Qle_refl|]. apply Qmult_le_compat_r; [assumption|lra]. }
  change 1%Q with (inject_Z 1) in H1. apply (proj1 (ratio_le _ _ _ (scaled_den_pos _ _ Hd))) in H1. rewrite Z.opp_involutive in H1.
  rewrite Z.mul_1_l in H1. assumption.
Qed.
Lemma ratio_close n d k r : 0 < d -> (2 * Qabs (inject_Z r - ratio n d * p10 k) < 1 \/ 2 * Qabs (inject_Z r - ratio n d * p10 k) <= 1 /\ Z.Even r)%Q -> nearest_scaled n d k r.
Proof.
  intros Hd H. unfold nearest_scaled, nearest_even. pose proof (scaled_den_pos d (- k) Hd) as HD. rewrite <- (scaled_ratio10 n d k Hd) in H. set (N := n * 10 ^ Z.max k 0) in *. set (D := d * 10 ^ Z.max (- k) 0) in *. clearbody N D.
  assert (E : (inject_Z (Z.abs (r * D - N)) == Qabs (inject_Z r - ratio N D) * inject_Z D)%Q).
  { rewrite inj_abs. assert (D0 : (0 < inject_Z D)%Q) by now apply inj_pos. rewrite <- (Qabs_pos (inject_Z D)) at 1 by lra. rewrite <- Qabs_Qmult. apply Qabs_wd. rewrite inj_sub, inject_Z_mult, <- (ratio_mul N D HD). ring. }
  assert (D0 : (0 < inject_Z D)%Q) by now apply inj_pos. set (A := Qabs (inject_Z r - ratio N D)) in *.
  assert (E2 : (inject_Z (2 * Z.abs (r * D - N)) == 2 * A * inject_Z D)%Q) by (rewrite inject_Z_mult, E; change (inject_Z 2) with 2%Q; ring).
  destruct H as [H|(H & HE)].
  - assert (L : (inject_Z (2 * Z.abs (r * D - N)) < inject_Z D)%Q). { rewrite E2. apply Qlt_le_trans with (1 * inject_Z D)%Q; [apply Qmult_lt_compat_r; assumption|lra]. } apply inj_lt_inv in L. lia.
  - split; [|auto]. apply inj_le_inv. rewrite E2. apply Qle_trans with (1 * inject_Z D)%Q; [apply Qmult_le_compat_r; lra|lra].
Qed.
(** Numbers so near to a decimal one of p + 1 digits have its digits. *)
Lemma close_digits p n d x ds T : 0 < d -> 0 < n -> decimal_digits ds -> length ds = S p -> 10 ^ Z.of_nat p <= positional_value 10 ds < 10 ^ (Z.of_nat p + 1) ->
  (2 * p10 (Z.of_nat p + 1) <= T)%Q -> let q := (inject_Z (positional_value 10 ds) * p10 (x - Z.of_nat p))%Q in (Qabs (ratio n d - q) * T <= q)%Q ->
  scientific_digits p n d x ds /\ (2 * Qabs (inject_Z (positional_value 10 ds) - ratio n d * p10 (Z.of_nat p - x)) < 1)%Q.
Proof.
  intros Hd Hn HD HL HV HT q HQ. unfold scientific_digits. set (v := positional_value 10 ds) in *. set (P := Z.of_nat p) in *. assert (HP : 0 <= P) by (unfold P; lia). clearbody v P.
  set (y := (ratio n d * p10 (P - x))%Q). pose proof (p10_pos (P - x)) as HX. pose proof (p10_pos (x - P)) as HX'. pose proof (p10_pos (P + 1)) as HP1. assert (T0 : (0 < T)%Q) by lra.
  assert (Ey : (ratio n d == y * p10 (x - P))%Q). { unfold y. rewrite <- Qmult_assoc, <- p10_plus. replace (P - x + (x - P)) with 0 by lia. change (p10 0) with 1%Q. ring. }
  assert (EA : (Qabs (ratio n d - q) == Qabs (y - inject_Z v) * p10 (x - P))%Q). { unfold q. rewrite Ey. rewrite <- (Qabs_pos (p10 (x - P))) at 3 by lra. rewrite <- Qabs_Qmult. apply Qabs_wd. ring. }
  set (D := Qabs (y - inject_Z v)) in *. pose proof (Qabs_nonneg (y - inject_Z v)) as D0. fold D in D0.
  assert (DT : (D * T <= inject_Z v)%Q). { apply (Qmult_le_r _ _ (p10 (x - P)) HX'). rewrite EA in HQ. unfold q in HQ. lra. }
  assert (V1 : (inject_Z v <= p10 (P + 1) - 1)%Q). { rewrite p10_int by lia. change 1%Q with (inject_Z 1). rewrite <- inj_sub. apply inj_le. lia. }
  assert (V0 : (p10 P <= inject_Z v)%Q) by (rewrite p10_int by lia; apply inj_le; lia). pose proof (p10_pos P) as PP.
  assert (DP : (D * (2 * p10 (P + 1)) <= inject_Z v)%Q). { eapply Qle_trans; [|exact DT]. rewrite !(Qmult_comm D). apply Qmult_le_compat_r; assumption. }
  assert (D1 : (2 * D < 1)%Q). { apply (Qmult_lt_r _ _ (p10 (P + 1)) HP1). eapply Qle_lt_trans; [|apply Qlt_le_trans with (p10 (P + 1)); [|lra]]; [|apply Qle_lt_trans with (inject_Z v); [exact DP|lra]]. lra. }
  assert (DA : (Qabs (inject_Z v - y) == D)%Q) by (unfold D; rewrite Qabs_Qminus; reflexivity).
  split; [|fold y; rewrite DA; exact D1]. split; [assumption|]. split; [assumption|]. right. split; [assumption|].
  assert (Y1 : (y <= inject_Z v + D)%Q) by (pose proof (Qle_Qabs (y - inject_Z v)); fold D in H; lra). assert (Y2 : (inject_Z v - D <= y)%Q) by (pose proof (Qle_Qabs (inject_Z v - y)); rewrite DA in H; lra).
  assert (PX : forall z, (p10 (P + z) <= y)%Q -> at_least_pow10 n d (x + z)).
  { intros z H. apply ratio_at_least; [assumption|]. rewrite Ey. apply Qle_trans with (p10 (P + z) * p10 (x - P))%Q; [rewrite <- p10_plus; replace (P + z + (x - P)) with (x + z) by lia; apply Qle_refl|apply Qmult_le_compat_r; [assumption|lra]]. }
  assert (PN : forall z, (y < p10 (P + z))%Q -> ~ at_least_pow10 n d (x + z)).
  { intros z H A. apply at_least_ratio in A; [|assumption]. rewrite Ey in A. assert (B : (y * p10 (x - P) < p10 (P + z) * p10 (x - P))%Q) by (apply Qmult_lt_compat_r; assumption). rewrite <- p10_plus in B. replace (P + z + (x - P)) with (x + z) in B by lia. lra. }
  destruct (Qlt_le_dec y (p10 P)) as [LY|LY].
  - (* just below a power of ten *)
    assert (EV : v = 10 ^ P). { destruct (Z.eq_dec v (10 ^ P)) as [|N]; [assumption|exfalso]. assert (L : (inject_Z (10 ^ P + 1) <= inject_Z v)%Q) by (apply inj_le; lia). rewrite inject_Z_plus, <- p10_int in L by lia. change (inject_Z 1) with 1%Q in L. lra. }
    exists (x - 1), (10 ^ (P + 1)). assert (TEN : (p10 (P + 1) == 10 * p10 P)%Q) by (rewrite p10_plus; change (p10 1) with 10%Q; ring).
    assert (V2 : (inject_Z v == p10 P)%Q) by (rewrite EV, <- p10_int by lia; reflexivity).
    split; [|split; [|split]].
    + replace (x - 1) with (x + -1) by lia. apply PX. assert (TEN' : (p10 P == 10 * p10 (P + -1))%Q) by (replace P with (P + -1 + 1) at 1 by lia; rewrite p10_plus; change (p10 1) with 10%Q; ring). pose proof (p10_pos (P + -1)).
      assert (P1 : (1 <= p10 P)%Q) by (rewrite p10_int by lia; change 1%Q with (inject_Z 1); apply inj_le; pose proof (pow10_pos P HP); lia). lra.
    + replace (x - 1 + 1) with (x + 0) by lia. apply PN. now rewrite Z.add_0_r.
    + apply ratio_close; [assumption|]. right. split.
      * replace (P - (x - 1)) with (P - x + 1) by lia. rewrite p10_plus, Qmult_assoc. fold y. change (p10 1) with 10%Q. rewrite <- p10_int by lia. rewrite TEN.
        assert (EQ : (Qabs (10 * p10 P - y * 10) == 10 * D)%Q). { rewrite <- DA, V2. rewrite <- (Qabs_pos 10) at 3 by lra. rewrite <- Qabs_Qmult. apply Qabs_wd. ring. } rewrite EQ.
        rewrite V2, TEN in DP. apply (Qmult_le_r _ _ (p10 P) PP). lra.
      * exists (5 * 10 ^ P). rewrite Z.pow_add_r by lia. lia.
    + right. split; [reflexivity|]. split; [lia|assumption].
  - exists x, v. split; [|split; [|split]].
    + replace x with (x + 0) by lia. apply PX. now rewrite Z.add_0_r.
    + apply PN. lra.
    + apply ratio_close; [assumption|]. left. fold y. rewrite DA. exact D1.
    + left. split; [lia|]. auto.
Qed.
(** The text of a number is the text of every number near to what it says. *)
Lemma printed_again t alt p m e m' e' s q T : t = TScientific \/ t = TGeneral -> 0 < m -> 0 < m' -> printf_text t alt p (Finite m e) s -> decimal_text q s ->
  (2 * p10 (Z.of_nat (following t p) + 1) <= T)%Q -> (Qabs (ratio (numerator m' e') (denominator e') - q) * T <= q)%Q -> printf_text t alt p (Finite m' e') s.
Proof.
  intros HT Hm Hm' HS HQ HB HE. destruct (printed_reads t alt p m e s HT ltac:(lia) HS) as (q' & x & ds & Q1 & Q2 & Q3).
  assert (EQ : (q == q')%Q). { destruct (proj2 decimal_scanner _ _ HQ) as (a & b & E1 & E2). destruct (proj2 decimal_scanner _ _ Q1) as (a' & b' & E3 & E4). rewrite E1 in E3. injection E3 as <- <-. now rewrite E2, E4. }
  rewrite EQ, Q3 in HE. clear HQ EQ q q' Q1 Q3.
  pose proof (denominator_pos e) as Hd. pose proof (denominator_pos e') as Hd'. assert (Hn : 0 < numerator m e) by (unfold numerator; pose proof (pow2_pos (Z.max e 0) ltac:(lia)); apply Z.mul_pos_pos; lia). assert (Hn' : 0 < numerator m' e') by (unfold numerator; pose proof (pow2_pos (Z.max e' 0) ltac:(lia)); apply Z.mul_pos_pos; lia).
  cbn [printf_text] in *. set (n := numerator m e) in *. set (d := denominator e) in *. set (n' := numerator m' e') in *. set (d' := denominator e') in *. clearbody n d n' d'.
  destruct (scientific_range _ _ _ _ _ Hd (Z.lt_le_incl _ _ Hn) Q2) as [(X & _)|(_ & R1)]; [lia|]. pose proof Q2 as (DD & DL & _).
  assert (R2 : positional_value 10 ds < 10 ^ (Z.of_nat (following t p) + 1)). { destruct Q2 as (_ & _ & [(X & _)|(_ & x0 & r & _ & _ & _ & C)]); [lia|]. assert (10 ^ Z.of_nat (following t p) < 10 ^ (Z.of_nat (following t p) + 1)) by (apply Z.pow_lt_mono_r; lia). lia. }
  destruct (close_digits _ n' d' x ds T Hd' Hn' DD DL (conj R1 R2) HB HE) as (SD & CL). destruct HT as [-> | ->]; cbn [following] in *.
  - destruct HS as (x1 & c & fp & ex & S1 & S2 & ->). destruct (scientific_unique _ _ _ _ _ _ _ Hd Q2 S1) as (-> & ->). exists x1, c, fp, ex. auto.
  - destruct HS as (x1 & c & fp & S1 & S2). set (P := Nat.max 1 p) in *. assert (HP : (0 < P)%nat) by lia. destruct (scientific_unique _ _ _ _ _ _ _ Hd Q2 S1) as (-> & ->). exists x1, c, fp. split; [assumption|].
    destruct S2 as [(BX & ip & f1 & f2 & F1 & F2 & ->)|S2]; [left|right; assumption]. split; [assumption|]. exists ip, f1, f2. split; [|auto].
    pose proof (fixed_value P n d x1 _ ip f1 Hd (Z.lt_le_incl _ _ Hn) HP (proj2 BX) Q2 F1) as EV. destruct F1 as (D1 & D2 & LF & N & C & _). do 5 (split; [assumption|]). rewrite EV.
    pose proof (ratio_close n' d' (Z.of_nat (P - 1) - x1) (positional_value 10 (c :: fp)) Hd' (or_introl CL)) as NS. unfold nearest_scaled in NS.
    replace (Z.of_nat (P - 1) - x1) with (Z.of_nat (Z.to_nat (Z.of_nat P - 1 - x1))) in NS by lia. rewrite Z.max_l, Z.max_r in NS by lia. change (10 ^ 0) with 1 in NS. now rewrite Z.mul_1_r in NS.
Qed.
