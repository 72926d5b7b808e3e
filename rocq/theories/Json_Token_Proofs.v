(** C31: numbers and other literals; maps built by insert_or_assign. *)
From Verif Require Import Common Bits Format_Model Format_Spec Format_Props Json_Model Json_Spec Json_String_Proofs Json_Parser_Proofs.

(** * The exponent position *)
Fixpoint find_exp (s : list Z) : option nat :=
  match s with
  | [] => None
  | c :: r => if (c =? 101) || (c =? 69) then Some O else option_map S (find_exp r)
  end.
Lemma find_exp_min s : opt_min (find_char 101 s) (find_char 69 s) = find_exp s.
Proof.
  induction s as [|c s IH]; [reflexivity|]. cbn [find_char find_exp].
  destruct (Z.eqb_spec c 101) as [->|N1].
  - change (101 =? 69) with false. cbn [orb]. destruct (find_char 69 s); reflexivity.
  - cbn [orb]. destruct (Z.eqb_spec c 69) as [->|N2].
    + destruct (find_char 101 s); reflexivity.
    + rewrite <- IH. destruct (find_char 101 s), (find_char 69 s); reflexivity.
Qed.
Lemma find_exp_none s : find_exp s = None <-> no_exponent s.
Proof.
  rewrite <- find_exp_min. unfold no_exponent. rewrite <- !find_char_none.
  destruct (find_char 101 s), (find_char 69 s); cbn; split; try tauto; try discriminate; intros [? ?]; discriminate.
Qed.
Lemma find_exp_some s i : find_exp s = Some i <-> exists a b, s = a ++ b /\ no_exponent a /\ is_exponent b /\ length a = i.
Proof.
  revert i. induction s as [|c s IH]; intros i; cbn [find_exp].
  - split; [discriminate|]. intros (a & b & E & _ & (r & [-> | ->]) & _); destruct a; discriminate.
  - destruct ((c =? 101) || (c =? 69)) eqn:EC.
    + rewrite orb_true_iff, !Z.eqb_eq in EC. split.
      * intros E. injection E as <-. exists [], (c :: s). repeat split; try (intros []). exists s. destruct EC as [-> | ->]; auto.
      * intros ([|x a] & b & E & [HN1 HN2] & HE & HL); [cbn in HL; congruence|]. injection E as <- E. cbn in HN1, HN2. tauto.
    + rewrite orb_false_iff, !Z.eqb_neq in EC. split.
      * intros E. apply option_map_some in E. destruct E as (k & E & ->). apply IH in E. destruct E as (a & b & -> & [H1 H2] & HE & <-).
        exists (c :: a), b. cbn [app length In]. unfold no_exponent. cbn [In]. intuition.
      * intros ([|x a] & b & E & HN & HE & HL).
        -- cbn in E. destruct HE as (r & [-> | ->]); injection E as -> _; tauto.
        -- cbn in E. injection E as <- E. cbn in HL. assert (F : find_exp s = Some (length a)).
           { apply IH. exists a, b. destruct HN as [H1 H2]. cbn in H1, H2. unfold no_exponent. intuition. }
           rewrite F. cbn. congruence.
Qed.
Lemma no_exponent_app a b : no_exponent (a ++ b) <-> no_exponent a /\ no_exponent b.
Proof. unfold no_exponent. rewrite !in_app_iff. tauto. Qed.

Definition float_check (s : list Z) : bool :=
  match find_char 46 s with
  | Some d => negb (match find_exp s with Some e => e | None => length s end <=? d + 1)%nat
  | None => match find_exp s with Some _ => true | None => false end
  end.
Lemma float_check_iff s : float_check s = true <-> float_shape s.
Proof.
  unfold float_check, float_shape. split.
  - destruct (find_char 46 s) as [d|] eqn:ED.
    + apply find_char_some in ED. destruct ED as (a & b & ES & Ha & HL). rewrite negb_true_iff, Nat.leb_gt.
      destruct (find_exp s) as [i|] eqn:EE; intros H; left.
      * apply find_exp_some in EE. destruct EE as (a' & b' & ES' & Hn & HE & HL').
        assert (EA : a' = a ++ [46] ++ firstn (i - d - 1) b).
        { apply (f_equal (firstn i)) in ES'. rewrite firstn_app, <- HL', Nat.sub_diag, firstn_all, app_nil_r in ES'. rewrite <- ES', ES.
          rewrite firstn_app, firstn_all2 by lia. f_equal. rewrite firstn_app. rewrite firstn_all2 by (cbn [length]; lia). f_equal. f_equal. cbn [length]. lia. }
        exists a, (firstn (i - d - 1) b), b'. split; [rewrite ES', EA, <- !app_assoc; reflexivity|].
        rewrite EA in Hn. apply no_exponent_app in Hn. destruct Hn as [Hn1 Hn2]. apply no_exponent_app in Hn2. destruct Hn2 as [_ Hn2].
        split; [assumption|]. split; [assumption|]. split; [|auto].
        intros E0. rewrite E0 in EA. subst a'. rewrite app_length in HL'. cbn in HL'. lia.
      * apply find_exp_none in EE. exists a, b, []. rewrite app_nil_r. rewrite ES in EE. apply no_exponent_app in EE. destruct EE as [E1 E2].
        apply no_exponent_app in E2. repeat split; try tauto; try apply E1; try apply E2.
        intros ->. rewrite ES, app_length in H. cbn in H. lia.
    + destruct (find_exp s) as [i|] eqn:EE; [|discriminate]. intros _. right. apply find_char_none in ED.
      apply find_exp_some in EE. destruct EE as (a & b & -> & Hn & HE & _). exists a, b. auto.
  - intros [(ip & fr & ex & -> & Hi & Hn1 & Hf & Hn2 & HE)|(ip & ex & -> & Hn & HE & H46)].
    + assert (ED : find_char 46 (ip ++ [46] ++ fr ++ ex) = Some (length ip)) by (apply find_char_some; exists ip, (fr ++ ex); auto).
      rewrite ED. rewrite negb_true_iff, Nat.leb_gt.
      assert (HF : (0 < length fr)%nat) by (destruct fr; [congruence|cbn; lia]).
      assert (NE : no_exponent (ip ++ [46] ++ fr)).
      { apply no_exponent_app. split; [assumption|]. apply no_exponent_app. split; [|assumption]. split; intros [E|[]]; discriminate. }
      destruct HE as [->|HE].
      * rewrite app_nil_r. rewrite (proj2 (find_exp_none _) NE). rewrite !app_length. cbn [length]. lia.
      * assert (EE : find_exp (ip ++ [46] ++ fr ++ ex) = Some (length (ip ++ [46] ++ fr))).
        { apply find_exp_some. exists (ip ++ [46] ++ fr), ex. rewrite <- !app_assoc. auto. }
        rewrite EE, !app_length. cbn [length]. lia.
    + apply find_char_none in H46. rewrite H46.
      assert (EE : find_exp (ip ++ ex) = Some (length ip)) by (apply find_exp_some; exists ip, ex; auto). now rewrite EE.
Qed.

Lemma validate_number_eq w : validate_number w =
  match unsigned_part w with
  | [] => NInvalid
  | c :: r =>
      if negb (is_digit c) || match r with c1 :: _ => (c =? 48) && is_digit c1 | [] => false end then NInvalid
      else if float_check (unsigned_part w) then NFloat
      else match find_char 46 (unsigned_part w) with
           | Some _ => NInvalid
           | None => if match w with c :: _ => c =? 45 | [] => false end then NSigned else NUnsigned
           end
  end.
Proof.
  unfold validate_number. assert (EU : (if match w with c :: _ => c =? 45 | [] => false end then tl w else w) = unsigned_part w).
  { destruct w as [|c w]; [reflexivity|]. cbn [unsigned_part tl]. now destruct (c =? 45). }
  rewrite EU. destruct (unsigned_part w) as [|c r] eqn:ES; [reflexivity|].
  rewrite find_exp_min. unfold float_check.
  destruct (negb (is_digit c) || _); [reflexivity|].
  destruct (find_char 46 (c :: r)) as [d|]; [|destruct (find_exp (c :: r)); reflexivity].
  destruct (_ <=? _)%nat; reflexivity.
Qed.
Definition starts_b (s : list Z) : bool :=
  match s with
  | [] => false
  | c :: r => negb (negb (is_digit c) || match r with c1 :: _ => (c =? 48) && is_digit c1 | [] => false end)
  end.
Lemma starts_b_iff s : starts_b s = true <-> starts_like_integer s.
Proof.
  unfold starts_b, starts_like_integer. destruct s as [|c r].
  - split; [discriminate|]. intros (d & r & E & _). discriminate.
  - rewrite negb_true_iff, orb_false_iff, negb_false_iff, is_digit_iff. split.
    + intros [HD HO]. exists c, r. split; [reflexivity|]. split; [assumption|]. intros ->. destruct r as [|c1 r]; [exact I|].
      change (48 =? 48) with true in HO. cbn [andb] in HO. now apply is_digit_false.
    + intros (d & r' & E & HD & HO). injection E as <- <-. split; [assumption|]. destruct r as [|c1 r]; [reflexivity|].
      destruct (Z.eqb_spec c 48) as [->|]; [|reflexivity]. cbn [andb]. apply is_digit_false. auto.
Qed.
Lemma validate_number_cases w :
  match validate_number w with
  | NInvalid => True
  | NFloat => starts_like_integer (unsigned_part w) /\ float_shape (unsigned_part w)
  | NSigned => starts_like_integer (unsigned_part w) /\ (exists r, w = 45 :: r)
  | NUnsigned => starts_like_integer (unsigned_part w) /\ unsigned_part w = w
  end.
Proof.
  rewrite validate_number_eq. destruct (unsigned_part w) as [|c r] eqn:EU; [exact I|].
  destruct (negb (is_digit c) || _) eqn:EB; [exact I|].
  assert (HS : starts_like_integer (c :: r)) by (apply starts_b_iff; unfold starts_b; now rewrite EB).
  destruct (float_check (c :: r)) eqn:EF; [apply float_check_iff in EF; auto|].
  destruct (find_char 46 (c :: r)); [exact I|].
  destruct w as [|c0 w]; [discriminate|]. cbn [unsigned_part] in EU. destruct (Z.eqb_spec c0 45) as [->|]; [split; [assumption|eauto]|auto].
Qed.
Lemma validate_number_float w : starts_like_integer (unsigned_part w) -> float_shape (unsigned_part w) -> validate_number w = NFloat.
Proof.
  intros HS HF. rewrite validate_number_eq. apply starts_b_iff in HS. unfold starts_b in HS.
  destruct (unsigned_part w) as [|c r]; [discriminate|]. apply negb_true_iff in HS. rewrite HS. now rewrite (proj2 (float_check_iff _) HF).
Qed.
Lemma digits_no c s : Forall (digit_of 10 false) s -> ~ digit_of 10 false c -> ~ In c s.
Proof. intros HF HN HI. rewrite Forall_forall in HF. auto. Qed.
Lemma decimal_starts s : decimal s -> starts_like_integer s.
Proof.
  intros (HN & HF & HZ). destruct s as [|c r]; [congruence|]. inversion HF; subst. exists c, r. split; [reflexivity|]. split; [assumption|].
  intros ->. destruct r as [|c1 r]; [exact I|]. cbn in HZ. destruct HZ as [HZ|HZ]; [discriminate|congruence].
Qed.
Lemma validate_number_int w : decimal (unsigned_part w) ->
  validate_number w = if match w with c :: _ => c =? 45 | [] => false end then NSigned else NUnsigned.
Proof.
  intros HD. pose proof (decimal_starts _ HD) as HS. apply starts_b_iff in HS. unfold starts_b in HS. destruct HD as (HN & HF & HZ).
  rewrite validate_number_eq. destruct (unsigned_part w) as [|c r]; [discriminate|]. apply negb_true_iff in HS. rewrite HS.
  assert (N46 : find_char 46 (c :: r) = None) by (apply find_char_none, digits_no; [assumption|unfold digit_of; lia]).
  assert (NE : find_exp (c :: r) = None) by (apply find_exp_none; split; apply digits_no; try assumption; unfold digit_of; lia).
  unfold float_check. now rewrite N46, NE.
Qed.
Lemma starts_decimal s : starts_like_integer s -> Forall (digit_of 10 false) s -> decimal s.
Proof.
  intros (d & r & -> & HD & HO) HF. split; [discriminate|]. split; [assumption|]. destruct r as [|c r]; [now left|]. right. cbn [hd].
  intros ->. inversion HF; subst. match goal with H : Forall _ (c :: r) |- _ => inversion H; subst end. now apply HO.
Qed.

Lemma positional_nonneg s : Forall (digit_of 10 false) s -> 0 <= positional_value 10 s.
Proof.
  induction 1 as [|c s Hc _ IH]; [cbn; lia|]. cbn [positional_value]. unfold value_of_digit, digit_of in *.
  destruct (Z.leb_spec c 57); [|lia]. assert (0 <= 10 ^ Z.of_nat (length s)) by (apply Z.pow_nonneg; lia). nia.
Qed.

Lemma not_keyword w c r k : w = c :: r -> (c = 45 \/ digit_of 10 false c) -> In k [s_true; s_false; s_null] -> string_eqb w k = false.
Proof.
  intros -> HC HI. destruct (string_eqb (c :: r) k) eqn:E; [|reflexivity]. apply string_eqb_eq in E. subst k.
  unfold digit_of in HC. unfold s_true, s_false, s_null in HI. cbn [In] in HI. decompose [or] HI; try contradiction; match goal with E : _ = c :: _ |- _ => injection E as <- _ end; lia.
Qed.
Lemma value_of_text_iff fp w j : Forall (fun c => ~ stop c) w -> (value_of_text fp w = Some j <-> token fp w j).
Proof.
  intros HS. unfold value_of_text. split.
  - destruct (string_eqb w s_true) eqn:E1; [apply string_eqb_eq in E1; subst; intros E; injection E as <-; constructor|].
    destruct (string_eqb w s_false) eqn:E2; [apply string_eqb_eq in E2; subst; intros E; injection E as <-; constructor|].
    destruct (string_eqb w s_null) eqn:E3; [apply string_eqb_eq in E3; subst; intros E; injection E as <-; constructor|].
    pose proof (validate_number_cases w) as HV. destruct (validate_number w); [discriminate| | |].
    + destruct HV as (HST & r & ->). intros E. apply option_map_some in E. destruct E as (v & E & ->).
      apply (convert_exact_int 64 true _ v ltac:(lia)) in E. destruct E as (HI & d & HN & HF & [[ED _]|(_ & ED & ->)]).
      * subst d. inversion HF; subst. unfold digit_of in *. lia.
      * injection ED as <-. cbn [unsigned_part] in HST. change (45 =? 45) with true in HST. cbv iota in HST.
        apply tok_integer, int_signed; [now apply starts_decimal|]. unfold int_ok in HI. change (64 - 1) with 63 in HI. lia.
    + destruct HV as (HST & EU). rewrite EU in HST. intros E. apply option_map_some in E. destruct E as (v & E & ->).
      apply (convert_exact_int 64 false _ v ltac:(lia)) in E. destruct E as (HI & d & HN & HF & [[<- ->]|(E & _)]); [|discriminate].
      apply tok_integer, int_unsigned; [now apply starts_decimal|]. unfold int_ok in HI. lia.
    + intros E. apply option_map_some in E. destruct E as (f & E & ->). destruct HV. now apply tok_float.
  - intros H. destruct H as [| | |w j [u HD HV|u HD HV]|w f HST HSH _ HP]; try reflexivity.
    + pose proof (decimal_starts _ HD) as (d & r & E & Hd & _).
      rewrite !(not_keyword u d r) by (auto; cbn; auto).
      assert (EU : unsigned_part u = u). { rewrite E. cbn [unsigned_part]. destruct (Z.eqb_spec d 45) as [->|]; [unfold digit_of in Hd; lia|reflexivity]. }
      rewrite validate_number_int by now rewrite EU.
      replace (match u with c :: _ => c =? 45 | [] => false end) with false by (rewrite E; symmetry; apply Z.eqb_neq; intros ->; unfold digit_of in Hd; lia).
      rewrite (proj2 (convert_exact_int 64 false u (positional_value 10 u) ltac:(lia))); [reflexivity|].
      destruct HD as (HN & HF & _). split; [split; [now apply positional_nonneg|assumption]|]. exists u. auto.
    + rewrite !(not_keyword (45 :: u) 45 u) by (auto; cbn; auto).
      rewrite validate_number_int by exact HD. change (45 =? 45) with true. cbv iota.
      rewrite (proj2 (convert_exact_int 64 true (45 :: u) (- positional_value 10 u) ltac:(lia))); [reflexivity|].
      destruct HD as (HN & HF & _). split; [|exists u; auto 6]. pose proof (positional_nonneg u HF). unfold int_ok. change (64 - 1) with 63. lia.
    + pose proof HST as (d & r & E & Hd & _).
      assert (EW : exists c r, w = c :: r /\ (c = 45 \/ digit_of 10 false c)).
      { destruct w as [|c w]; [discriminate|]. cbn [unsigned_part] in E. destruct (Z.eqb_spec c 45) as [->|]; [eauto|]. injection E as -> ->. eauto. }
      destruct EW as (c & r' & EW & HC). rewrite !(not_keyword w c r') by (auto; cbn; auto).
      rewrite validate_number_float by assumption. now rewrite HP.
Qed.
Lemma token_nostop fp w j : token fp w j -> Forall (fun c => ~ stop c) w.
Proof.
  assert (HD : forall s, Forall (digit_of 10 false) s -> Forall (fun c => ~ stop c) s).
  { intros s H. eapply Forall_impl; [|exact H]. cbv beta. intros c Hc Hs. unfold digit_of in Hc. unfold stop, white in Hs. lia. }
  assert (HK : forall w, forallb keep_value w = true -> Forall (fun c => ~ stop c) w).
  { intros x Hx. rewrite forallb_forall in Hx. apply Forall_forall. intros c Hc. now apply keep_value_iff, Hx. }
  intros H. destruct H as [| | |w j [u (HN & HF & _) HV|u (HN & HF & _) HV]|w f HST HSH HS HP]; try (now apply HK); auto.
  constructor; [unfold stop, white; lia|auto].
Qed.
(** The first character of a literal. *)
Lemma token_head fp w j : token fp w j -> exists c r, w = c :: r /\ ~ stop c /\ c <> 34 /\ c <> 91 /\ c <> 123.
Proof.
  intros H. pose proof (token_nostop _ _ _ H) as HS.
  assert (HH : exists c r, w = c :: r /\ c <> 34 /\ c <> 91 /\ c <> 123).
  { destruct H as [| | |w j [u HD HV|u HD HV]|w f HST HSH _ HP];
      try (match goal with |- exists c r, ?a :: ?b = _ /\ _ => exists a, b; repeat split; lia end).
    - pose proof (decimal_starts _ HD) as (d & r & -> & Hd & _). exists d, r. unfold digit_of in Hd. repeat split; lia.
    - destruct HST as (d & r & E & Hd & _). destruct w as [|c w]; [discriminate|]. exists c, w. split; [reflexivity|]. cbn [unsigned_part] in E.
      unfold digit_of in Hd. destruct (Z.eqb_spec c 45) as [->|]; [lia|]. injection E as -> _. lia. }
  destruct HH as (c & r & -> & H1 & H2 & H3). exists c, r. inversion HS; subst. auto.
Qed.

(** * Maps *)
Lemma key_compare_eq a : forall b, key_compare a b = Eq <-> a = b.
Proof.
  induction a as [|x a IH]; intros [|y b]; cbn [key_compare]; [tauto|split; discriminate|split; discriminate|].
  destruct (Z.compare_spec x y) as [->|H|H]; [rewrite IH; split; [intros ->; reflexivity|intros E; now injection E]| |];
    (split; [discriminate|]; intros E; injection E as E1 _; lia).
Qed.
Lemma key_compare_lt a : forall b, key_compare a b = Lt <-> key_lt a b.
Proof.
  induction a as [|x a IH]; intros [|y b]; cbn [key_compare key_lt]; [split; [discriminate|tauto]|tauto|split; [discriminate|tauto]|].
  destruct (Z.compare_spec x y) as [->|H|H].
  - rewrite IH. split; [auto|]. intros [?|[_ ?]]; [lia|assumption].
  - split; [auto|reflexivity].
  - split; [discriminate|]. intros [?|[? _]]; lia.
Qed.
Lemma key_compare_sym a : forall b, key_compare b a = CompOpp (key_compare a b).
Proof.
  induction a as [|x a IH]; intros [|y b]; cbn [key_compare]; try reflexivity.
  rewrite (Z.compare_antisym x y). destruct (x ?= y); cbn [CompOpp]; [apply IH|reflexivity|reflexivity].
Qed.
Lemma key_compare_gt a b : key_compare a b = Gt <-> key_lt b a.
Proof. rewrite <- key_compare_lt, (key_compare_sym a b). destruct (key_compare a b); cbn; split; congruence. Qed.
Lemma key_lt_irrefl a : ~ key_lt a a.
Proof. rewrite <- key_compare_lt. rewrite (proj2 (key_compare_eq a a) eq_refl). discriminate. Qed.
Lemma key_lt_trans a : forall b c, key_lt a b -> key_lt b c -> key_lt a c.
Proof.
  induction a as [|x a IH]; intros [|y b] [|z c]; cbn [key_lt]; try tauto. intros [H1|[-> H1]] [H2|[-> H2]]; [left; lia|left; lia|left; lia|].
  right. split; [reflexivity|]. eauto.
Qed.

Lemma insert_in key value : forall m k v, sorted_keys m ->
  (In (k, v) (insert_or_assign key value m) <-> (k = key /\ v = value) \/ (k <> key /\ In (k, v) m)).
Proof.
  induction m as [|[k0 v0] m IH]; intros k v HS; cbn [insert_or_assign].
  - cbn [In]. split; [intros [E|[]]; injection E as -> ->; auto|]. intros [[-> ->]|[_ []]]. auto.
  - cbn [sorted_keys] in HS. destruct HS as [HF HS].
    assert (NB : forall k v, In (k, v) m -> key_lt k0 k) by (intros k' v' HI; rewrite Forall_forall in HF; exact (HF _ HI)).
    destruct (key_compare key k0) eqn:EC.
    + apply key_compare_eq in EC. subst k0. cbn [In]. split.
      * intros [E|HI]; [injection E as -> ->; auto|]. right. split; [|auto]. intros ->. apply NB in HI. now apply key_lt_irrefl in HI.
      * intros [[-> ->]|[HN [E|HI]]]; [auto|congruence|auto].
    + apply key_compare_lt in EC. cbn [In]. split.
      * intros [E|HI]; [injection E as -> ->; auto|]. right. split; [|auto]. intros ->. destruct HI as [E|HI]; [injection E as -> ->; now apply key_lt_irrefl in EC|].
        apply NB in HI. apply (key_lt_irrefl key). eapply key_lt_trans; eassumption.
      * intros [[-> ->]|[HN HI]]; [auto|auto].
    + apply key_compare_gt in EC. cbn [In]. rewrite IH by assumption. split.
      * intros [E|[H|[HN HI]]]; [injection E as -> ->; right; split; [intros ->; now apply key_lt_irrefl in EC|auto]|auto|auto].
      * intros [H|[HN [E|HI]]]; auto.
Qed.
Lemma insert_sorted key value : forall m, sorted_keys m -> sorted_keys (insert_or_assign key value m).
Proof.
  induction m as [|[k0 v0] m IH]; intros HS; cbn [insert_or_assign]; [cbn; auto|]. pose proof HS as HS0. cbn [sorted_keys] in HS. destruct HS as [HF HS].
  destruct (key_compare key k0) eqn:EC.
  - cbn [sorted_keys]. auto.
  - apply key_compare_lt in EC. cbn [sorted_keys]. split; [|auto]. constructor; [assumption|]. eapply Forall_impl; [|exact HF]. cbv beta. intros e He. eapply key_lt_trans; eassumption.
  - apply key_compare_gt in EC. cbn [sorted_keys]. split; [|auto]. apply Forall_forall. intros [k v] HI. apply (insert_in key value m k v HS) in HI.
    cbn [fst]. destruct HI as [[-> _]|[_ HI]]; [assumption|]. rewrite Forall_forall in HF. exact (HF _ HI).
Qed.
Lemma insert_nonempty key value m : nonempty (insert_or_assign key value m) = true.
Proof. destruct m as [|[k v] m]; [reflexivity|]. cbn. destruct (key_compare key k); reflexivity. Qed.

Definition insert_all (ms m : list (list Z * json)) : list (list Z * json) :=
  fold_left (fun m e => insert_or_assign (fst e) (snd e) m) ms m.
Lemma last_binding_snoc ms k v k' v' :
  last_binding (ms ++ [(k, v)]) k' v' <-> (k' = k /\ v' = v) \/ (k' <> k /\ last_binding ms k' v').
Proof.
  unfold last_binding. split.
  - intros (a & b & E & HN). destruct b as [|e b] using rev_ind.
    + apply app_inj_tail in E. destruct E as [-> E]. injection E as -> ->. auto.
    + change (a ++ (k', v') :: b ++ [e]) with (a ++ ((k', v') :: b) ++ [e]) in E. rewrite app_assoc in E. apply app_inj_tail in E. destruct E as [-> <-].
      rewrite map_app, in_app_iff in HN. cbn in HN. right. split; [intros ->; tauto|]. exists a, b. split; [reflexivity|tauto].
  - intros [[-> ->]|[HN (a & b & -> & HB)]].
    + exists ms, []. auto.
    + exists a, (b ++ [(k, v)]). split; [rewrite <- app_assoc; reflexivity|]. rewrite map_app, in_app_iff. cbn. intros [H|[H|[]]]; [tauto|congruence].
Qed.
Lemma insert_all_map ms : map_of ms (insert_all ms []).
Proof.
  induction ms as [|[k v] ms IH] using rev_ind.
  - split; [exact I|]. intros k v. split; [intros []|]. intros ([|? ?] & b & E & _); discriminate.
  - unfold insert_all. rewrite fold_left_app. cbn [fold_left fst snd]. fold (insert_all ms []). destruct IH as [HS HI].
    split; [now apply insert_sorted|]. intros k' v'. rewrite insert_in by assumption. rewrite last_binding_snoc. now rewrite HI.
Qed.
Lemma sorted_ext m : forall m', sorted_keys m -> sorted_keys m' -> (forall k v, In (k, v) m <-> In (k, v) m') -> m = m'.
Proof.
  induction m as [|[k v] m IH]; intros m' HS HS' HI.
  - destruct m' as [|[k v] m']; [reflexivity|]. exfalso. exact (proj2 (HI k v) (or_introl eq_refl)).
  - destruct m' as [|[k' v'] m']; [exfalso; exact (proj1 (HI k v) (or_introl eq_refl))|].
    cbn [sorted_keys] in HS, HS'. destruct HS as [HF HS], HS' as [HF' HS'].
    assert (A : forall a x, In (a, x) m -> key_lt k a) by (intros a x H; rewrite Forall_forall in HF; exact (HF _ H)).
    assert (A' : forall a x, In (a, x) m' -> key_lt k' a) by (intros a x H; rewrite Forall_forall in HF'; exact (HF' _ H)).
    assert (E : (k, v) = (k', v')).
    { destruct (proj1 (HI k v) (or_introl eq_refl)) as [E|H1]; [congruence|].
      destruct (proj2 (HI k' v') (or_introl eq_refl)) as [E|H2]; [congruence|].
      exfalso. apply A' in H1. apply A in H2. apply (key_lt_irrefl k). eapply key_lt_trans; eassumption. }
    injection E as <- <-. f_equal. apply IH; [assumption|assumption|]. intros a x. split; intros H.
    + destruct (proj1 (HI a x) (or_intror H)) as [E|H1]; [|assumption]. injection E as <- <-. apply A in H. now apply key_lt_irrefl in H.
    + destruct (proj2 (HI a x) (or_intror H)) as [E|H1]; [|assumption]. injection E as <- <-. apply A' in H. now apply key_lt_irrefl in H.
Qed.
Lemma map_of_unique ms m : map_of ms m -> m = insert_all ms [].
Proof.
  intros [HS HI]. destruct (insert_all_map ms) as [HS' HI']. apply sorted_ext; [assumption|assumption|]. intros k v. now rewrite HI, HI'.
Qed.
(** A sorted list is the map of its own bindings. *)
Lemma map_of_self m : sorted_keys m -> map_of m m.
Proof.
  intros HS. split; [assumption|]. intros k v. split; [|intros (a & b & -> & _); apply in_elt].
  intros HI. apply in_split in HI. destruct HI as (a & b & ->). exists a, b. split; [reflexivity|].
  intros HK. apply in_map_iff in HK. destruct HK as ([k' v'] & E & HB). cbn [fst] in E. subst k'.
  clear - HS HB. induction a as [|[k0 v0] a IH]; cbn [app sorted_keys] in HS.
  - destruct HS as [HF _]. rewrite Forall_forall in HF. specialize (HF _ HB). now apply key_lt_irrefl in HF.
  - apply IH, HS.
Qed.
