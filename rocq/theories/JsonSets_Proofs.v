(** Containers filled from JSON arrays. *)
From Coq Require Import Permutation.
From Verif Require Import Common Json_Model JsonApi_Model JsonSets_Model JsonSets_Spec.

Lemma advance_length {A} (l : list A) n : advance l n = (n + length l)%nat.
Proof. revert n. induction l as [|x l IH]; intros n; cbn; [lia|]. rewrite IH. lia. Qed.
Lemma counted_length {A} (l : list A) n : counted l n = (n + length l)%nat.
Proof. revert n. induction l as [|x l IH]; intros n; cbn; [lia|]. rewrite IH. lia. Qed.
Lemma insert_at_end {A} (l : list A) v : insert_after l (advance l 0) v = l ++ [v].
Proof. rewrite advance_length. cbn. unfold insert_after. now rewrite firstn_all, skipn_all. Qed.

(** * Orders *)
Lemma strict_cons {A} (less : A -> A -> bool) x l : strictly_ascending less (x :: l) <-> (forall y, In y l -> less x y = true) /\ strictly_ascending less l.
Proof.
  split.
  - intros H. split.
    + intros y HI. apply in_split in HI. destruct HI as (b & c & ->). exact (H [] x b y c eq_refl).
    + intros a y b z c ->. exact (H (x :: a) y b z c eq_refl).
  - intros (H1 & H2) [|a0 a] y b z c E; cbn in E; injection E as <- E.
    + apply H1. subst l. apply in_or_app. right. now left.
    + now apply (H2 a y b z c).
Qed.
Lemma asc_cons {A} (less : A -> A -> bool) x l : ascending less (x :: l) <-> (forall y, In y l -> less y x = false) /\ ascending less l.
Proof.
  split.
  - intros H. split.
    + intros y HI. apply in_split in HI. destruct HI as (b & c & ->). exact (H [] x b y c eq_refl).
    + intros a y b z c ->. exact (H (x :: a) y b z c eq_refl).
  - intros (H1 & H2) [|a0 a] y b z c E; cbn in E; injection E as <- E.
    + apply H1. subst l. apply in_or_app. right. now left.
    + now apply (H2 a y b z c).
Qed.
Lemma asc_nil {A} (less : A -> A -> bool) : ascending less [] /\ strictly_ascending less [].
Proof. split; intros a x b y c E; now destruct a. Qed.

Section Order.
Context {A : Type} (P : A -> Prop) (less : A -> A -> bool) (W : weak_order P less).
Lemma irr x : P x -> less x x = false. Proof. intros H. now destruct (W x x x H H H) as (? & _). Qed.
Lemma trans x y z : P x -> P y -> P z -> less x y = true -> less y z = true -> less x z = true.
Proof. intros H1 H2 H3. now destruct (W x y z H1 H2 H3) as (_ & ? & _). Qed.
Lemma like_trans x y z : P x -> P y -> P z -> like less x y = true -> like less y z = true -> like less x z = true.
Proof. intros H1 H2 H3. now destruct (W x y z H1 H2 H3) as (_ & _ & ?). Qed.
Lemma like_sym x y : like less x y = like less y x.
Proof. unfold like. now rewrite Bool.andb_comm. Qed.
Lemma asym x y : P x -> P y -> less x y = true -> less y x = false.
Proof. intros H1 H2 H. destruct (less y x) eqn:E; [|reflexivity]. pose proof (trans x y x H1 H2 H1 H E) as T. now rewrite (irr x H1) in T. Qed.
Lemma less_not_like x y : less x y = true -> like less x y = false.
Proof. intros H. unfold like. now rewrite H. Qed.
Lemma less_not_like_r x y : less x y = true -> like less y x = false.
Proof. intros H. unfold like. rewrite H. now rewrite Bool.andb_comm. Qed.
(** Below something that is not greater. *)
Lemma less_le x y z : P x -> P y -> P z -> less x y = true -> less z y = false -> less x z = true.
Proof.
  intros H1 H2 H3 L1 L2. destruct (less x z) eqn:E1; [reflexivity|]. exfalso. destruct (less y z) eqn:E2.
  - pose proof (trans x y z H1 H2 H3 L1 E2). congruence.
  - assert (L : like less y z = true) by (unfold like; now rewrite E2, L2). destruct (less z x) eqn:E3.
    + pose proof (trans z x y H3 H1 H2 E3 L1). congruence.
    + assert (L' : like less z x = true) by (unfold like; now rewrite E1, E3). pose proof (like_trans y z x H2 H3 H1 L L') as K. now rewrite (less_not_like_r x y L1) in K.
Qed.
Lemma none_like x l : (forall y, In y l -> like less x y = false) -> filter (like less x) l = [].
Proof. induction l as [|y l IH]; intros H; [reflexivity|]. cbn. rewrite H by now left. apply IH. intros z HZ. apply H. now right. Qed.
Lemma above_none x v l : P x -> P v -> Forall P l -> like less x v = true -> (forall y, In y l -> less v y = true) -> filter (like less x) l = [].
Proof.
  intros H1 H2 H3 L H. apply none_like. intros y HI. destruct (like less x y) eqn:E; [|reflexivity]. exfalso.
  rewrite Forall_forall in H3. rewrite like_sym in L. pose proof (like_trans v x y H2 H1 (H3 y HI) L E) as K. rewrite less_not_like in K by auto. discriminate.
Qed.
Lemma one_like x l : P x -> Forall P l -> strictly_ascending less l -> firstn 1 (filter (like less x) l) = filter (like less x) l.
Proof.
  intros HX. induction l as [|y l IH]; intros HP HS; [reflexivity|]. inversion_clear HP as [|? ? Hy HP']. apply strict_cons in HS. destruct HS as (S1 & S2). cbn [filter].
  destruct (like less x y) eqn:E; [|now apply IH]. rewrite (above_none x y l) by auto. reflexivity.
Qed.

Lemma set_insert_in l v y : In y (set_insert less l v) -> y = v \/ In y l.
Proof.
  induction l as [|x l IH]; cbn; [intuition|]. destruct (less v x); [cbn; intuition|]. destruct (less x v); [|cbn; intuition].
  intros [->|H]; [now right; left|]. apply IH in H. intuition.
Qed.
Lemma set_insert_ok l v x : P x -> P v -> Forall P l -> strictly_ascending less l ->
  strictly_ascending less (set_insert less l v) /\ filter (like less x) (set_insert less l v) = firstn 1 (filter (like less x) l ++ filter (like less x) [v]).
Proof.
  intros HX HV. induction l as [|y l IH]; intros HP HS.
  - cbn. split; [apply strict_cons; split; [easy|apply asc_nil]|]. now destruct (like less x v).
  - pose proof HP as HP0. inversion_clear HP as [|? ? Hy HP']. pose proof HS as HS0. apply strict_cons in HS. destruct HS as (S1 & S2). cbn [set_insert].
    destruct (less v y) eqn:E1; [|destruct (less y v) eqn:E2].
    + assert (AB : forall z, In z (y :: l) -> less v z = true).
      { intros z [<-|HI]; [assumption|]. rewrite Forall_forall in HP'. apply (trans v y z); auto. }
      split; [apply strict_cons; now split|]. cbn [filter]. destruct (like less x v) eqn:EV.
      * change (if like less x y then y :: filter (like less x) l else filter (like less x) l) with (filter (like less x) (y :: l)).
        rewrite (above_none x v (y :: l)) by auto. reflexivity.
      * rewrite app_nil_r. change (if like less x y then y :: filter (like less x) l else filter (like less x) l) with (filter (like less x) (y :: l)).
        symmetry. now apply one_like.
    + destruct (IH HP' S2) as (I1 & I2). split.
      * apply strict_cons. split; [|exact I1]. intros z HI. apply set_insert_in in HI. destruct HI as [->|HI]; [assumption|now apply S1].
      * change (filter (like less x) (y :: set_insert less l v)) with (if like less x y then y :: filter (like less x) (set_insert less l v) else filter (like less x) (set_insert less l v)).
        rewrite I2. cbn [filter]. destruct (like less x y) eqn:EY; [|reflexivity]. rewrite (above_none x y l) by auto. cbn [app].
        destruct (like less x v) eqn:EV; [|reflexivity]. exfalso. rewrite like_sym in EV. pose proof (like_trans v x y HV HX Hy EV EY) as K. rewrite less_not_like_r in K by assumption. discriminate.
    + split; [assumption|]. destruct (filter (like less x) (y :: l)) as [|z f] eqn:EF.
      * cbn [app filter]. destruct (like less x v) eqn:EV; [|reflexivity]. exfalso. cbn [filter] in EF.
        assert (L : like less v y = true) by (unfold like; now rewrite E1, E2). rewrite (like_trans x v y HX HV Hy EV L) in EF. discriminate.
      * pose proof (one_like x (y :: l) HX HP0 HS0) as O. rewrite EF in O. cbn [app firstn] in *. exact (eq_sym O).
Qed.

Lemma multi_insert_perm l v : Permutation (v :: l) (multi_insert less l v).
Proof. induction l as [|x l IH]; cbn; [constructor; constructor|]. destruct (less v x); [reflexivity|]. rewrite perm_swap. now constructor. Qed.
Lemma multi_insert_ok l v x : P x -> P v -> Forall P l -> ascending less l ->
  ascending less (multi_insert less l v) /\ filter (like less x) (multi_insert less l v) = filter (like less x) l ++ filter (like less x) [v].
Proof.
  intros HX HV. induction l as [|y l IH]; intros HP HS.
  - cbn. split; [apply asc_cons; split; [easy|apply asc_nil]|reflexivity].
  - pose proof HP as HP0. inversion_clear HP as [|? ? Hy HP']. pose proof HS as HS0. apply asc_cons in HS. destruct HS as (S1 & S2). cbn [multi_insert].
    destruct (less v y) eqn:E1.
    + assert (AB : forall z, In z (y :: l) -> less v z = true).
      { intros z [<-|HI]; [assumption|]. rewrite Forall_forall in HP'. apply (less_le v y z); auto. }
      split.
      * apply asc_cons. split; [|assumption]. intros z HI. rewrite Forall_forall in HP0. apply asym; auto.
      * cbn [filter]. destruct (like less x v) eqn:EV; [|now rewrite app_nil_r].
        change (if like less x y then y :: filter (like less x) l else filter (like less x) l) with (filter (like less x) (y :: l)). now rewrite (above_none x v (y :: l)) by auto.
    + destruct (IH HP' S2) as (I1 & I2). split.
      * apply asc_cons. split; [|exact I1]. intros z HI. apply (Permutation_in _ (Permutation_sym (multi_insert_perm l v))) in HI. destruct HI as [<-|HI]; [assumption|now apply S1].
      * change (filter (like less x) (y :: multi_insert less l v)) with (if like less x y then y :: filter (like less x) (multi_insert less l v) else filter (like less x) (multi_insert less l v)).
        rewrite I2. cbn [filter]. now destruct (like less x y).
Qed.
End Order.

Lemma firstn_1_app {A} (a b : list A) : firstn 1 (firstn 1 a ++ b) = firstn 1 (a ++ b).
Proof. now destruct a. Qed.

Lemma holds_incl {A} P (k : kind A) xs c : holds P k xs c -> incl c xs.
Proof.
  destruct k; cbn; intros H.
  - now subst. - now subst. - intuition. - intros y HI. destruct H as (_ & H & _). eapply Permutation_in; [symmetry; exact H|exact HI].
  - intuition. - intros y HI. eapply Permutation_in; [symmetry; exact H|exact HI].
Qed.
Lemma holds_nil {A} P (k : kind A) : holds P k [] [].
Proof. destruct k as [| |less|less|same|]; cbn; try reflexivity; repeat split; try (apply asc_nil); try (intros y []); constructor. Qed.

Lemma holds_append {A} P (k : kind A) xs c x c' : usable P k -> Forall P xs -> P x -> holds P k xs c -> appended k c x c' -> holds P k (xs ++ [x]) c'.
Proof.
  intros HU HP HX HH HA. pose proof (holds_incl P k xs c HH) as HI.
  assert (HPc : Forall P c). { rewrite Forall_forall in *. auto. }
  destruct HA as [l v|l v|less l v|less l v|same l v E|same l v a b E EL|l v a b EL]; cbn [holds usable] in *.
  - now subst.
  - rewrite insert_at_end. now subst.
  - destruct HH as (S & _ & F). split; [|split].
    + now apply (set_insert_ok P less HU l v v).
    + intros y HY. apply (set_insert_in less) in HY. apply in_or_app. destruct HY as [->|HY]; [right; now left|left; auto].
    + intros y HY. destruct (set_insert_ok P less HU l v y) as (_ & E); auto. rewrite E, filter_app. rewrite F by assumption. apply firstn_1_app.
  - destruct HH as (S & PE & F). split; [|split].
    + now apply (multi_insert_ok P less HU l v v).
    + rewrite <- multi_insert_perm. rewrite PE. symmetry. apply Permutation_cons_append.
    + intros y HY. destruct (multi_insert_ok P less HU l v y) as (_ & E); auto. rewrite E, filter_app. now rewrite F by assumption.
  - destruct HH as (_ & F). split; [intros y HY; apply in_or_app; auto|]. intros y HY. rewrite filter_app. rewrite F by assumption.
    destruct (filter (same y) xs) as [|z f] eqn:EF; [|reflexivity]. cbn [app filter]. destruct (same y v) eqn:EV; [|reflexivity]. exfalso.
    apply existsb_exists in E. destruct E as (w & HW & EW). rewrite Forall_forall in HP, HPc. destruct (HU y v w HY HX (HPc w HW)) as (_ & _ & T).
    assert (IN : In w (filter (same y) xs)) by (apply filter_In; auto). rewrite EF in IN. destruct IN.
  - destruct HH as (_ & F). split.
    + intros y HY. apply in_or_app. apply in_app_or in HY. destruct HY as [HY|[->|HY]]; [|right; now left|]; left; apply HI; subst l; apply in_or_app; auto.
    + intros y HY. rewrite !filter_app. cbn [filter]. specialize (F y HY). subst l. rewrite filter_app in F. destruct (same y v) eqn:EV.
      2:{ rewrite app_nil_r. exact F. }
      assert (N : filter (same y) (a ++ b) = []).
      { destruct (filter (same y) (a ++ b)) as [|w f] eqn:EF; [reflexivity|]. exfalso. assert (IN : In w (filter (same y) (a ++ b))) by (rewrite EF; now left).
        apply filter_In in IN. destruct IN as (IN & SW). rewrite Forall_forall in HPc. pose proof (HPc w IN) as PW.
        destruct (HU y v v HY HX HX) as (_ & SY & _). destruct (HU v y w HX HY PW) as (_ & _ & T).
        assert (EE : existsb (same v) (a ++ b) = true) by (apply existsb_exists; exists w; split; [assumption|auto]). congruence. }
      rewrite filter_app in N. apply app_eq_nil in N. destruct N as (N1 & N2). rewrite N1, N2 in *. cbn [app] in *.
      destruct (filter (same y) xs); [reflexivity|discriminate].
  - subst l. rewrite Permutation_app_comm. cbn [app]. rewrite HH. apply Permutation_middle.
Qed.

Lemma appended_total {A} (k : kind A) c v : exists c', appended k c v c'.
Proof.
  destruct k as [| |less|less|same|]; try (eexists; constructor; fail).
  - destruct (existsb (same v) c) eqn:E; [eexists; now constructor|]. exists (c ++ [v]). apply (app_hashed same c v c []); [assumption|now rewrite app_nil_r].
  - exists (c ++ [v]). apply (app_hashed_multi c v c []). now rewrite app_nil_r.
Qed.

(** * Conversions *)
Definition first_bad {A} (f : json -> outcome A) (bad : outcome A) (l : list json) : Prop :=
  exists a v b, l = a ++ v :: b /\ f v = bad /\ Forall (fun w => exists x, f w = Return x) a.

Lemma filled_holds {A} P (k : kind A) f l c o : usable P k -> filled k f l c o -> (forall v x, In v l -> f v = Return x -> P x) ->
  forall xs, Forall P xs -> holds P k xs c ->
  match o with
  | Return c' => exists ys, Forall2 (fun v x => f v = Return x) l ys /\ Forall P ys /\ holds P k (xs ++ ys) c'
  | Throw e => first_bad f (Throw e) l
  | Undefined => first_bad f Undefined l
  end.
Proof.
  intros HU HF. induction HF as [c|v r c e E|v r c E|v x r c c' o E HA HF IH]; intros HP xs HX HH.
  - exists []. rewrite app_nil_r. repeat split; auto.
  - exists [], v, r. auto.
  - exists [], v, r. auto.
  - assert (PX : P x) by (apply (HP v); [now left|assumption]).
    assert (HN : holds P k (xs ++ [x]) c') by now apply (holds_append P k xs c).
    assert (HB : forall bad, first_bad f bad r -> first_bad f bad (v :: r)).
    { intros bad (a & w & b & -> & Hw & Ha). exists (v :: a), w, b. split; [reflexivity|]. split; [assumption|]. constructor; [now exists x|assumption]. }
    specialize (IH (fun w y I => HP w y (or_intror I)) (xs ++ [x])). destruct o as [c2|e|].
    + destruct IH as (ys & F2 & PY & H2). { apply Forall_app. split; [assumption|now constructor]. } { assumption. }
      exists (x :: ys). split; [now constructor|]. split; [now constructor|]. now rewrite <- app_assoc in H2.
    + apply HB, IH; [apply Forall_app; split; [assumption|now constructor]|assumption].
    + apply HB, IH; [apply Forall_app; split; [assumption|now constructor]|assumption].
Qed.
Lemma filled_total {A} (k : kind A) f l c : exists o, filled k f l c o.
Proof.
  revert c. induction l as [|v r IH]; intros c; [eexists; constructor|]. destruct (f v) as [x|e|] eqn:E.
  - destruct (appended_total k c x) as (c' & HA). destruct (IH c') as (o & HO). exists o. now apply (filled_more k f v x r c c').
  - exists (Throw e). now constructor.
  - exists Undefined. now constructor.
Qed.

Lemma strict_asc {A} P (less : A -> A -> bool) l : weak_order P less -> Forall P l -> strictly_ascending less l -> ascending less l.
Proof.
  intros W HP HS a x b y c E. rewrite Forall_forall in HP. apply (asym P less W); [apply HP|apply HP|now apply (HS a x b y c)]; subst l; apply in_or_app; right.
  - now left. - right. apply in_or_app. right. now left.
Qed.
Lemma asc_determined {A} P (less : A -> A -> bool) c : weak_order P less -> forall c', Forall P c -> Forall P c' -> ascending less c -> ascending less c' ->
  (forall x, P x -> filter (like less x) c = filter (like less x) c') -> c = c'.
Proof.
  intros W. assert (SL : forall x, P x -> like less x x = true). { intros x HX. unfold like. now rewrite (irr P less W x HX). }
  induction c as [|x r IH]; intros [|y r'] HP HP' HS HS' HF; [reflexivity| | |].
  - inversion_clear HP'. specialize (HF y H). cbn in HF. rewrite SL in HF by assumption. discriminate.
  - inversion_clear HP. specialize (HF x H). cbn in HF. rewrite SL in HF by assumption. discriminate.
  - inversion_clear HP as [|? ? PX PR]. inversion_clear HP' as [|? ? PY PR']. apply asc_cons in HS, HS'. destruct HS as (S1 & S2). destruct HS' as (S1' & S2').
    assert (XIN : In x (y :: r')).
    { assert (I : In x (filter (like less x) (y :: r'))) by (rewrite <- HF by assumption; apply filter_In; split; [now left|now apply SL]). apply filter_In in I. tauto. }
    assert (YIN : In y (x :: r)).
    { assert (I : In y (filter (like less y) (x :: r))) by (rewrite HF by assumption; apply filter_In; split; [now left|now apply SL]). apply filter_In in I. tauto. }
    assert (L1 : less x y = false). { destruct XIN as [->|XIN]; [now apply (irr P less W)|now apply S1']. }
    assert (L2 : less y x = false). { destruct YIN as [->|YIN]; [now apply (irr P less W)|now apply S1]. }
    assert (LK : like less x y = true) by (unfold like; now rewrite L1, L2).
    pose proof (HF x PX) as E. cbn [filter] in E. rewrite (SL x PX), LK in E. injection E as <- _. f_equal. apply IH; auto.
    intros z PZ. pose proof (HF z PZ) as E. cbn [filter] in E. destruct (like less z x); [now injection E|assumption].
Qed.
Lemma holds_determined {A} P (k : kind A) xs c c' : usable P k -> ~ hashed k -> Forall P xs -> holds P k xs c -> holds P k xs c' -> c = c'.
Proof.
  intros HU HN HP H1 H2. assert (PC : Forall P c). { rewrite Forall_forall in *. intros x I. apply HP. now apply (holds_incl P k xs c). }
  assert (PC' : Forall P c'). { rewrite Forall_forall in *. intros x I. apply HP. now apply (holds_incl P k xs c'). }
  destruct k as [| |less|less|same|]; cbn [holds hashed usable] in *; try tauto; try (now subst).
  - destruct H1 as (S1 & _ & F1). destruct H2 as (S2 & _ & F2). apply (asc_determined P less); auto; try now apply (strict_asc P less).
    intros x PX. now rewrite F1, F2.
  - destruct H1 as (S1 & _ & F1). destruct H2 as (S2 & _ & F2). apply (asc_determined P less); auto. intros x PX. now rewrite F1, F2.
Qed.
Lemma holds_self {A} P (k : kind A) c : usable P k -> ~ hashed k -> Forall P c -> valid k c -> holds P k c c.
Proof.
  intros HU HN HP HV. destruct k as [| |less|less|same|]; cbn [holds hashed usable valid] in *; try tauto; try reflexivity.
  - split; [assumption|]. split; [apply incl_refl|]. intros x PX. symmetry. now apply (one_like P less).
  - split; [assumption|]. split; [reflexivity|]. reflexivity.
Qed.

Lemma push_all_ok {A} (g : A -> outcome json) c l :
  match push_all g c l with
  | Return l' => exists vs, l' = l ++ vs /\ Forall2 (fun x v => g x = Return v) c vs
  | Throw e => exists a x b, c = a ++ x :: b /\ g x = Throw e /\ Forall (fun y => exists v, g y = Return v) a
  | Undefined => exists a x b, c = a ++ x :: b /\ g x = Undefined /\ Forall (fun y => exists v, g y = Return v) a
  end.
Proof.
  revert l. induction c as [|x r IH]; intros l; cbn [push_all]; [exists []; rewrite app_nil_r; auto|]. destruct (g x) as [v|e|] eqn:E.
  - specialize (IH (l ++ [v])). destruct (push_all g r (l ++ [v])) as [l'|e|].
    + destruct IH as (vs & -> & F). exists (v :: vs). split; [now rewrite <- app_assoc|now constructor].
    + destruct IH as (a & y & b & -> & F1 & F2). exists (x :: a), y, b. split; [reflexivity|]. split; [assumption|]. constructor; [now exists v|assumption].
    + destruct IH as (a & y & b & -> & F1 & F2). exists (x :: a), y, b. split; [reflexivity|]. split; [assumption|]. constructor; [now exists v|assumption].
  - exists [], x, r. auto.
  - exists [], x, r. auto.
Qed.
Lemma array_size_length {A} (k : kind A) c : array_size k c = length c.
Proof. destruct k; try reflexivity. cbn. now rewrite counted_length. Qed.

Lemma filled_hashed {A} (k : kind A) f l c o : hashed k -> filled k f l c o -> forall xs ys, valid k (xs ++ ys) -> Permutation xs c -> Forall2 (fun v x => f v = Return x) l ys ->
  exists c', o = Return c' /\ Permutation (xs ++ ys) c'.
Proof.
  intros HH HF. induction HF as [c|v r c e E|v r c E|v x r c c' o E HA HF IH]; intros xs ys HV HP F2; inversion F2 as [|? y ? ys' E' F2']; subst.
  - exists c. rewrite app_nil_r. auto.
  - congruence.
  - congruence.
  - rewrite E in E'. injection E' as <-. replace (xs ++ x :: ys') with ((xs ++ [x]) ++ ys') in * by now rewrite <- app_assoc. apply IH; [assumption| |assumption].
    rewrite <- Permutation_cons_append. inversion HA; subst; try easy.
    + exfalso. cbn in HV. apply existsb_exists in H. destruct H as (w & HW & EW). apply (Permutation_in _ (Permutation_sym HP)) in HW. apply in_split in HW. destruct HW as (a & b & ->).
      specialize (HV a w b x ys'). rewrite HV in EW; [discriminate|]. now rewrite <- !app_assoc.
    + rewrite HP. apply Permutation_middle.
    + rewrite HP. apply Permutation_middle.
Qed.
