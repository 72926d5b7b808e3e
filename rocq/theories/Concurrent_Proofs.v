(** C34, C35: invariants of the concurrent containers. *)
From Coq Require Import Permutation.
From Verif Require Import Common Concurrent_Model Concurrent_Spec.

Lemma upd_length {A} (l : list A) t x : length (upd l t x) = length l.
Proof. revert t; induction l as [|y l IH]; intros [|t]; cbn [upd length]; auto. Qed.
Lemma nth_upd_same {A} (l : list A) t x p : nth_error l t = Some p -> nth_error (upd l t x) t = Some x.
Proof. revert t; induction l as [|y l IH]; intros [|t] H; try discriminate; [reflexivity|]. cbn [upd nth_error] in *. eauto. Qed.
Lemma nth_upd_other {A} (l : list A) t t' x : t <> t' -> nth_error (upd l t x) t' = nth_error l t'.
Proof. revert t t'; induction l as [|y l IH]; intros [|t] [|t'] H; cbn [upd nth_error]; auto; congruence. Qed.

(** * Mutual exclusion and reachable program points *)
Definition sane (p : pc) : bool :=
  match p with Broken | PopTest false true | PopWoken false true => false | _ => true end.
Record inv (s : state) : Prop := {
  inv_owner : forall t p, nth_error (threads s) t = Some p -> (holds p = true <-> owner s = Some t);
  inv_held : forall t, owner s = Some t -> exists p, nth_error (threads s) t = Some p;
  inv_sane : forall t p, nth_error (threads s) t = Some p -> sane p = true;
  inv_take : forall t timed, nth_error (threads s) t = Some (PopTake timed) -> container s <> [] }.

Lemma inv_initial n : inv (initial n).
Proof.
  assert (R : forall t p, nth_error (repeat Idle n) t = Some p -> p = Idle) by (intros t p H; apply nth_error_In in H; now apply repeat_spec in H).
  split; cbn [initial threads owner container].
  - intros t p H. apply R in H. subst. cbn. split; discriminate.
  - discriminate.
  - intros t p H. apply R in H. now subst.
  - intros t timed H. apply R in H. discriminate.
Qed.
Ltac cases t t' := destruct (Nat.eq_dec t t') as [<-|].
Lemma set_inv s c o t p p0 : inv s -> nth_error (threads s) t = Some p0 ->
  (* ownership: either unchanged, or taken, or released *)
  ((o = owner s /\ holds p = holds p0) \/ (owner s = None /\ o = Some t /\ holds p = true) \/ (holds p0 = true /\ o = None /\ holds p = false)) ->
  sane p = true ->
  (c = container s \/ holds p0 = true) ->
  (forall timed, p = PopTake timed -> c <> []) ->
  inv (set s c o t p).
Proof.
  intros [I1 I2 I3 I4] H0 HO HS HC HT. unfold set. split; cbn [threads owner container].
  - intros t' p' H'. cases t t'.
    + rewrite (nth_upd_same _ _ _ _ H0) in H'. injection H' as <-. destruct HO as [[-> EH]|[(EN & -> & EH)|(EH0 & -> & EH)]].
      * rewrite EH. now apply I1.
      * rewrite EH. split; reflexivity.
      * rewrite EH. split; discriminate.
    + rewrite nth_upd_other in H' by assumption. rewrite (I1 _ _ H'). destruct HO as [[-> EH]|[(EN & -> & EH)|(EH0 & -> & EH)]].
      * reflexivity.
      * rewrite EN. split; [discriminate|]. congruence.
      * apply (I1 _ _ H0) in EH0. rewrite EH0. split; [congruence|discriminate].
  - intros t' H'. destruct HO as [[-> EH]|[(EN & -> & EH)|(EH0 & -> & EH)]]; [| |discriminate].
    + destruct (I2 _ H') as (p' & Hp'). cases t t'; [eexists; eapply nth_upd_same; eassumption|]. rewrite nth_upd_other by assumption. eauto.
    + injection H' as <-. eexists. eapply nth_upd_same; eassumption.
  - intros t' p' H'. cases t t'; [rewrite (nth_upd_same _ _ _ _ H0) in H'; injection H' as <-; assumption|]. rewrite nth_upd_other in H' by assumption. eauto.
  - intros t' timed H'. cases t t'; [rewrite (nth_upd_same _ _ _ _ H0) in H'; injection H' as ->; eauto|]. rewrite nth_upd_other in H' by assumption.
    destruct HC as [->|HC]; [eauto|]. exfalso. apply (I1 _ _ H0) in HC. assert (HH : holds (PopTake timed) = true) by reflexivity. apply (I1 _ _ H') in HH. congruence.
Qed.
Lemma inv_step k s l s' : inv s -> step k s l s' -> inv s'.
Proof.
  intros I H. pose proof (fun t p E => inv_sane s I t p E) as IS. destruct H;
  match goal with
  | |- inv (State _ _ (upd (upd _ _ _) _ _)) => idtac
  | H0 : nth_error (threads s) ?t = Some ?p0 |- _ => try (eapply (set_inv s _ _ t _ p0 I H0);
      [first [left; split; [reflexivity|reflexivity]|right; left; split; [assumption|split; reflexivity]|right; right; split; [reflexivity|split; reflexivity]]
      |try reflexivity|first [left; reflexivity|right; reflexivity]|intros; try discriminate])
  end.
  - (* call *) destruct o; cbn [start]; eapply (set_inv s _ _ t _ Idle I H); try (left; split; reflexivity); try reflexivity; try (left; reflexivity); discriminate.
  - (* notify *)
    assert (N : t <> t') by congruence.
    assert (I1 : inv (set s (container s) (owner s) t Idle)) by (eapply (set_inv s _ _ t _ PushNotify I H); [left; split; reflexivity|reflexivity|left; reflexivity|discriminate]).
    assert (H1 : nth_error (threads (set s (container s) (owner s) t Idle)) t' = Some (PopBlocked timed)) by (cbn; now rewrite nth_upd_other).
    apply (set_inv _ (container s) (owner s) t' (PopWoken timed false) _ I1 H1); [left; split; reflexivity|destruct timed; reflexivity|left; reflexivity|discriminate].
  - destruct timed; reflexivity.
  - assumption.
  - destruct timed; reflexivity.
  - destruct timed; [reflexivity|]. destruct o; [|reflexivity]. exact (IS _ _ H).
  - exfalso. destruct (container s) eqn:E; [now apply (inv_take s I _ _ H)|discriminate].
Qed.
Lemma inv_reaches k n h s : reaches k n h s -> inv s.
Proof. induction 1 as [|h s l s' _ IH HS]; [apply inv_initial|]. eapply inv_step; eassumption. Qed.
Lemma threads_length k n h s : reaches k n h s -> length (threads s) = n.
Proof.
  induction 1 as [|h s l s' _ IH HS]; [apply repeat_length|]. destruct HS; cbn [set threads]; rewrite ?upd_length; assumption.
Qed.

(** * Linearizability *)
Definition pop_op (timed : bool) : op := if timed then OTimedPop else OPop.
Definition phase_of (p : pc) : phase :=
  match p with
  | Idle | Broken => Outside
  | PushStart v | PushLocked v => Called (OPush v)
  | PushDone | PushNotify => Effected RUnit
  | PopStart timed | PopTest timed _ | PopBlocked timed | PopWoken timed _ | PopTake timed => Called (pop_op timed)
  | PopDone r => Effected r
  | EmptyStart | EmptyLocked => Called OEmpty
  | EmptyDone b => Effected (RBool b)
  | SizeStart | SizeLocked => Called OSize
  | SizeDone n => Effected (RSize n)
  end.
Definition ph (s : state) (t : nat) : phase := match nth_error (threads s) t with Some p => phase_of p | None => Outside end.
Definition added (l : label) (x : option timed_event) : Prop :=
  match l, x with
  | Visible e, Some (Event e') => e = e'
  | Visible _, _ => False
  | _, Some (Event _) => False
  | _, _ => True
  end.
Definition sim (k : kind) (s : state) (x : option timed_event) (s' : state) : Prop :=
  match x with
  | None => (forall t, ph s' t = ph s t) /\ container s' = container s
  | Some y => (forall t, t <> thread_of y -> ph s' t = ph s t) /\ advance (ph s (thread_of y)) y (ph s' (thread_of y)) /\
      match y with Event _ => container s' = container s | Effect _ o r => sequential k (container s) (o, r) (container s') end
  end.
Lemma ph_set s c o t p p0 t' : nth_error (threads s) t = Some p0 -> ph (set s c o t p) t' = if (t =? t')%nat then phase_of p else ph s t'.
Proof.
  intros H. unfold ph, set. cbn [threads]. destruct (Nat.eqb_spec t t') as [<-|N]; [now rewrite (nth_upd_same _ _ _ _ H)|now rewrite nth_upd_other].
Qed.
Lemma ph_at s t p : nth_error (threads s) t = Some p -> ph s t = phase_of p.
Proof. intros H. unfold ph. now rewrite H. Qed.
Lemma sim_none k s o t p p0 : nth_error (threads s) t = Some p0 -> phase_of p = phase_of p0 -> sim k s None (set s (container s) o t p).
Proof.
  intros H E. split; [|reflexivity]. intros t'. rewrite (ph_set _ _ _ _ _ _ _ H). destruct (Nat.eqb_spec t t') as [<-|N]; [|reflexivity]. rewrite (ph_at _ _ _ H). assumption.
Qed.
Lemma sim_event k s o t p p0 e : nth_error (threads s) t = Some p0 -> thread_of (Event e) = t -> advance (phase_of p0) (Event e) (phase_of p) ->
  sim k s (Some (Event e)) (set s (container s) o t p).
Proof.
  intros H E A. cbn [sim]. rewrite E. split; [|split].
  - intros t' N. rewrite (ph_set _ _ _ _ _ _ _ H). destruct (Nat.eqb_spec t t'); congruence.
  - rewrite (ph_set _ _ _ _ _ _ _ H), Nat.eqb_refl, (ph_at _ _ _ H). assumption.
  - reflexivity.
Qed.
Lemma sim_effect k s c ow t p p0 o r : nth_error (threads s) t = Some p0 -> phase_of p0 = Called o -> phase_of p = Effected r ->
  sequential k (container s) (o, r) c -> sim k s (Some (Effect t o r)) (set s c ow t p).
Proof.
  intros H E E' HS. cbn [sim thread_of]. split; [|split].
  - intros t' N. rewrite (ph_set _ _ _ _ _ _ _ H). destruct (Nat.eqb_spec t t'); congruence.
  - rewrite (ph_set _ _ _ _ _ _ _ H), Nat.eqb_refl, (ph_at _ _ _ H), E, E'. constructor.
  - assumption.
Qed.
Lemma simulate k s l s' : inv s -> step k s l s' -> exists x, added l x /\ sim k s x s'.
Proof.
  intros I H. destruct H as [t o H|t v H HO|t v H|t H|t t' timed H H'|t H HN|t timed H HO|t timed o H HC|t timed H HC|t H HC|t timed H|t H|t timed o H HO|t timed v c H HP|t timed H HP|t r H|t H HO|t H|t b H|t H HO|t H|t n H].
  - exists (Some (Event (Call t o))). split; [reflexivity|]. eapply sim_event; [exact H|reflexivity|]. destruct o; constructor.
  - exists None. split; [exact Logic.I|]. eapply sim_none; [exact H|reflexivity].
  - exists (Some (Effect t (OPush v) RUnit)). split; [exact Logic.I|]. eapply sim_effect; [exact H|reflexivity|reflexivity|]. destruct k; constructor; reflexivity.
  - exists None. split; [exact Logic.I|]. eapply sim_none; [exact H|reflexivity].
  - exists (Some (Event (Ret t RUnit))). split; [reflexivity|]. assert (N : t <> t') by congruence.
    cbn [sim thread_of]. unfold ph. cbn [threads container]. split; [|split].
    + intros t'' N'. destruct (Nat.eq_dec t' t'') as [<-|N''].
      * rewrite (nth_upd_same _ _ _ (PopBlocked timed)) by (now rewrite nth_upd_other). rewrite H'. reflexivity.
      * now rewrite !nth_upd_other by congruence.
    + rewrite nth_upd_other by congruence. rewrite (nth_upd_same _ _ _ _ H), H. constructor.
    + reflexivity.
  - exists (Some (Event (Ret t RUnit))). split; [reflexivity|]. eapply sim_event; [exact H|reflexivity|]. constructor.
  - exists None. split; [exact Logic.I|]. eapply sim_none; [exact H|reflexivity].
  - exists None. split; [exact Logic.I|]. eapply sim_none; [exact H|reflexivity].
  - exists None. split; [exact Logic.I|]. eapply sim_none; [exact H|reflexivity].
  - exists (Some (Effect t OTimedPop RNone)). split; [exact Logic.I|]. eapply sim_effect; [exact H|reflexivity|reflexivity|]. rewrite HC. constructor.
  - exists None. split; [exact Logic.I|]. eapply sim_none; [exact H|reflexivity].
  - exists None. split; [exact Logic.I|]. eapply sim_none; [exact H|reflexivity].
  - exists None. split; [exact Logic.I|]. eapply sim_none; [exact H|reflexivity].
  - exists (Some (Effect t (pop_op timed) (RItem v))). split; [exact Logic.I|]. eapply sim_effect; [exact H|reflexivity|reflexivity|].
    destruct (container s) as [|v' c'] eqn:E; [discriminate|]. cbn [pop_internal] in HP. injection HP as -> ->. destruct timed; constructor.
  - exfalso. destruct (container s) eqn:E; [now apply (inv_take s I _ _ H)|discriminate].
  - exists (Some (Event (Ret t r))). split; [reflexivity|]. eapply sim_event; [exact H|reflexivity|]. constructor.
  - exists None. split; [exact Logic.I|]. eapply sim_none; [exact H|reflexivity].
  - exists (Some (Effect t OEmpty (RBool (match container s with [] => true | _ :: _ => false end)))). split; [exact Logic.I|].
    eapply sim_effect; [exact H|reflexivity|reflexivity|]. destruct (container s); constructor.
  - exists (Some (Event (Ret t (RBool b)))). split; [reflexivity|]. eapply sim_event; [exact H|reflexivity|]. constructor.
  - exists None. split; [exact Logic.I|]. eapply sim_none; [exact H|reflexivity].
  - exists (Some (Effect t OSize (RSize (length (container s))))). split; [exact Logic.I|].
    eapply sim_effect; [exact H|reflexivity|reflexivity|]. constructor.
  - exists (Some (Event (Ret t (RSize n)))). split; [reflexivity|]. eapply sim_event; [exact H|reflexivity|]. constructor.
Qed.
Lemma legal_snoc k c ops c' o c'' : legal k c ops c' -> sequential k c' o c'' -> legal k c (ops ++ [o]) c''.
Proof. induction 1 as [c|c o' c1 ops c2 HS HL IH]; intros H; [econstructor; [exact H|constructor]|]. cbn [app]. econstructor; [exact HS|now apply IH]. Qed.
Lemma linearize k n h s : reaches k n h s -> exists a, visible a = h /\ (forall t, behaves t a (ph s t)) /\ legal k [] (effects a) (container s).
Proof.
  induction 1 as [|h s l s' HR (a & EV & HB & HL) HS].
  - exists []. split; [reflexivity|]. split; [|constructor]. intros t. unfold ph. cbn [initial threads]. destruct (nth_error (repeat Idle n) t) eqn:E; [|constructor].
    apply nth_error_In, repeat_spec in E. subst. constructor.
  - destruct (simulate k s l s' (inv_reaches _ _ _ _ HR) HS) as ([y|] & HA & HM).
    + exists (a ++ [y]). destruct HM as (HM1 & HM2 & HM3). split; [|split].
      * unfold visible in *. rewrite flat_map_app, EV. destruct l as [e| | |], y as [e'|t' o' r']; cbn in HA; try contradiction; cbn [flat_map]; rewrite ?app_nil_r; try reflexivity. now subst.
      * intros t. destruct (Nat.eq_dec (thread_of y) t) as [<-|N]; [eapply b_own; [apply HB|reflexivity|exact HM2]|]. rewrite HM1 by congruence. apply b_other; [apply HB|assumption].
      * unfold effects in *. rewrite flat_map_app. destruct y as [e'|t' o' r']; cbn [flat_map]; rewrite ?app_nil_r; [rewrite HM3; assumption|]. eapply legal_snoc; eassumption.
    + destruct HM as [HM1 HM2]. exists a. split; [|split].
      * destruct l; cbn in HA; try contradiction; assumption.
      * intros t. rewrite HM1. apply HB.
      * now rewrite HM2.
Qed.

(** * Consequences for items *)
Lemma legal_permutation k c ops c' : legal k c ops c' -> Permutation (c ++ pushed ops) (popped ops ++ c').
Proof.
  induction 1 as [c|c o c' ops c'' HS HL IH]; [cbn; now rewrite app_nil_r|].
  inversion HS; subst; cbn [pushed popped flat_map app] in *; try assumption.
  - rewrite <- app_assoc in IH. exact IH.
  - etransitivity; [|exact IH]. cbn [app]. rewrite Permutation_middle. apply Permutation_app_head. reflexivity.
  - now apply perm_skip.
  - now apply perm_skip.
Qed.
Lemma legal_fifo c ops c' : legal Queue c ops c' -> c ++ pushed ops = popped ops ++ c'.
Proof.
  induction 1 as [c|c o c' ops c'' HS HL IH]; [cbn; now rewrite app_nil_r|].
  inversion HS; subst; cbn [pushed popped flat_map app] in *; try assumption; try discriminate.
  - rewrite <- app_assoc in IH. exact IH.
  - f_equal. exact IH.
  - f_equal. exact IH.
Qed.

(** * Counting threads *)
Definition b2n (b : bool) : nat := if b then 1%nat else 0%nat.
Lemma count_upd (f : pc -> bool) l t p0 p : nth_error l t = Some p0 ->
  (length (filter f (upd l t p)) + b2n (f p0) = length (filter f l) + b2n (f p))%nat.
Proof.
  revert t; induction l as [|y l IH]; intros [|t] H; try discriminate; cbn [upd filter nth_error] in *.
  - injection H as ->. destruct (f p0), (f p); cbn [length b2n]; lia.
  - specialize (IH _ H). destruct (f y); cbn [length]; lia.
Qed.
Lemma count_set f s c o t p p0 : nth_error (threads s) t = Some p0 ->
  (count f (set s c o t p) + b2n (f p0) = count f s + b2n (f p))%nat.
Proof. apply count_upd. Qed.
Lemma count_pos f s t p : nth_error (threads s) t = Some p -> f p = true -> (1 <= count f s)%nat.
Proof.
  unfold count. intros H HF. apply nth_error_In in H. induction (threads s) as [|y l IH]; [destruct H|]. cbn [filter]. destruct H as [->|H]; [rewrite HF; cbn; lia|].
  specialize (IH H). destruct (f y); cbn [length]; lia.
Qed.
Lemma count_ex f s : (1 <= count f s)%nat -> exists t p, nth_error (threads s) t = Some p /\ f p = true.
Proof.
  unfold count. intros H. destruct (filter f (threads s)) as [|p l] eqn:E; [cbn in H; lia|]. assert (HI : In p (filter f (threads s))) by (rewrite E; now left).
  apply filter_In in HI. destruct HI as [HI HF]. apply In_nth_error in HI. destruct HI as (t & Ht). eauto.
Qed.

(** * Conservation of items *)
Definition occ (v : Z) (l : list Z) : nat := length (filter (Z.eqb v) l).
Lemma occ_app v a b : occ v (a ++ b) = (occ v a + occ v b)%nat.
Proof. unfold occ. now rewrite filter_app, app_length. Qed.
Lemma occ_cons v w l : occ v (w :: l) = (b2n (Z.eqb w v) + occ v l)%nat.
Proof. unfold occ. cbn [filter]. rewrite (Z.eqb_sym v w). destruct (w =? v); reflexivity. Qed.
Lemma occ_push k v w c : occ v (push_internal k w c) = (b2n (Z.eqb w v) + occ v c)%nat.
Proof. destruct k; cbn [push_internal]; [rewrite occ_app, occ_cons; cbn; lia|apply occ_cons]. Qed.
Lemma calls_snoc h e v : push_calls (h ++ [e]) v = (push_calls h v + b2n (match e with Call _ (OPush w) => (w =? v)%Z | _ => false end))%nat.
Proof. unfold push_calls. rewrite filter_app, app_length. cbn [filter]. destruct (match e with Call _ (OPush w) => w =? v | _ => false end); reflexivity. Qed.
Lemma returns_snoc h e v : pop_returns (h ++ [e]) v = (pop_returns h v + b2n (match e with Ret _ (RItem w) => (w =? v)%Z | _ => false end))%nat.
Proof. unfold pop_returns. rewrite filter_app, app_length. cbn [filter]. destruct (match e with Ret _ (RItem w) => w =? v | _ => false end); reflexivity. Qed.
Lemma conservation k n h s v : reaches k n h s ->
  (push_calls h v = pop_returns h v + occ v (container s) + count (pushing v) s + count (returning v) s)%nat.
Proof.
  induction 1 as [|h s l s' HR IH HS].
  - assert (Z : forall f, f Idle = false -> count f (initial n) = O).
    { intros f HF. unfold count. cbn [initial threads]. clear -HF. induction n as [|n IH]; [reflexivity|]. cbn [repeat filter]. now rewrite HF. }
    rewrite !Z by reflexivity. reflexivity.
  - pose proof (inv_reaches _ _ _ _ HR) as I. destruct HS;
    match goal with
    | |- context [upd (upd _ ?t Idle) ?t' _] => idtac
    | H0 : nth_error (threads s) ?t = Some ?p0 |- context [set s ?c ?o ?t ?p] =>
        pose proof (count_set (pushing v) s c o t p p0 H0) as C1; pose proof (count_set (returning v) s c o t p p0 H0) as C2
    end; rewrite ?calls_snoc, ?returns_snoc; cbn [container set pushing returning b2n] in *; try lia.
    + destruct o; cbn [start pushing returning b2n] in *; lia.
    + rewrite occ_push. lia.
    + assert (N : t <> t') by congruence.
      pose proof (count_upd (pushing v) (threads s) t _ Idle H) as C1. pose proof (count_upd (returning v) (threads s) t _ Idle H) as C2.
      assert (H1 : nth_error (upd (threads s) t Idle) t' = Some (PopBlocked timed)) by (now rewrite nth_upd_other).
      pose proof (count_upd (pushing v) _ t' _ (PopWoken timed false) H1) as C3. pose proof (count_upd (returning v) _ t' _ (PopWoken timed false) H1) as C4.
      unfold count in *. cbn [threads container pushing returning b2n] in *. lia.
    + destruct (container s) as [|w c'] eqn:E; [discriminate|]. cbn [pop_internal] in *. injection H0 as -> ->. rewrite occ_cons in IH. lia.
Qed.

(** * Wake-ups *)
Definition waiting (p : pc) : bool := match p with PopBlocked _ => true | _ => false end.
Lemma length_push k v c : length (push_internal k v c) = S (length c).
Proof. destruct k; cbn [push_internal]; [rewrite app_length; cbn; lia|reflexivity]. Qed.
Definition supplied (s : state) : Prop :=
  (1 <= count waiting s)%nat -> (length (container s) <= count will_notify s + count will_look s)%nat.
Lemma supplied_step k s l s' : inv s -> supplied s -> step k s l s' -> supplied s'.
Proof.
  intros I W HS. unfold supplied in *. destruct HS;
    match goal with
    | |- context [upd (upd _ ?t Idle) ?t' _] => idtac
    | H0 : nth_error (threads s) ?t = Some ?p0 |- context [set s ?c ?o ?t ?p] =>
        pose proof (count_set waiting s c o t p p0 H0) as C1; pose proof (count_set will_notify s c o t p p0 H0) as C2; pose proof (count_set will_look s c o t p p0 H0) as C3
    end; cbn [container set waiting will_notify will_look b2n] in *; try lia.
  - destruct o; cbn [start waiting will_notify will_look b2n] in *; lia.
  - rewrite length_push. lia.
  - assert (N : t <> t') by congruence. assert (H1 : nth_error (upd (threads s) t Idle) t' = Some (PopBlocked timed)) by (now rewrite nth_upd_other).
    pose proof (count_pos waiting s t' _ H0 eq_refl) as P.
    pose proof (count_upd will_notify (threads s) t _ Idle H) as C1. pose proof (count_upd will_look (threads s) t _ Idle H) as C2.
    pose proof (count_upd will_notify _ t' _ (PopWoken timed false) H1) as C3. pose proof (count_upd will_look _ t' _ (PopWoken timed false) H1) as C4.
    unfold count in *. cbn [threads container will_notify will_look b2n] in *. intros _. specialize (W P). lia.
  - intros P. exfalso. destruct (count_ex waiting _ P) as (t' & p' & Hp & HW). cbn [threads set] in Hp. destruct (Nat.eq_dec t t') as [<-|N].
    + rewrite (nth_upd_same _ _ _ _ H) in Hp. injection Hp as <-. discriminate.
    + rewrite nth_upd_other in Hp by assumption. destruct p'; try discriminate. eapply H0; exact Hp.
  - rewrite H0. cbn [length]. lia.
  - rewrite H0. cbn [length]. lia.
  - destruct (container s) as [|w c'] eqn:E; [discriminate|]. cbn [pop_internal] in *. injection H0 as -> ->. cbn [length] in W. lia.
  - exfalso. destruct (container s) eqn:E; [now apply (inv_take s I _ _ H)|discriminate].
Qed.
Lemma supplied_reaches k n h s : reaches k n h s -> supplied s.
Proof.
  induction 1 as [|h s l s' HR IH HS]; [intros _; cbn; lia|]. eapply supplied_step; [eapply inv_reaches; eassumption|eassumption|eassumption].
Qed.

(** * Progress *)
Definition weight (p : pc) : nat :=
  match p with
  | Idle | PopBlocked _ | Broken => 0
  | PopDone _ | EmptyDone _ | SizeDone _ => 1
  | PopTake _ | EmptyLocked | SizeLocked => 2
  | PopTest _ _ | EmptyStart | SizeStart => 3
  | PopWoken _ _ | PopStart _ => 4
  | PushNotify => 5
  | PushDone => 6
  | PushLocked _ => 7
  | PushStart _ => 8
  end.
Definition total (s : state) : nat := list_sum (map weight (threads s)).
Lemma total_upd l t p0 p : nth_error l t = Some p0 -> (list_sum (map weight (upd l t p)) + weight p0 = list_sum (map weight l) + weight p)%nat.
Proof.
  revert t; induction l as [|y l IH]; intros [|t] H; try discriminate; cbn [upd map list_sum fold_right nth_error] in *.
  - injection H as ->. lia.
  - specialize (IH _ H). unfold list_sum in IH. lia.
Qed.
Lemma total_set s c o t p p0 : nth_error (threads s) t = Some p0 -> (total (set s c o t p) + weight p0 = total s + weight p)%nat.
Proof. apply total_upd. Qed.
Lemma total_decreases k s l s' : step k s l s' -> productive l = true -> (total s' < total s)%nat.
Proof.
  intros HS HP. destruct HS; try discriminate HP;
    match goal with
    | |- context [upd (upd _ ?t Idle) ?t' _] => idtac
    | H0 : nth_error (threads s) ?t = Some ?p0 |- context [set s ?c ?o ?t ?p] => pose proof (total_set s c o t p p0 H0) as C1
    end; cbn [weight] in *; try lia.
  assert (N : t <> t') by congruence. assert (H1 : nth_error (upd (threads s) t Idle) t' = Some (PopBlocked timed)) by (now rewrite nth_upd_other).
  pose proof (total_upd (threads s) t _ Idle H) as C1. pose proof (total_upd _ t' _ (PopWoken timed false) H1) as C2. unfold total. cbn [threads weight] in *. lia.
Qed.
Lemma blocked_dec s : (exists t timed, nth_error (threads s) t = Some (PopBlocked timed)) \/ (forall t timed, nth_error (threads s) t <> Some (PopBlocked timed)).
Proof.
  destruct (count waiting s) as [|c] eqn:E.
  - right. intros t timed H. pose proof (count_pos waiting s t _ H eq_refl). lia.
  - left. destruct (count_ex waiting s ltac:(lia)) as (t & p & Hp & HW). destruct p; try discriminate. eauto.
Qed.
Lemma can_step k s : inv s -> (exists t p, nth_error (threads s) t = Some p /\ p <> Idle /\ waiting p = false) ->
  exists l s', productive l = true /\ step k s l s'.
Proof.
  intros I (t & p & Hp & NI & NW).
  assert (OWN : forall t0 p0, nth_error (threads s) t0 = Some p0 -> holds p0 = true -> exists l s', productive l = true /\ step k s l s').
  { intros t0 p0 H0 HH. pose proof (inv_sane s I _ _ H0) as HS. destruct p0; cbn in HH; try discriminate.
    - do 2 eexists. split; [|eapply s_push; exact H0]. reflexivity.
    - do 2 eexists. split; [|eapply s_push_unlock; exact H0]. reflexivity.
    - destruct (container s) as [|x c] eqn:EC.
      + destruct timed_out.
        * destruct timed; [|discriminate HS]. do 2 eexists. split; [|eapply s_pop_timed_out; [exact H0|exact EC]]. reflexivity.
        * do 2 eexists. split; [|eapply s_pop_wait; [exact H0|exact EC]]. reflexivity.
      + do 2 eexists. split; [|eapply s_pop_some; [exact H0|congruence]]. reflexivity.
    - destruct (container s) as [|x c] eqn:EC; [exfalso; now apply (inv_take s I _ _ H0)|]. do 2 eexists. split; [|eapply s_take; [exact H0|rewrite EC; reflexivity]]. reflexivity.
    - do 2 eexists. split; [|eapply s_pop_return; exact H0]. reflexivity.
    - do 2 eexists. split; [|eapply s_empty; exact H0]. reflexivity.
    - do 2 eexists. split; [|eapply s_empty_return; exact H0]. reflexivity.
    - do 2 eexists. split; [|eapply s_size; exact H0]. reflexivity.
    - do 2 eexists. split; [|eapply s_size_return; exact H0]. reflexivity. }
  destruct (owner s) as [t0|] eqn:EO.
  - destruct (inv_held s I _ EO) as (p0 & H0). apply (OWN t0 p0 H0). now apply (inv_owner s I _ _ H0).
  - pose proof (inv_sane s I _ _ Hp) as HS. destruct p; try congruence; try discriminate; try (eapply OWN; [exact Hp|reflexivity]).
    + do 2 eexists. split; [|eapply s_push_lock; [exact Hp|exact EO]]. reflexivity.
    + destruct (blocked_dec s) as [(t' & timed & H')|HN].
      * do 2 eexists. split; [|eapply s_notify; [exact Hp|exact H']]. reflexivity.
      * do 2 eexists. split; [|eapply s_notify_none; [exact Hp|exact HN]]. reflexivity.
    + do 2 eexists. split; [|eapply s_pop_lock; [exact Hp|exact EO]]. reflexivity.
    + do 2 eexists. split; [|eapply s_relock; [exact Hp|exact EO]]. reflexivity.
    + do 2 eexists. split; [|eapply s_empty_lock; [exact Hp|exact EO]]. reflexivity.
    + do 2 eexists. split; [|eapply s_size_lock; [exact Hp|exact EO]]. reflexivity.
Qed.
