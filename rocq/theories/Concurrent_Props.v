(** C34, C35: the concurrent queue and stack, for any number of threads and every interleaving. *)
From Coq Require Import Permutation.
From Verif Require Import Common Concurrent_Model Concurrent_Spec Concurrent_Proofs.

(** * C34 *)
(** At most one thread is in a critical section (so no data race on the container), and undefined
    behaviour (taking an item from an empty container) is never reached. *)
Theorem mutual_exclusion : forall k n h s, reaches k n h s ->
  (forall t t' p p', nth_error (threads s) t = Some p -> nth_error (threads s) t' = Some p' ->
     holds p = true -> holds p' = true -> t = t') /\
  (forall t, nth_error (threads s) t <> Some Broken).
Proof.
  intros k n h s H. pose proof (inv_reaches _ _ _ _ H) as I. split.
  - intros t t' p p' Hp Hp' HH HH'. apply (inv_owner s I _ _ Hp) in HH. apply (inv_owner s I _ _ Hp') in HH'. congruence.
  - intros t E. apply (inv_sane s I) in E. discriminate.
Qed.

(** Every history is linearizable. *)
Theorem histories_linearizable : forall k n h s, reaches k n h s -> linearizable k h (container s).
Proof.
  intros k n h s H. destruct (linearize _ _ _ _ H) as (a & E & HB & HL). exists a. split; [assumption|]. split; [|assumption]. intros t. exists (ph s t). apply HB.
Qed.
(** In a legal sequence of operations a queue gives its items back in the order of the pushes: what was
    popped, followed by what is still there, is what was pushed. *)
Theorem queue_first_in_first_out : forall ops c, legal Queue [] ops c -> pushed ops = popped ops ++ c.
Proof. intros ops c H. now apply legal_fifo in H. Qed.
(** A stack gives back the most recent item that is still there: whenever a pop returns an item, the items
    pushed since its push were all popped before, in the same manner. *)
Lemma balanced_app a b : balanced a -> balanced b -> balanced (a ++ b).
Proof.
  intros H HB. induction H as [|o r l H1 H2 H IH|v o l l' H1 IH1 H2 IH2]; [assumption|cbn [app]; now constructor|].
  cbn [app]. rewrite <- app_assoc. cbn [app]. now constructor.
Qed.
Fixpoint drains (a : list Z) (l : list (op * result)) : Prop :=
  match a with
  | [] => balanced l
  | x :: a' => exists l1 o l2, l = l1 ++ (o, RItem x) :: l2 /\ balanced l1 /\ drains a' l2
  end.
Lemma drains_prefix a l l' : balanced l -> drains a l' -> drains a (l ++ l').
Proof.
  intros HB. destruct a as [|x a]; cbn [drains]; [now apply balanced_app|]. intros (l1 & o & l2 & -> & H1 & H2).
  exists (l ++ l1), o, l2. split; [now rewrite <- app_assoc|]. split; [now apply balanced_app|assumption].
Qed.
Lemma drains_skip a o r l : (forall w, o <> OPush w) -> (forall w, r <> RItem w) -> drains a l -> drains a ((o, r) :: l).
Proof. intros N1 N2 HD. change ((o, r) :: l) with ([(o, r)] ++ l). apply drains_prefix; [|assumption]. constructor; [assumption|assumption|constructor]. Qed.
Lemma stack_drains : forall ops c0 c, legal Stack c0 ops c -> forall v c', c = v :: c' ->
    (exists a, c0 = a ++ v :: c' /\ drains a ops) \/
    (exists before between, ops = before ++ (OPush v, RUnit) :: between /\ legal Stack c0 before c' /\ balanced between).
Proof.
  induction 1 as [c|c0 o c1 ops c2 HS HL IH]; intros v c' E.
  - left. exists []. split; [assumption|constructor].
  - specialize (IH v c' E). destruct IH as [(a & EA & HA)|(before & between & EO & H1 & H2)].
    + inversion HS; try congruence; try (left; exists a; split; [congruence|apply drains_skip; [intros; discriminate|intros; discriminate|assumption]]).
      * destruct a as [|x a]; cbn [app] in EA.
        -- right. exists [], ops. assert (v0 = v /\ c = c') as [-> ->] by (split; congruence). split; [reflexivity|]. split; [|exact HA]. subst. constructor.
        -- left. exists a. assert (v0 = x /\ c = a ++ v :: c') as [-> ->] by (split; congruence). split; [congruence|].
           destruct HA as (l1 & o' & l2 & -> & B1 & D2). replace ((OPush x, RUnit) :: l1 ++ (o', RItem x) :: l2) with (((OPush x, RUnit) :: l1 ++ (o', RItem x) :: []) ++ l2) by (cbn [app]; rewrite <- app_assoc; reflexivity).
           apply drains_prefix; [|assumption]. constructor; [assumption|constructor].
      * left. exists (v0 :: a). split; [cbn [app]; congruence|]. exists [], OPop, ops. split; [reflexivity|]. split; [constructor|assumption].
      * left. exists (v0 :: a). split; [cbn [app]; congruence|]. exists [], OTimedPop, ops. split; [reflexivity|]. split; [constructor|assumption].
    + right. exists (o :: before), between. split; [now rewrite EO|]. split; [econstructor; eassumption|assumption].
Qed.
Theorem stack_last_in_first_out : forall ops o v c, legal Stack [] (ops ++ [(o, RItem v)]) c ->
  exists before between, ops = before ++ (OPush v, RUnit) :: between /\ legal Stack [] before c /\ balanced between.
Proof.
  assert (SP : forall c0 a b c, legal Stack c0 (a ++ b) c -> exists c1, legal Stack c0 a c1 /\ legal Stack c1 b c).
  { intros c0 a; revert c0; induction a as [|x a IH]; intros c0 b c H; [exists c0; split; [constructor|assumption]|]. inversion H; subst. destruct (IH _ _ _ H5) as (c1 & A & B). exists c1. split; [econstructor; eassumption|assumption]. }
  intros ops o v c H. apply SP in H. destruct H as (c1 & HL & H2). inversion H2 as [|? ? c2 ? ? HS HN]; subst. inversion HN; subst.
  assert (E : c1 = v :: c) by (inversion HS; reflexivity).
  destruct (stack_drains _ _ _ HL v c E) as [(a & EA & _)|H]; [destruct a; discriminate|assumption].
Qed.

(** Nothing is lost or duplicated: in every reachable state each item was given to push as often as it was
    returned by a pop, is in the container, or is in the hands of a thread inside push or pop. *)
Lemma occ_count_occ v l : occ v l = count_occ Z.eq_dec l v.
Proof.
  unfold occ. induction l as [|x l IH]; [reflexivity|]. cbn [filter count_occ]. destruct (Z.eq_dec x v) as [->|N]; [rewrite Z.eqb_refl; cbn [length]; now rewrite IH|].
  rewrite (proj2 (Z.eqb_neq v x)) by congruence. assumption.
Qed.
Theorem items_conserved : forall k n h s v, reaches k n h s ->
  push_calls h v = (pop_returns h v + count_occ Z.eq_dec (container s) v + held v s)%nat.
Proof.
  intros k n h s v H. rewrite (conservation _ _ _ _ v H), occ_count_occ.
  assert (E : held v s = (count (pushing v) s + count (returning v) s)%nat); [|lia].
  unfold held, count. induction (threads s) as [|p l IH]; [reflexivity|]. cbn [filter].
  destruct p; cbn [pushing returning orb]; try assumption; try (destruct (v0 =? v); cbn [orb length]; lia). destruct r; try assumption. destruct (v0 =? v); cbn [orb length]; lia.
Qed.
(** In particular no item is returned more often than it was pushed before; and when no call is in
    progress, what was pushed and not returned is in the container. *)
Corollary no_item_duplicated : forall k n h s v, reaches k n h s -> (pop_returns h v <= push_calls h v)%nat.
Proof. intros k n h s v H. rewrite (items_conserved _ _ _ _ v H). lia. Qed.
Corollary no_item_lost : forall k n h s v, reaches k n h s -> (forall t p, nth_error (threads s) t = Some p -> p = Idle) ->
  push_calls h v = (pop_returns h v + count_occ Z.eq_dec (container s) v)%nat.
Proof.
  intros k n h s v H HI. rewrite (items_conserved _ _ _ _ v H). assert (E : held v s = O); [|lia].
  unfold held. destruct (count _ s) eqn:EC; [reflexivity|]. destruct (count_ex (fun p => pushing v p || returning v p) s ltac:(lia)) as (t & p & Hp & HF). apply HI in Hp. subst. discriminate.
Qed.

(** * C35 *)
(** While a consumer is blocked, every item in the container has a producer that is still to notify, or a
    consumer that has been woken or is looking at the container. *)
Theorem items_have_wakers : forall k n h s t, reaches k n h s -> blocked s t ->
  (length (container s) <= count will_notify s + count will_look s)%nat.
Proof.
  intros k n h s t H (timed & Ht). apply (supplied_reaches _ _ _ _ H). now apply (count_pos waiting s t _ Ht).
Qed.
Theorem no_lost_wakeup : forall k n h s t, reaches k n h s -> blocked s t -> container s <> [] ->
  exists t' p, nth_error (threads s) t' = Some p /\ (will_notify p = true \/ will_look p = true).
Proof.
  intros k n h s t H HB HC. pose proof (items_have_wakers _ _ _ _ _ H HB) as L. assert (1 <= length (container s))%nat by (destruct (container s); [congruence|cbn; lia]).
  destruct (count will_notify s) eqn:E1.
  - destruct (count_ex will_look s ltac:(lia)) as (t' & p & Hp & HF). eauto 6.
  - destruct (count_ex will_notify s ltac:(lia)) as (t' & p & Hp & HF). eauto 6.
Qed.
(** Without new calls, spurious wake-ups and time-outs, every execution ends, after at most 8 steps per
    thread; there is no deadlock: it ends with every thread outside or blocked in a pop, and if one is
    blocked, the container is empty. *)
Theorem executions_end : forall k n h s j s', reaches k n h s -> run k s j s' -> (j <= 8 * n)%nat.
Proof.
  intros k n h s j s' H HR.
  assert (B : (total s <= 8 * n)%nat).
  { rewrite <- (threads_length _ _ _ _ H). unfold total. induction (threads s) as [|p l IH]; [cbn; lia|]. cbn [map list_sum fold_right length]. unfold list_sum in IH. assert (weight p <= 8)%nat by (destruct p; cbn; lia). lia. }
  assert (L : (j <= total s)%nat); [|lia]. clear B H. induction HR as [s|s l s' j s'' HS HP HR IH]; [lia|]. pose proof (total_decreases _ _ _ _ HS HP). lia.
Qed.
Theorem quiescent_means_served : forall k n h s, reaches k n h s -> quiescent k s ->
  (forall t p, nth_error (threads s) t = Some p -> p = Idle \/ blocked s t) /\
  (forall t, blocked s t -> container s = []).
Proof.
  intros k n h s H HQ. pose proof (inv_reaches _ _ _ _ H) as I.
  assert (A : forall t p, nth_error (threads s) t = Some p -> p = Idle \/ waiting p = true).
  { intros t p Hp. destruct (waiting p) eqn:EW; [now right|]. left.
    assert (D : p = Idle \/ p <> Idle) by (destruct p; (left; reflexivity) || (right; discriminate)).
    destruct D as [E|N]; [assumption|]. destruct (can_step k s I) as (l & s' & HP & HS); [exists t, p; auto|]. apply HQ in HS. congruence. }
  split.
  - intros t p Hp. destruct (A _ _ Hp) as [E|E]; [now left|]. right. destruct p; try discriminate. now exists timed.
  - intros t HB. destruct (container s) as [|x c] eqn:E; [reflexivity|]. exfalso.
    destruct (no_lost_wakeup _ _ _ _ _ H HB) as (t' & p & Hp & HF); [congruence|]. destruct (A _ _ Hp) as [->|HW]; [destruct HF; discriminate|]. destruct p; try discriminate. destruct HF; discriminate.
Qed.
(** So a quiescent state is always reached, in a bounded number of steps. *)
Theorem quiescence_reached : forall k n h s, reaches k n h s -> exists j s', run k s j s' /\ quiescent k s'.
Proof.
  intros k n h s H. remember (total s) as m eqn:EM. revert h s H EM. induction m as [m IH] using lt_wf_ind. intros h s H EM.
  assert (D : (exists t p, nth_error (threads s) t = Some p /\ p <> Idle /\ waiting p = false) \/ (forall t p, nth_error (threads s) t = Some p -> p = Idle \/ waiting p = true)).
  { clear. induction (threads s) as [|p l IHl]; [right; intros [|t] p Hp; discriminate|].
    assert (D : (p = Idle \/ waiting p = true) \/ (p <> Idle /\ waiting p = false)) by (destruct p; try (now left; left); try (now left; right); right; (split; [discriminate|reflexivity])).
    destruct D as [D|D]; [|left; exists O, p; auto]. destruct IHl as [(t & p' & Hp & Hn)|HA]; [left; exists (S t), p'; auto|].
    right. intros [|t] p' Hp; [injection Hp as <-; assumption|]. exact (HA t p' Hp). }
  destruct D as [D|D].
  - destruct (can_step k s (inv_reaches _ _ _ _ H) D) as (l & s' & HP & HS). pose proof (total_decreases _ _ _ _ HS HP) as HT.
    destruct (IH (total s') ltac:(lia) _ s' (r_step _ _ _ _ _ _ H HS) eq_refl) as (j & s'' & HR & HQ). exists (S j), s''. split; [econstructor; eassumption|assumption].
  - exists O, s. split; [constructor|]. intros l s' HS. destruct HS; try (exfalso; match goal with H0 : nth_error (threads s) _ = Some PushNotify |- _ => destruct (D _ _ H0); discriminate end);
      match goal with H0 : nth_error (threads s) ?t = Some ?p |- _ => destruct (D t p H0) as [?|?]; try discriminate; try reflexivity end.
Qed.

(** * A concrete execution: thread 1 blocks in pop, thread 0 pushes 7 and notifies, thread 1 returns 7. *)
Example sample_execution : exists s, reaches Queue 2 [Call 1 OPop; Call 0 (OPush 7); Ret 0 RUnit; Ret 1 (RItem 7)] s /\
  container s = [] /\ threads s = [Idle; Idle].
Proof.
  eexists. split; [|split].
  - change [Call 1 OPop; Call 0 (OPush 7); Ret 0 RUnit; Ret 1 (RItem 7)] with (([] ++ [Call 1 OPop]) ++ [Call 0 (OPush 7)] ++ [Ret 0 RUnit] ++ [Ret 1 (RItem 7)]). rewrite !app_assoc.
    refine (r_step _ _ _ _ (Visible _) _ _ (s_pop_return _ _ 1%nat (RItem 7) _)).
    refine (r_step _ _ _ _ Internal _ _ (s_take _ _ 1%nat false 7 [] _ _)).
    refine (r_step _ _ _ _ Internal _ _ (s_pop_some _ _ 1%nat false false _ _)).
    refine (r_step _ _ _ _ Internal _ _ (s_relock _ _ 1%nat false false _ _)).
    refine (r_step _ _ _ _ (Visible _) _ _ (s_notify _ _ 0%nat 1%nat false _ _)).
    refine (r_step _ _ _ _ Internal _ _ (s_push_unlock _ _ 0%nat _)).
    refine (r_step _ _ _ _ Internal _ _ (s_push _ _ 0%nat 7 _)).
    refine (r_step _ _ _ _ Internal _ _ (s_push_lock _ _ 0%nat 7 _ _)).
    refine (r_step _ _ _ _ (Visible _) _ _ (s_call _ _ 0%nat (OPush 7) _)).
    refine (r_step _ _ _ _ Internal _ _ (s_pop_wait _ _ 1%nat false _ _)).
    refine (r_step _ _ _ _ Internal _ _ (s_pop_lock _ _ 1%nat false _ _)).
    refine (r_step _ _ _ _ (Visible _) _ _ (s_call _ _ 1%nat OPop _)).
    exact (r_initial _ _).
    all: try reflexivity. cbn. discriminate.
  - reflexivity.
  - reflexivity.
Qed.
(** A state with an item and a blocked consumer is reachable: before thread 0 notifies. *)
Example sample_blocked : exists h s, reaches Queue 2 h s /\ container s = [7] /\ blocked s 1.
Proof.
  do 2 eexists. split; [|split].
  - refine (r_step _ _ _ _ Internal _ _ (s_push_unlock _ _ 0%nat _)).
    refine (r_step _ _ _ _ Internal _ _ (s_push _ _ 0%nat 7 _)).
    refine (r_step _ _ _ _ Internal _ _ (s_push_lock _ _ 0%nat 7 _ _)).
    refine (r_step _ _ _ _ (Visible _) _ _ (s_call _ _ 0%nat (OPush 7) _)).
    refine (r_step _ _ _ _ Internal _ _ (s_pop_wait _ _ 1%nat false _ _)).
    refine (r_step _ _ _ _ Internal _ _ (s_pop_lock _ _ 1%nat false _ _)).
    refine (r_step _ _ _ _ (Visible _) _ _ (s_call _ _ 1%nat OPop _)).
    exact (r_initial _ _).
    all: reflexivity.
  - reflexivity.
  - exists false. reflexivity.
Qed.
