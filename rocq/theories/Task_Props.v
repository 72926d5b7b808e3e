(** Theorems for C36 (sequenced task runners) and C37 (parallel and delayed tasks). *)
From Verif Require Import Common Concurrent_Model Concurrent_Proofs Task_Model Task_Spec Task_Proofs Task_Live.
Local Open Scope nat_scope.

Lemma sumf_two {A} (f : A -> nat) l a b x y : nth_error l a = Some x -> nth_error l b = Some y -> a <> b -> f x + f y <= sumf f l.
Proof.
  revert a b; induction l as [|z l IH]; intros [|a] [|b] HA HB N; try discriminate; cbn [nth_error] in *; rewrite sumf_cons; try congruence.
  - injection HA as ->. apply nth_error_In, (sumf_pos f) in HB. lia.
  - injection HB as ->. apply nth_error_In, (sumf_pos f) in HA. lia.
  - specialize (IH _ _ HA HB ltac:(congruence)). lia.
Qed.
Lemma count_nodup l : (forall i, sumf (eqn i) l <= 1) -> NoDup l.
Proof.
  induction l as [|i l IH]; intros H; constructor.
  - intros HI. specialize (H i). apply (sumf_pos (eqn i)) in HI. rewrite sumf_cons in H. assert (E : eqn i i = 1) by (unfold eqn; now rewrite Nat.eqb_refl). lia.
  - apply IH. intros j. specialize (H j). rewrite sumf_cons in H. lia.
Qed.
Lemma count_pairs i l : sumf (fun e : nat * nat => eqn i (snd e)) l = 0 \/ exists r, In (r, i) l.
Proof.
  destruct (sumf (fun e : nat * nat => eqn i (snd e)) l) eqn:E; [auto|]. right. destruct (sumf_exists (fun e : nat * nat => eqn i (snd e)) l) as ((r & j) & HI & HP); [lia|].
  cbn [snd] in HP. unfold eqn in HP. destruct (Nat.eqb_spec j i); [subst; eauto|lia].
Qed.
Lemma sub_in {A} (a b : list A) x : subsequence a b -> In x a -> In x b.
Proof. induction 1; cbn [In]; intuition. Qed.
Lemma sub_before {A} (a b : list A) : subsequence a b -> forall u v w x y, a = u ++ x :: v ++ y :: w -> exists u' v' w', b = u' ++ x :: v' ++ y :: w'.
Proof.
  assert (Q : forall a b : list A, subsequence a b -> forall v w y, a = v ++ y :: w -> exists v' w', b = v' ++ y :: w').
  { clear. induction 1 as [|x a b H IH|x a b H IH]; intros v w y E.
    - destruct v; discriminate.
    - destruct v as [|z v]; injection E as -> E; [exists [], b; reflexivity|]. destruct (IH _ _ _ E) as (v' & w' & ->). exists (z :: v'), w'. reflexivity.
    - destruct (IH _ _ _ E) as (v' & w' & ->). exists (x :: v'), w'. reflexivity. }
  induction 1 as [|z a b H IH|z a b H IH]; intros u v w x y E.
  - destruct u; discriminate.
  - destruct u as [|z' u]; injection E as -> E.
    + destruct (Q _ _ H _ _ _ E) as (v' & w' & ->). exists [], v', w'. reflexivity.
    + destruct (IH _ _ _ _ _ E) as (u' & v' & w' & ->). exists (z' :: u'), v', w'. reflexivity.
  - destruct (IH _ _ _ _ _ E) as (u' & v' & w' & ->). exists (z :: u'), v', w'. reflexivity.
Qed.
Lemma two_in {A} (l : list A) x y : In x l -> In y l -> x <> y -> (exists u v w, l = u ++ x :: v ++ y :: w) \/ (exists u v w, l = u ++ y :: v ++ x :: w).
Proof.
  intros HX HY N. apply in_split in HX as (u & w & ->). apply in_app_or in HY as [H|[H|H]]; [|congruence|].
  - apply in_split in H as (a & b & ->). right. exists a, b, w. now rewrite <- app_assoc.
  - apply in_split in H as (a & b & ->). left. exists u, a, b. reflexivity.
Qed.

Section Props.
Variable n : nat.
Variable kinds : list runner_kind.

(** ** C36 *)

(** One at a time: no two workers ever execute tasks of the same sequenced runner. *)
Theorem sequenced_one_at_a_time s r w w' i i' : reaches n kinds s -> is_sequenced s r -> executing s w r i -> executing s w' r i' -> w = w' /\ i = i'.
Proof.
  intros HR (x & HX & HK) H H'. apply (reaches_inv n kinds) in HR. destruct (i_tokens _ _ _ HR _ _ HX HK) as (T & _). unfold executing in *.
  destruct (Nat.eqb_spec w w') as [<-|N]; [split; congruence|]. exfalso.
  pose proof (sumf_two (in_run (isr r)) _ _ _ _ _ H H' N) as S2. cbn [in_run] in S2. rewrite !isr_same in S2. unfold tokens in T. lia.
Qed.
(** A task of a sequenced runner starts only after the previous one has finished: the log of starts is the
    log of ends, plus at most the task being executed. *)
Theorem sequenced_start_after_end s r : reaches n kinds s -> is_sequenced s r ->
  tasks_of r (start_log s) = tasks_of r (finished s) \/ exists w i, executing s w r i /\ tasks_of r (start_log s) = tasks_of r (finished s) ++ [i].
Proof.
  intros HR (x & HX & HK). apply (reaches_inv n kinds) in HR. destruct (i_tokens _ _ _ HR _ _ HX HK) as (T & _). destruct (i_order _ _ _ HR _ _ HX HK) as (_ & R).
  change (tasks_of r (start_log s)) with (started_of s r). pose proof (flights_length s r) as FL. destruct (runs r (workers s)) as [|i [|j l]] eqn:E; cbn [length] in FL; [left; now rewrite R, app_nil_r| |lia].
  right. assert (HI : In i (runs r (workers s))) by (rewrite E; left; reflexivity). unfold runs in HI. rewrite tasks_of_in in HI. apply in_flat_map in HI as (p & HP & HI).
  apply In_nth_error in HP as (w & HW). destruct p; try contradiction. destruct HI as [->|[]]. exists w, i. auto.
Qed.
(** In posting order: the tasks of a sequenced runner that were started are, in the order in which they were
    started, a subsequence of the accepted ones in the order in which they were accepted ... *)
Theorem sequenced_in_order s r : reaches n kinds s -> is_sequenced s r -> subsequence (tasks_of r (start_log s)) (tasks_of r (accepted s)).
Proof.
  intros HR (x & HX & HK). apply (reaches_inv n kinds) in HR. destruct (i_order _ _ _ HR _ _ HX HK) as ((L & _) & _).
  eapply sub_trans; [|exact L]. rewrite <- (app_nil_r (tasks_of r (start_log s))). apply sub_app; [apply sub_refl|apply sub_empty].
Qed.
(** ... and as long as stop() has not been called and the runner lives, none is left out. *)
Theorem sequenced_none_left_out s r : reaches n kinds s -> is_sequenced s r -> ever_stopped s = false -> alive s r ->
  exists waiting, tasks_of r (accepted s) = tasks_of r (start_log s) ++ waiting.
Proof.
  intros HR (x & HX & HK) HE (x' & HX' & EX). apply (reaches_inv n kinds) in HR. destruct (i_order _ _ _ HR _ _ HX HK) as ((_ & L) & _).
  rewrite HX in HX'. injection HX' as <-. rewrite <- (L (conj HE EX)). eauto.
Qed.
(** Acceptance is in posting order: tasks posted with post_task are numbered in the order in which their
    posts locked the runner's mutex, and start in that order. *)
Theorem sequenced_direct_posts_in_order s r i j : reaches n kinds s -> is_sequenced s r -> immediate s i -> immediate s j -> i < j ->
  In i (tasks_of r (start_log s)) -> In j (tasks_of r (start_log s)) -> exists a b c, tasks_of r (start_log s) = a ++ i :: b ++ j :: c.
Proof.
  intros HR HQ Hi Hj L Ii Ij. pose proof (sequenced_in_order s r HR HQ) as HO. destruct HQ as (x & HX & HK). apply (reaches_inv n kinds) in HR. destruct (i_sorted _ _ _ HR) as (_ & S2).
  destruct (S2 _ _ HX HK) as (S & _). destruct (two_in _ _ _ Ii Ij ltac:(lia)) as [?|(u & v & w & E)]; [assumption|]. exfalso.
  destruct (sub_before _ _ HO _ _ _ _ _ E) as (u' & v' & w' & E'). specialize (S _ _ _ _ _ E' Hj Hi). lia.
Qed.

(** ** C37 *)

(** No task is executed twice. *)
Theorem executed_at_most_once s : reaches n kinds s -> NoDup (map snd (start_log s)).
Proof.
  intros HR. apply (reaches_inv n kinds) in HR. apply count_nodup. intros i. rewrite sumf_map.
  assert (HC : forall l1 l2 : list (nat * nat), (forall r j, sumf (eqe r j) l1 <= sumf (eqe r j) l2) -> sumf (fun e => eqn i (snd e)) l1 <= sumf (fun e => eqn i (snd e)) l2).
  { assert (RM : forall r j (l : list (nat * nat)), In (r, j) l -> exists l', (forall f : nat * nat -> nat, sumf f l = f (r, j) + sumf f l')).
    { intros r j l H. apply in_split in H as (u & v & ->). exists (u ++ v). intros f. rewrite !sumf_app, sumf_cons. lia. }
    induction l1 as [|(r & j) l1 IH]; intros l2 H; [rewrite sumf_nil; lia|].
    destruct (RM r j l2) as (l' & HL). { apply sumf_in. specialize (H r j). rewrite sumf_cons, eqe_pos in H. lia. }
    rewrite (HL (fun e => eqn i (snd e))), sumf_cons. specialize (IH l'). enough (sumf (fun e => eqn i (snd e)) l1 <= sumf (fun e => eqn i (snd e)) l') by lia.
    apply IH. intros r' j'. specialize (H r' j'). rewrite sumf_cons, (HL (eqe r' j')) in H. lia. }
  specialize (HC (start_log s) (accepted s)). destruct (i_once _ _ _ HR i) as (O & _). unfold known in O.
  enough (sumf (fun e => eqn i (snd e)) (start_log s) <= sumf (fun e => eqn i (snd e)) (accepted s)) by lia.
  apply HC. intros r j. destruct (i_flow _ _ _ HR r j) as (F & _). unfold whereabouts in F. unfold start_log. lia.
Qed.
(** Only tasks that were posted, and on the runner they were posted to. *)
Theorem executed_was_accepted s r i : reaches n kinds s -> In (r, i) (start_log s) -> In (r, i) (accepted s).
Proof.
  intros HR H. apply (reaches_inv n kinds) in HR. eapply flow_accepted; [apply HR|]. unfold whereabouts. apply sumf_in in H. unfold start_log in H. lia.
Qed.
(** A task posted with a delay [d] at time [T] does not start before [T + d]. *)
Theorem delayed_not_before s r i t T d : reaches n kinds s -> In (r, i, t) (started s) -> In (i, T, d) (deadlines s) -> (T + d <= t)%Z.
Proof. intros HR H1 H2. apply (reaches_inv n kinds) in HR. destruct (i_delay _ _ _ HR) as (_ & _ & _ & D & _). eauto. Qed.
(** After stop() has returned no task is being executed, and none is started until start() is called. *)
Theorem none_after_stop s s' : reaches n kinds s -> phase s = Stopped -> steps_stopped n s s' ->
  started s' = started s /\ finished s' = finished s /\ forall w r i, ~ executing s' w r i.
Proof.
  intros HR HP HS. assert (HI := reaches_inv n kinds s HR). clear HR.
  assert (HE : forall z, inv n kinds z -> phase z = Stopped -> forall w r i, ~ executing z w r i).
  { intros z HZ EZ w r i H. destruct (i_phase _ _ _ HZ) as (_ & _ & P3 & _). destruct (P3 EZ) as (F & _). unfold executing in H. apply (exited_nth _ _ _ F) in H. discriminate H. }
  enough (HG : inv n kinds s' /\ phase s' = Stopped /\ started s' = started s /\ finished s' = finished s).
  { destruct HG as (G1 & G2 & G3 & G4). split; [assumption|]. split; [assumption|now apply HE]. }
  induction HS as [s _|s s1 s2 _ IH HS HP2]; [auto|]. destruct (IH HP HI) as (G1 & G2 & G3 & G4). split; [eauto using inv_step|]. split; [assumption|]. split.
  - rewrite <- G3. destruct (started_step _ _ _ HS) as [E|(w & r & i & HW & _)]; [assumption|]. destruct (i_phase _ _ _ G1) as (_ & _ & P3 & _). destruct (P3 G2) as (F & _). apply (exited_nth _ _ _ F) in HW. discriminate HW.
  - rewrite <- G4. destruct (i_phase _ _ _ G1) as (_ & _ & P3 & _). destruct (P3 G2) as (F & _). clear - HS F. split_step HS; try reflexivity.
    match goal with H : nth_error _ _ = _ |- _ => apply (exited_nth _ _ _ F) in H; discriminate H end.
Qed.
(** Nothing is lost: as long as stop() has not been called, a task accepted for a live runner has been started, or
    is in the manager's queue, or with a worker about to start it, or waits in the runner; and there is a
    continuation, with no new call, in which all the accepted tasks of live runners are finished. *)
Theorem accepted_not_lost s r i : reaches n kinds s -> ever_stopped s = false -> alive s r -> In (r, i) (accepted s) ->
  In (r, i) (start_log s) \/ In (r, i) (tasks s) \/ (exists w, nth_error (workers s) w = Some (WGot (r, i)) \/ nth_error (workers s) w = Some (WLock (r, i))) \/
  (exists x, nth_error (runners s) r = Some x /\ In i (pending x)).
Proof.
  intros HR HE HL HA. apply (reaches_inv n kinds) in HR. destruct (i_flow _ _ _ HR r i) as (_ & F & _). specialize (F HE HL). apply sumf_in in HA. rewrite <- F in HA. unfold whereabouts in HA.
  change (map fst (started s)) with (start_log s) in HA.
  assert (HC : 0 < sumf (eqe r i) (start_log s) \/ 0 < sumf (eqe r i) (tasks s) \/ 0 < sumf (in_hand (eqe r i)) (workers s) \/ 0 < pend_in (runners s) r i) by lia.
  destruct HC as [C|[C|[C|C]]].
  - left. now apply sumf_in.
  - right; left. now apply sumf_in.
  - right; right; left. apply sumf_exists in C as (p & HI & HP). apply In_nth_error in HI as (w & HW). exists w. unfold in_hand, eqe in HP.
    destruct p as [| |(r' & i')|(r' & i')|e|r'|r'|]; cbn [fst snd] in HP; try lia; destruct (Nat.eqb_spec r' r), (Nat.eqb_spec i' i); cbn [andb] in HP; try lia; subst; auto.
  - right; right; right. unfold pend_in in C. destruct (nth_error (runners s) r) as [x|]; [|lia]. exists x. split; [reflexivity|].
    apply sumf_exists in C as (j & HI & HP). unfold eqe in HP. cbn [fst snd] in HP. destruct (Nat.eqb_spec r r), (Nat.eqb_spec j i); cbn [andb] in HP; try lia. now subst.
Qed.
Theorem accepted_can_finish s : reaches n kinds s -> ever_stopped s = false -> 0 < n ->
  exists s', steps n s s' /\ next s' = next s /\ ever_stopped s' = false /\ map expired (runners s') = map expired (runners s) /\ clock s' = clock s /\
    (exists a, accepted s' = accepted s ++ a) /\ forall r i, In (r, i) (accepted s') -> alive s' r -> In (r, i) (finished s').
Proof.
  intros HR HE HN. apply (reaches_inv n kinds) in HR. destruct (drain n kinds s HR HE HN) as (s' & HS & (E1 & E2 & E3 & E4 & E5 & E6) & (Q1 & Q2 & Q3 & Q4 & Q5) & HT).
  exists s'. repeat split; try assumption; try congruence. eapply settled_finished; [eapply steps_inv; eassumption|congruence|assumption].
Qed.
(** The same for delayed tasks: as long as stop() has not been called, a delayed post that was taken, for a live
    runner, is waiting to be posted (by the caller, or by the timer) or has been accepted by the runner; and there
    is a continuation, with no new call, in which all of them (and all the accepted tasks) are finished. *)
Theorem delayed_not_lost s r i : reaches n kinds s -> ever_stopped s = false -> alive s r -> In (r, i) (delay_log s) ->
  (exists t, In (r, i, t) (limbo s) \/ In (r, i, t) (delayed s)) \/ (exists x h, nth_error (runners s) r = Some x /\ hold x = Some h /\ queue_up h = Some i) \/ In (r, i) (accepted s).
Proof.
  intros HR HE HL HD. destruct (reaches_taken n kinds s HR HE r i HD HL) as [H|[H|(x & HX & H)]]; auto.
  right; left. unfold to_queue in H. destruct (hold x) as [h|] eqn:EH; [|destruct H]. destruct (queue_up h) as [j|] eqn:EQ; [|destruct H]. destruct H as [->|[]]. eauto.
Qed.
Theorem delayed_can_finish s : reaches n kinds s -> ever_stopped s = false -> 0 < n ->
  exists s', steps n s s' /\ next s' = next s /\ ever_stopped s' = false /\ map expired (runners s') = map expired (runners s) /\ delay_log s' = delay_log s /\
    forall r i, In (r, i) (delay_log s) \/ In (r, i) (accepted s) -> alive s r -> In (r, i) (finished s').
Proof.
  intros HR HE HN. destruct (finish_delayed n kinds s (reaches_inv _ _ _ HR) (reaches_taken _ _ _ HR) HE HN) as (s' & H1 & (E1 & E2 & _ & _ & E5 & _) & H3 & H4).
  exists s'. repeat split; try assumption. congruence.
Qed.
(** stop() does not deadlock: while it waits for the threads there is a continuation, with no new call, in which
    it returns. *)
Theorem stop_can_return s : reaches n kinds s -> phase s = Stopping -> exists s', steps n s s' /\ next s' = next s /\ phase s' = Stopped.
Proof. intros HR HP. apply (reaches_inv n kinds) in HR. eapply stop_returns; eassumption. Qed.

(** ** A sequenced runner does not survive a restart of its manager *)

(** The runner believes that a task of its is in the manager's hands, but there is none. *)
Definition abandoned (s : state) (r : nat) : Prop := exists x, nth_error (runners s) r = Some x /\ kind_of x = Sequenced /\ flag_after x = true /\ tokens s r = 0.
Lemma begun_stuck s r x who i x' tq aq : begun s r x who (Some i) x' tq aq -> hold x = None -> flag_after x = true -> kind_of x' = kind_of x /\ flag_after x' = true /\ tq = [].
Proof.
  intros HB HH HF. destruct (flag_free _ HH) as (EF & _). rewrite EF in HF.
  inversion HB; subst; try match goal with H : _ \/ _ |- _ => destruct H end; try congruence. unfold flag_after. cbn. auto.
Qed.
Lemma abandoned_forever s s' r : inv n kinds s -> abandoned s r -> step n s s' -> abandoned s' r /\ tasks_of r (start_log s') = tasks_of r (start_log s).
Proof.
  intros HI (x0 & HX & HK & HF & HT) HS. assert (HI' := inv_step _ _ _ _ HI HS).
  pose proof (i_phase _ _ _ HI) as (P1 & P2 & P3 & P4 & P5). unfold tokens in HT.
  assert (A1 : sumf (isr r) (tasks s) = 0) by lia. assert (A2 : sumf (in_hand (isr r)) (workers s) = 0) by lia. assert (A3 : sumf (in_run (isr r)) (workers s) = 0) by lia. assert (A4 : sumf (done r) (workers s) = 0) by lia. clear HT.
  assert (WK : forall w p, nth_error (workers s) w = Some p -> in_hand (isr r) p = 0 /\ in_run (isr r) p = 0 /\ done r p = 0).
  { intros w p HW. apply nth_error_In in HW. repeat split; [apply (sumf_pos (in_hand (isr r))) in HW|apply (sumf_pos (in_run (isr r))) in HW|apply (sumf_pos (done r)) in HW]; lia. }
  unfold abandoned, tokens, start_log. split_step HS;
  try match goal with |- context [if keep ?z then _ else _] => let E := fresh in destruct (keep z) eqn:E end;
  repeat match goal with
  | H : nth_error (workers s) ?w = Some _ |- context [upd (workers s) ?w ?p] =>
    let h := fresh "U" in let g := fresh "U" in let k := fresh "U" in
    destruct (WK _ _ H) as (? & ? & ?);
    pose proof (sumf_upd (in_hand (isr r)) (workers s) w _ p H) as h; pose proof (sumf_upd (in_run (isr r)) (workers s) w _ p H) as g;
    pose proof (sumf_upd (done r) (workers s) w _ p H) as k;
    cbn [in_hand in_run done] in *; revert h g k;
    generalize (sumf (in_hand (isr r)) (upd (workers s) w p)); generalize (sumf (in_run (isr r)) (upd (workers s) w p)); generalize (sumf (done r) (upd (workers s) w p)); intros ? ? ? h g k
  end.
  all: try (split; [exists x0; repeat split; try assumption; lia|reflexivity]; fail).
  all: assert (HU : forall r1 x1 x2, nth_error (runners s) r1 = Some x1 -> (r1 = r -> kind_of x2 = Sequenced /\ flag_after x2 = true) -> exists y, nth_error (upd (runners s) r1 x2) r = Some y /\ kind_of y = Sequenced /\ flag_after y = true)
    by (intros r1 x1 x2 HH1 HH2; destruct (Nat.eqb_spec r1 r) as [->|N]; [rewrite (nth_upd_same _ _ _ _ HH1); eauto|rewrite nth_upd_other by assumption; eauto]).
  all: rewrite ?sumf_app.
  all: try (destruct (HU _ _ (Runner (kind_of x) (pending x ++ to_queue x) (flag_after x) None (expired x)) ltac:(eassumption)) as (y & HY1 & HY2 & HY3);
    [intros ->; replace x with x0 by congruence; auto|split; [exists y; repeat split; try assumption; lia|reflexivity]]; fail).
  all: try (destruct (HU _ _ (Runner (kind_of x) (pending x) (has_running x) None true) ltac:(eassumption)) as (y & HY1 & HY2 & HY3);
    [intros ->; replace x with x0 in * by congruence; split; [assumption|]; match goal with H : hold _ = None |- _ => destruct (flag_free _ H) as (EF & _) end; rewrite <- HF, EF; reflexivity|split; [exists y; repeat split; try assumption; lia|reflexivity]]; fail).
  all: try (assert (N : r0 <> r) by congruence; split; [exists x0; repeat split; try assumption|reflexivity]; destruct HA as [(-> & _)|(-> & _)]; rewrite ?sumf_cons, ?sumf_nil, ?isr_other by assumption; lia).
  all: try (destruct (begun_tokens _ _ _ _ _ _ _ _ HB r) as (ET & EK & EX)).
  - destruct (HU _ _ x' ltac:(eassumption)) as (y & HY1 & HY2 & HY3).
    + intros ->. replace x with x0 in * by congruence. destruct (begun_stuck _ _ _ _ _ _ _ _ HB ltac:(assumption) HF) as (? & ? & _). split; [congruence|assumption].
    + split; [exists y; repeat split; try assumption|reflexivity]. rewrite ET. destruct (Nat.eqb_spec r0 r) as [->|N]; [|lia].
      replace x with x0 in * by congruence. destruct (begun_stuck _ _ _ _ _ _ _ _ HB ltac:(assumption) HF) as (_ & _ & ->). rewrite sumf_nil. lia.
  - rewrite H0, sumf_cons in A1. split; [exists x0; repeat split; try assumption; lia|reflexivity].
  - split; [exists x0; repeat split; try assumption; lia|]. rewrite map_app, tasks_of_app. cbn [map fst]. destruct (Nat.eqb_spec r0 r) as [->|N]; [rewrite isr_same in *; lia|]. rewrite tasks_of_other by assumption. apply app_nil_r.
  - change (eqn r r0) with (isr r (r0, i)) in U1. split; [exists x0; repeat split; try assumption; lia|reflexivity].
  - assert (N : r0 <> r). { intros ->. unfold eqn in *. rewrite Nat.eqb_refl in *. lia. }
    destruct (HU _ _ x' ltac:(eassumption)) as (y & HY1 & HY2 & HY3); [congruence|]. split; [exists y; repeat split; try assumption|reflexivity]. rewrite ET. destruct (Nat.eqb_spec r0 r); [congruence|lia].
  - destruct (HU _ _ x' ltac:(eassumption)) as (y & HY1 & HY2 & HY3).
    + intros ->. replace x with x0 in * by congruence. destruct (begun_stuck _ _ _ _ _ _ _ _ HB ltac:(assumption) HF) as (? & ? & _). split; [congruence|assumption].
    + split; [exists y; repeat split; try assumption|reflexivity]. rewrite ET. destruct (Nat.eqb_spec r0 r) as [->|N]; [|lia].
      replace x with x0 in * by congruence. destruct (begun_stuck _ _ _ _ _ _ _ _ HB ltac:(assumption) HF) as (_ & _ & ->). rewrite sumf_nil. lia.
  - split; [exists x0; repeat split; try assumption|reflexivity]. rewrite (in_hand_zero _ _ (repeat_all n)), (in_run_zero _ _ (repeat_all n)), (done_zero _ _ (repeat_all n)). lia.
Qed.
(** No continuation, whatever is called, starts another task of such a runner. *)
Lemma abandoned_stays s s' r : inv n kinds s -> abandoned s r -> steps n s s' -> abandoned s' r /\ tasks_of r (start_log s') = tasks_of r (start_log s).
Proof.
  intros HI HA HS. induction HS as [s|s s1 s2 HS1 IH HS]; [auto|]. destruct (IH HI HA) as (A1 & E1). destruct (abandoned_forever s1 s2 r (steps_inv _ _ _ _ HI HS1) A1 HS) as (A2 & E2). split; [assumption|congruence].
Qed.
End Props.

(** ** Examples: reachable states that meet the hypotheses *)
Lemma go n kinds s s' (P : Prop) : reaches n kinds s -> step n s s' -> (reaches n kinds s' -> P) -> P.
Proof. intros R H K. exact (K (r_step n kinds s s' R H)). Qed.
Ltac start n kinds R := pose proof (r_initial n kinds) as R; unfold initial in R; cbn [repeat map] in R.
Tactic Notation "next" ident(R) uconstr(c) := eapply (go _ _ _ _ _ R); [eapply c; first [reflexivity|lia|repeat constructor]|]; clear R; intro R;
  cbv beta iota zeta delta -[Z.add Z.le Z.lt] in R.
(** Two workers, a sequenced and a parallel runner; tasks 0 and 2 are posted on the first, 1 on the second; 0 and 1
    are executing. *)
Example reachable_running : exists s, reaches 2 [Sequenced; Parallel] s /\ is_sequenced s 0 /\ executing s 0 0 0 /\ executing s 1 1 1 /\
  tasks_of 0 (accepted s) = [0; 2] /\ tasks_of 0 (start_log s) = [0] /\ ever_stopped s = false /\ alive s 0 /\ immediate s 0 /\ immediate s 2.
Proof.
  start 2 [Sequenced; Parallel] R. next R (c_post_sequenced 2 _ 0). next R (c_post_end 2 _ 0). next R (c_post_parallel 2 _ 1).
  next R (w_loop 2 _ 0). next R (w_loop 2 _ 1). next R (w_pop 2 _ 0). next R (w_pop 2 _ 1). next R (w_check 2 _ 0). next R (w_check 2 _ 1).
  next R (w_start 2 _ 1). next R (w_start 2 _ 0). next R (c_post_sequenced 2 _ 0). next R (c_post_end 2 _ 0).
  eexists. split; [exact R|]. split; [now eexists; split|]. do 5 (split; [reflexivity|]). split; [now eexists; split|]. split; now intros ? ? [].
Qed.
(** Both tasks of a sequenced runner have run, the second after the first. *)
Example reachable_both : exists s, reaches 1 [Sequenced] s /\ is_sequenced s 0 /\ tasks_of 0 (start_log s) = [0; 1] /\ finished s = [(0, 0); (0, 1)].
Proof.
  start 1 [Sequenced] R. next R (c_post_sequenced 1 _ 0). next R (c_post_end 1 _ 0). next R (c_post_sequenced 1 _ 0). next R (c_post_end 1 _ 0).
  next R (w_loop 1 _ 0). next R (w_pop 1 _ 0). next R (w_check 1 _ 0). next R (w_start 1 _ 0). next R (w_finish 1 _ 0). next R (w_complete_sequenced 1 _ 0). next R (w_complete_end 1 _ 0).
  next R (w_loop 1 _ 0). next R (w_pop 1 _ 0). next R (w_check 1 _ 0). next R (w_start 1 _ 0). next R (w_finish 1 _ 0).
  eexists. split; [exact R|]. split; [now eexists; split|]. split; reflexivity.
Qed.
(** A task posted with delay 5 at time 0 is executed at time 7. *)
Example reachable_delayed : exists s, reaches 1 [Parallel] s /\ In (0, 0, 7%Z) (started s) /\ In (0, 0%Z, 5%Z) (deadlines s).
Proof.
  start 1 [Parallel] R. eapply (go _ _ _ _ _ R); [eapply (c_delay 1 _ 0 _ 5); reflexivity|]. clear R; intro R; cbv beta iota zeta delta -[Z.le Z.lt] in R.
  next R (c_delay_push 1 _ 0). eapply (go _ _ _ _ _ R); [eapply (tick 1 _ 7); lia|]. clear R; intro R; cbv beta iota zeta delta -[Z.le Z.lt] in R.
  next R (t_loop 1). next R (t_now 1). next R (t_lock 1). next R (t_post_parallel 1).
  next R (w_loop 1 _ 0). next R (w_pop 1 _ 0). next R (w_check 1 _ 0). next R (w_start 1 _ 0).
  eexists. split; [exact R|]. split; now left.
Qed.
(** Two delayed tasks of a live sequenced runner: one is with the timer, one with its poster. *)
Example reachable_waiting : exists s, reaches 1 [Sequenced] s /\ ever_stopped s = false /\ alive s 0 /\ delay_log s = [(0, 0); (0, 1)] /\ delayed s = [(0, 0, 5%Z)] /\ limbo s = [(0, 1, 6%Z)].
Proof.
  start 1 [Sequenced] R. eapply (go _ _ _ _ _ R); [eapply (c_delay 1 _ 0 _ 5); reflexivity|]. clear R; intro R; cbv beta iota zeta delta -[Z.le Z.lt] in R.
  next R (c_delay_push 1 _ 0). eapply (go _ _ _ _ _ R); [eapply (c_delay 1 _ 0 _ 6); reflexivity|]. clear R; intro R; cbv beta iota zeta delta -[Z.le Z.lt] in R.
  eexists. split; [exact R|]. split; [reflexivity|]. split; [now eexists; split|]. repeat split.
Qed.
(** stop() was called when a worker had just taken a task, and is waiting. *)
Ltac to_stopping R := start 1 [Sequenced] R; next R (c_post_sequenced 1 _ 0); next R (c_post_end 1 _ 0); next R (w_loop 1 _ 0); next R (w_pop 1 _ 0); next R (k_stop 1).
Example reachable_stopping : exists s, reaches 1 [Sequenced] s /\ phase s = Stopping /\ In (WGot (0, 0)) (workers s).
Proof. to_stopping R. eexists. split; [exact R|]. split; [reflexivity|now left]. Qed.
(** It returns: the task was dropped. *)
Ltac to_stopped R := to_stopping R; next R (w_check 1 _ 0); next R (w_loop 1 _ 0); next R (t_loop 1); next R (k_stopped 1).
Example reachable_stopped : exists s, reaches 1 [Sequenced] s /\ phase s = Stopped /\ In (0, 0) (accepted s) /\ started s = [].
Proof. to_stopped R. eexists. split; [exact R|]. split; [reflexivity|]. split; [now left|reflexivity]. Qed.

(** The claim that a task accepted while the manager runs, on a live runner, can be executed, does not hold after
    stop() and start(): a sequenced runner whose task was taken but dropped when stop() was called waits for
    that task for ever, and accepts tasks that will not be executed in any continuation. *)
Theorem sequenced_after_restart_refuted : exists s i, reaches 1 [Sequenced] s /\ phase s = Running /\ alive s 0 /\ In (0, i) (accepted s) /\ immediate s i /\
  forall s', steps 1 s s' -> ~ In (0, i) (start_log s').
Proof.
  to_stopped R. next R (k_start 1). next R (c_post_sequenced 1 _ 0). next R (c_post_end 1 _ 0).
  eexists. exists 1. split; [exact R|]. split; [reflexivity|]. split; [now eexists; split|]. split; [right; now left|]. split; [now intros ? ? []|].
  intros s' HS HI. apply (reaches_inv 1 [Sequenced]) in R. destruct (abandoned_stays 1 [Sequenced] _ s' 0 R) as (_ & E); [eexists; repeat split|exact HS|].
  enough (H : In 1 (tasks_of 0 (start_log s'))) by (rewrite E in H; exact H). unfold tasks_of. apply in_map_iff. exists (0, 1). split; [reflexivity|]. now apply filter_In.
Qed.
