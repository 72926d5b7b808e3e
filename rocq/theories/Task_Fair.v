(** Liveness of the task manager model under a fair scheduler. *)
From Coq Require Import Permutation.
From Verif Require Import Common Concurrent_Model Concurrent_Proofs Task_Model Task_Spec Task_Fair_Spec Task_Proofs Task_Live.
Local Open Scope nat_scope.

Definition pc (s : state) (w : nat) : option worker_pc := nth_error (workers s) w.
Lemma pc_eq_dec (p q : option worker_pc) : {p = q} + {p <> q}.
Proof. decide equality. decide equality; try apply Nat.eq_dec; decide equality; apply Nat.eq_dec. Qed.
Lemma timer_eq_dec (p q : timer_pc) : {p = q} + {p <> q}.
Proof. decide equality; try apply Nat.eq_dec; apply Z.eq_dec. Qed.

(** * What one step does, from the point of view of ... *)
Section Steps.
Variable n : nat.
Variable kinds : list runner_kind.

(** ... a worker *)
Definition wmove (s s' : state) (w : nat) (p p' : worker_pc) : Prop :=
  match p with
  | WLoop => p' = if keep s then WPop else WExit
  | WPop => (exists e, tasks s = e :: tasks s' /\ p' = WGot e) \/ (tasks s = [] /\ p' = WLoop)
  | WGot e => p' = if keep s then WLock e else WLoop
  | WLock (r, i) => (p' = WRun (r, i)) \/ (p' = WLoop /\ ~ alive s r)
  | WRun (r, i) => p' = WDone r /\ In (r, i) (finished s')
  | WDone r => (exists x, nth_error (runners s) r = Some x /\ kind_of x = Parallel /\ p' = WLoop) \/
      (exists x x' tq aq, nth_error (runners s) r = Some x /\ kind_of x = Sequenced /\ hold x = None /\ p' = WHold r /\ begun (with_worker s w (WHold r)) r x (AWorker w) None x' tq aq /\
        nth_error (runners s') r = Some x' /\ tasks s' = tasks s ++ tq)
  | WHold r => p' = WLoop
  | WExit => phase s = Stopped
  end.
Lemma nth_repeat_some {A} (x y : A) m w : nth_error (repeat x m) w = Some y -> y = x.
Proof. intros H. apply nth_error_In in H. now apply repeat_spec in H. Qed.
Lemma worker_step s s' w p : inv n kinds s -> step n s s' -> pc s w = Some p -> exists p', pc s' w = Some p' /\ (p' = p \/ wmove s s' w p p').
Proof.
  intros HI HS HW. unfold pc in *. split_step HS; try solve [exists p; auto];
  try match goal with |- context [upd (workers s) ?w1 ?q] =>
    destruct (Nat.eqb_spec w1 w) as [->|N]; [match goal with H : nth_error (workers s) w = Some ?p1 |- context [upd _ _ _] => rewrite (nth_upd_same _ _ _ _ H); exists q; split; [reflexivity|right]; first [constr_eq H HW; fail 1|idtac]; assert (EP : p = p1) by congruence; subst p; unfold wmove; sim; eauto end
      |rewrite nth_upd_other by assumption; exists p; auto] end.
  - right. split; [reflexivity|]. intros (y & HY & EY). congruence.
  - split; [reflexivity|]. apply in_app_iff. right. now left.
  - right. exists x, x', tq, aq. rewrite (nth_upd_same (runners s) r _ x H0). auto 10.
  - assert (HL : w < n) by (destruct (i_up _ _ _ HI) as (_ & _ & <- & _); eapply nth_lt; eassumption).
    exists WLoop. split; [now rewrite nth_error_repeat|]. right. destruct (i_phase _ _ _ HI) as (_ & _ & P3 & _). destruct P3 as (P3 & _); [assumption|].
    rewrite (exited_nth _ _ _ P3 HW). exact H.
Qed.
(** ... the queue of the manager *)
Lemma tasks_step s s' : step n s s' -> (exists t, tasks s' = tasks s ++ t) \/ exists e w, tasks s = e :: tasks s' /\ pc s' w = Some (WGot e).
Proof.
  intros HS. unfold pc. split_step HS; try solve [left; exists []; now rewrite app_nil_r | left; eauto].
  right. exists e, w. split; [assumption|]. eapply nth_upd_same; eassumption.
Qed.
(** ... a runner *)
Definition rmove (s s' : state) (r : nat) (x x' : runner) : Prop :=
  ((exists q, pending x' = pending x ++ q) \/ (exists i, pending x = i :: pending x' /\ (mexpired s = false -> tasks s' = tasks s ++ [(r, i)]))) /\
  (forall h, hold x = Some h -> hold x' = Some h \/ hold x' = None).
Lemma begun_rmove s r x who task x' tq aq : begun s r x who task x' tq aq ->
  (exists q, pending x' = pending x ++ q) \/ (exists i, pending x = i :: pending x' /\ (mexpired s = false -> tq = [(r, i)])).
Proof.
  intros HB. destruct HB; cbn [pending]; rewrite ?H0, ?H; try solve [left; exists []; now rewrite ?app_nil_r].
  - right. exists p. auto.
  - right. exists p. split; [reflexivity|congruence].
Qed.
Lemma runner_step s s' r x : step n s s' -> nth_error (runners s) r = Some x -> exists x', nth_error (runners s') r = Some x' /\ kind_of x' = kind_of x /\ rmove s s' r x x'.
Proof.
  intros HS HX.
  assert (R0 : forall z, rmove s z r x x) by (intros z; split; [left; exists []; now rewrite app_nil_r|intros h E; auto]).
  split_step HS; try solve [exists x; auto];
  match goal with |- context [upd (runners s) ?r1 ?q] =>
    destruct (Nat.eqb_spec r1 r) as [->|N]; [match goal with H : nth_error (runners s) r = Some ?y |- context [upd _ _ _] => rewrite (nth_upd_same _ _ _ _ H); exists q; split; [reflexivity|]; first [constr_eq H HX; fail 1|idtac]; assert (EP : x = y) by congruence; subst x end
      |rewrite nth_upd_other by assumption; exists x; auto] end.
  all: try match goal with HB : begun _ _ _ _ _ _ _ _ |- _ => destruct (begun_runner _ _ _ _ _ _ _ _ HB) as (_ & EK & _); split; [assumption|]; split; [|intros h E; congruence];
     destruct (begun_rmove _ _ _ _ _ _ _ _ HB) as [?|(i0 & E1 & E2)]; [auto|right; exists i0; split; [assumption|]; sim; intros E; now rewrite (E2 E)] end.
  all: split; [reflexivity|]; split; cbn [pending hold]; eauto.
  left. exists []. now rewrite app_nil_r.
Qed.
(** ... the logs, and control *)
Lemma log_step s s' : step n s s' -> incl (finished s) (finished s') /\ incl (accepted s) (accepted s') /\ (clock s <= clock s')%Z /\ (ever_stopped s = true -> ever_stopped s' = true).
Proof.
  intros HS. split_step HS; repeat split; auto; try apply incl_refl; try apply Z.le_refl; try (apply incl_appl; apply incl_refl); try congruence. lia.
Qed.
Lemma phase_step s s' : step n s s' -> phase s = Stopping -> phase s' = Stopping \/ phase s' = Stopped.
Proof. intros HS HP. split_step HS; auto; congruence. Qed.
(** ... a task that was not yet posted *)
Lemma limbo_step s s' e : step n s s' -> In e (limbo s) -> In e (limbo s') \/ In e (delayed s').
Proof.
  intros HS HI. split_step HS; rewrite ?in_app_iff; auto. destruct (in_remove_nth _ _ _ _ H HI) as [->|]; cbn [In]; auto.
Qed.
Lemma delayed_step s s' r i t : inv n kinds s -> ever_stopped s = false -> step n s s' -> In (r, i, t) (delayed s) -> alive s r ->
  In (r, i, t) (delayed s') \/ In (r, i) (accepted s') \/ queued_up (runners s') r i.
Proof.
  intros HI HE HS HD HA.
  assert (HM : mexpired s = false). { destruct (mexpired s) eqn:E; [|reflexivity]. destruct (i_phase _ _ _ HI) as (P1 & _ & _ & P4 & _). specialize (P4 E). destruct P1; congruence. }
  split_step HS; rewrite ?in_app_iff; auto;
  match goal with HN : nth_error (delayed s) _ = _ |- _ => destruct (in_remove_nth _ _ _ _ HN HD) as [E|]; [injection E as -> -> ->|now auto] end.
  - destruct HA as (y & HY & EY). congruence.
  - match goal with HQ : _ \/ _ |- _ => destruct HQ as [(-> & HQ)|(-> & _)]; [congruence|] end. cbn [In]. auto.
  - destruct (begun_task _ _ _ _ _ _ _ _ HB) as [HI1|HI1]; [exact HM|auto|]. right; right. exists x'. split; [eapply nth_upd_same; eassumption|assumption].
Qed.
Lemma queued_step s s' r i : step n s s' -> queued_up (runners s) r i -> queued_up (runners s') r i \/ In (r, i) (accepted s').
Proof.
  intros HS HQ. split_step HS; rewrite ?in_app_iff; auto; try (left; eapply queued_kept; eassumption);
  match goal with H : nth_error (runners s) ?r0 = Some ?x |- context [upd _ _ ?y] => destruct (queued_ended _ _ _ y _ _ H HQ); auto end.
Qed.
(** ... the timer *)
Definition tmove (s s' : state) : Prop :=
  match timer s with
  | TLoop => timer s' = if keep s then TNow else TExit
  | TNow => timer s' = TLock (clock s)
  | TLock z => timer s' = TScan z 0
  | TScan z i => (timer s' = TScan z (S i) /\ delayed s' = delayed s /\ exists e, nth_error (delayed s) i = Some e /\ (z < snd e)%Z) \/
      ((timer s' = TScan z i \/ exists r, timer s' = TPosting r z i) /\ delayed s' = remove_nth i (delayed s) /\ exists e, nth_error (delayed s) i = Some e) \/
      (timer s' = TSleep /\ length (delayed s) <= i)
  | TPosting r z i => timer s' = TScan z i /\ delayed s' = delayed s
  | TSleep => timer s' = TLoop
  | TExit => phase s = Stopped
  end.
Lemma timer_step s s' : inv n kinds s -> step n s s' -> timer s' = timer s /\ (exists l, delayed s' = delayed s ++ l) /\ (timer_holds (timer s) = true -> delayed s' = delayed s) \/ tmove s s'.
Proof.
  intros HI HS. assert (E0 : exists l, delayed s = delayed s ++ l) by (exists []; now rewrite app_nil_r).
  unfold tmove. split_step HS; auto 6; repeat match goal with H : timer ?z = _ |- _ => rewrite H end; eauto 10.
  - left. split; [reflexivity|]. split; [eauto|]. congruence.
  - destruct (i_phase _ _ _ HI) as (_ & _ & P3 & _). destruct P3 as (_ & ->); auto.
Qed.
End Steps.

(** * Fair executions *)
Section Fair.
Variable n : nat.
Variable kinds : list runner_kind.
Variable f : nat -> state.
Hypothesis start : reaches n kinds (f 0).
Hypothesis runs : execution n f.
Hypothesis fairness : fair n f.

Lemma reached k : reaches n kinds (f k).
Proof. induction k; [assumption|]. destruct (runs k) as [->|HS]; [assumption|]. eapply r_step; eassumption. Qed.
Lemma holds_inv k : inv n kinds (f k).
Proof. apply reaches_inv, reached. Qed.
(** A property persists until something happens. *)
Lemma until (P : state -> Prop) (Q : state -> state -> Prop) k j : k <= j -> P (f k) -> (forall s s', inv n kinds s -> step n s s' -> P s -> P s' \/ Q s s') ->
  P (f j) \/ exists m, k <= m < j /\ P (f m) /\ step n (f m) (f (S m)) /\ Q (f m) (f (S m)).
Proof.
  intros HL HP HS. induction HL as [|j HL IH]; [auto|]. destruct IH as [IH|(m & H1 & H2)]; [|right; exists m; split; [lia|assumption]].
  destruct (runs j) as [->|HT]; [auto|]. destruct (HS _ _ (holds_inv j) HT IH) as [|HQ]; [auto|]. right. exists j. repeat split; auto; lia.
Qed.
Lemma forever (P : state -> Prop) k j : k <= j -> P (f k) -> (forall s s', inv n kinds s -> step n s s' -> P s -> P s') -> P (f j).
Proof. intros HL HP HS. destruct (until P (fun _ _ => False) k j HL HP) as [|(m & _ & _ & _ & [])]; eauto. Qed.
(** If the thread [a] can act again and again as long as [P] holds, and [P] holds until [Q] happens, and [Q] happens
    when [a] acts, then [Q] will happen. *)
Lemma wait a (P : state -> Prop) (Q : state -> state -> Prop) k : P (f k) ->
  (forall s s', inv n kinds s -> step n s s' -> P s -> P s' \/ Q s s') ->
  (forall s s', inv n kinds s -> step n s s' -> P s -> acts a s s' -> Q s s') ->
  (forall s, acts a s s -> False) ->
  (forall m, k <= m -> P (f m) -> exists j, m <= j /\ (P (f j) -> can_act n a (f j))) ->
  exists j, k <= j /\ P (f j) /\ step n (f j) (f (S j)) /\ Q (f j) (f (S j)).
Proof.
  intros HP HS HA HN HC. destruct (fairness a k) as (j & HL & HJ).
  destruct (until P Q k j HL HP HS) as [PJ|(m & H1 & H2 & H3 & H4)]; [|exists m; repeat split; auto; lia].
  destruct HJ as [HJ|HJ].
  - destruct (runs j) as [E|HT]; [rewrite E in HJ; now apply HN in HJ|]. exists j. repeat split; auto. apply HA; auto. apply holds_inv.
  - destruct (HC j HL PJ) as (j' & HL' & HC'). destruct (until P Q j j' HL' PJ HS) as [PJ'|(m & H1 & H2 & H3 & H4)].
    + exfalso. apply (HJ j' HL'). auto.
    + exists m. repeat split; auto; lia.
Qed.
Lemma acts_irrefl a s : acts a s s -> False.
Proof.
  destruct a; cbn [acts].
  - intros (_ & H). congruence.
  - intros (_ & [H|H]); [congruence|lia].
  - intros (x & h & x' & H1 & H2 & _ & H3 & H4). congruence.
  - intros ((r & t & H1) & H2). eapply H2; eassumption.
  - intros (H1 & H2). congruence.
Qed.

(** ** Workers *)
Lemma worker_waits w p k : p <> WExit -> pc (f k) w = Some p ->
  (forall m, k <= m -> pc (f m) w = Some p -> exists j, m <= j /\ (pc (f j) w = Some p -> can_act n (ThWorker w) (f j))) ->
  exists j p', k <= j /\ pc (f j) w = Some p /\ step n (f j) (f (S j)) /\ pc (f (S j)) w = Some p' /\ p' <> p /\ wmove (f j) (f (S j)) w p p'.
Proof.
  intros NE HP HC. destruct (wait (ThWorker w) (fun s => pc s w = Some p) (fun s s' => pc s' w <> pc s w) k) as (j & H1 & H2 & H3 & H4); auto.
  - intros s s' _ _ E. destruct (pc_eq_dec (pc s' w) (pc s w)); [left; congruence|auto].
  - intros s s' _ _ _ (_ & H). exact H.
  - apply acts_irrefl.
  - destruct (worker_step n kinds _ _ w p (holds_inv j) H3 H2) as (p' & E1 & E2). exists j, p'. repeat split; auto; [congruence|]. destruct E2; [congruence|assumption].
Qed.
Lemma can_work s w p p' s' : step n s s' -> pc s w = Some p -> p <> WExit -> pc s' w = Some p' -> p' <> p -> can_act n (ThWorker w) s.
Proof. intros HS HP NE HP' N. exists s'. split; [assumption|]. unfold pc in *. cbn [acts]. rewrite HP, HP'. split; congruence. Qed.
Lemma runner_exists s r : inv n kinds s -> r < length (runners s) -> exists x, nth_error (runners s) r = Some x.
Proof. intros _ H. apply nth_error_Some in H. destruct (nth_error (runners s) r); [eauto|congruence]. Qed.
Tactic Notation "works" uconstr(c) := eapply can_work; [eapply c; eassumption|eassumption|discriminate|unfold pc; sim; eapply nth_upd_same; eassumption|try discriminate; match goal with |- context [if ?b then _ else _] => destruct b end; discriminate].
Lemma can_simple s w p : inv n kinds s -> pc s w = Some p -> match p with WDone _ | WExit => False | _ => True end -> can_act n (ThWorker w) s.
Proof.
  intros HI HP HQ. destruct (i_mutex _ _ _ HI) as ((M1 & M2 & M3) & F1 & F2 & F3 & F4). pose proof (forall_nth _ _ _ _ F2 HP) as FP.
  destruct p as [| |e|(r & i)|(r & i)|r|r|]; try contradiction; cbn [pc_ok fst] in FP.
  - works w_loop.
  - destruct (tasks s) as [|e q] eqn:ET; [works w_pop_nothing|works w_pop].
  - works w_check.
  - destruct (runner_exists s r HI FP) as (x & HX). destruct (expired x) eqn:E; [works w_expired|works w_start].
  - works w_finish.
  - destruct (M2 _ _ HP) as (x & h & HX & HH & HO). eapply can_work with (p' := WLoop); [eapply w_complete_end; eassumption|eassumption|discriminate| |discriminate].
    rewrite (end_post_ended _ _ _ _ HH). unfold pc. sim. eapply nth_upd_same; eassumption.
Qed.
Lemma worker_moves w p k : pc (f k) w = Some p -> match p with WDone _ | WExit => False | _ => True end ->
  exists j p', k <= j /\ pc (f j) w = Some p /\ step n (f j) (f (S j)) /\ pc (f (S j)) w = Some p' /\ p' <> p /\ wmove (f j) (f (S j)) w p p'.
Proof.
  intros HP HQ. apply worker_waits; auto; [now destruct p|]. intros m HM EM. exists m. split; [lia|]. intros _. eapply can_simple; eauto using holds_inv.
Qed.

(** ** The timer, when it holds a runner's mutex *)
Lemma timer_waits t d k : t <> TExit -> timer (f k) = t -> delayed (f k) = d -> timer_holds t = true ->
  (forall m, k <= m -> timer (f m) = t -> delayed (f m) = d -> exists j, m <= j /\ (timer (f j) = t -> delayed (f j) = d -> can_act n ThTimer (f j))) ->
  exists j, k <= j /\ timer (f j) = t /\ delayed (f j) = d /\ step n (f j) (f (S j)) /\ tmove (f j) (f (S j)).
Proof.
  intros NE HT HD HH HC. destruct (wait ThTimer (fun s => timer s = t /\ delayed s = d) (fun s s' => tmove s s') k) as (j & H1 & (H2 & H2') & H3 & H4); auto.
  - intros s s' HI HS (E1 & E2). destruct (timer_step n kinds s s' HI HS) as [(A1 & A2 & A3)|]; [left|auto]. split; [congruence|]. rewrite A3; congruence.
  - intros s s' HI HS (E1 & E2) (_ & HA). destruct (timer_step n kinds s s' HI HS) as [(A1 & A2 & A3)|]; [|auto]. rewrite A3 in HA by congruence. destruct HA; [congruence|lia].
  - apply acts_irrefl.
  - intros m HM (E1 & E2). destruct (HC m HM E1 E2) as (j & HL & HJ). exists j. split; [assumption|]. intros (? & ?). auto.
  - exists j. repeat split; auto.
Qed.
Lemma timer_waits_free t k : timer_holds t = false -> timer (f k) = t -> t <> TExit ->
  exists j, k <= j /\ timer (f j) = t /\ step n (f j) (f (S j)) /\ tmove (f j) (f (S j)).
Proof.
  intros HH HT NE. destruct (wait ThTimer (fun s => timer s = t) (fun s s' => tmove s s') k) as (j & H1 & H2 & H3 & H4); auto.
  - intros s s' HI HS E1. destruct (timer_step n kinds s s' HI HS) as [(A1 & A2 & A3)|]; [left; congruence|auto].
  - intros s s' HI HS E1 (_ & HA). destruct (timer_step n kinds s s' HI HS) as [(A1 & (l & A2) & A3)|]; [|auto]. rewrite A2, app_length in HA. destruct HA; [congruence|lia].
  - apply acts_irrefl.
  - intros m HM EM. exists m. split; [lia|]. intros _. unfold can_act. cbn [acts]. rewrite EM. destruct t; try discriminate; try congruence.
    + exists (with_timer (f m) (if keep (f m) then TNow else TExit)). split; [now apply t_loop|]. sim. split; [discriminate|]. left. destruct (keep (f m)); discriminate.
    + eexists. split; [now apply t_now|]. sim. split; [discriminate|]. left. discriminate.
    + eexists. split; [eapply t_lock; eassumption|]. sim. split; [discriminate|]. left. discriminate.
    + eexists. split; [now apply t_sleep|]. sim. split; [discriminate|]. left. discriminate.
  - exists j. repeat split; auto.
Qed.

(** ** Mutexes are released *)
Lemma released r k : exists j, k <= j /\ forall x, nth_error (runners (f j)) r = Some x -> hold x = None.
Proof.
  destruct (nth_error (runners (f k)) r) as [x|] eqn:HX; [|exists k; split; [lia|]; intros x E; congruence].
  destruct (hold x) as [h|] eqn:HH; [|exists k; split; [lia|]; intros y E; congruence].
  destruct (i_mutex _ _ _ (holds_inv k)) as ((M1 & _) & _). destruct (M1 _ _ _ HX HH) as (_ & O).
  assert (HP : forall j, k <= j -> (exists y, nth_error (runners (f j)) r = Some y /\ hold y = Some h) \/ exists m, k <= m < j /\ exists y, nth_error (runners (f (S m))) r = Some y /\ hold y = None).
  { intros j HL. destruct (until (fun s => exists y, nth_error (runners s) r = Some y /\ hold y = Some h) (fun s s' => exists y, nth_error (runners s') r = Some y /\ hold y = None) k j HL) as [|(m & H1 & H2 & H3 & H4)]; eauto.
    intros s s' _ HS (y & HY & EY). destruct (runner_step n s s' r y HS HY) as (y' & HY' & _ & _ & HM). destruct (HM _ EY); eauto. }
  assert (HE : forall j, k <= j -> (exists y, nth_error (runners (f j)) r = Some y /\ hold y <> Some h) -> exists j, k <= j /\ forall x, nth_error (runners (f j)) r = Some x -> hold x = None).
  { intros j HL (y & HY & EY). destruct (HP j HL) as [(y' & HY' & EY')|(m & HM & y' & HY' & EY')]; [congruence|]. exists (S m). split; [lia|]. intros z HZ. congruence. }
  unfold holds_ok in O. destruct (holder h) as [|w|] eqn:EO.
  - destruct (wait (ThCaller r) (fun s => exists y, nth_error (runners s) r = Some y /\ hold y = Some h) (fun s s' => exists y, nth_error (runners s') r = Some y /\ hold y = None) k) as (j & H1 & H2 & H3 & (y & HY & EY)); eauto.
    + intros s s' _ HS (y & HY & EY). destruct (runner_step n s s' r y HS HY) as (y' & HY' & _ & _ & HM). destruct (HM _ EY); eauto.
    + intros s s' _ HS (y & HY & EY) (y1 & h1 & y2 & _ & _ & _ & H4 & H5). eauto.
    + apply acts_irrefl.
    + intros m HM (y & HY & EY). exists m. split; [lia|]. intros _. exists (end_post (f m) r y h). split; [eapply c_post_end; eassumption|].
      cbn [acts]. rewrite (end_post_ended _ _ _ _ EY). sim. eexists y, h, _. repeat split; auto; [eapply nth_upd_same; eassumption|reflexivity].
    + exists (S j). split; [lia|]. intros z HZ. congruence.
  - destruct (worker_moves w (WHold r) k O I) as (j & p' & H1 & H2 & H3 & H4 & H5 & _).
    destruct (i_mutex _ _ _ (holds_inv j)) as ((M1' & M2' & _) & _). destruct (M2' _ _ H2) as (y & h' & HY & _).
    destruct (runner_step n _ _ r y H3 HY) as (y' & HY' & _). apply (HE (S j)); [lia|]. exists y'. split; [assumption|]. intros E.
    destruct (i_mutex _ _ _ (holds_inv (S j))) as ((M1'' & _) & _). destruct (M1'' _ _ _ HY' E) as (_ & O'). unfold holds_ok in O'. rewrite EO in O'. unfold pc in H4. congruence.
  - destruct O as (z & i & O). destruct (timer_waits (TPosting r z i) (delayed (f k)) k) as (j & H1 & H2 & H2' & H3 & H4); auto; [discriminate| |].
    + intros m HM EM ED. exists m. split; [lia|]. intros _ _. destruct (i_mutex _ _ _ (holds_inv m)) as ((_ & _ & M3) & _). destruct (M3 _ _ _ EM) as (y & h' & HY & EY & EO').
      eexists. split; [eapply t_post_end; eassumption|]. cbn [acts]. rewrite EM, (end_post_ended _ _ _ _ EY). sim. split; [discriminate|left; discriminate].
    + destruct (i_mutex _ _ _ (holds_inv j)) as ((_ & _ & M3') & _). destruct (M3' _ _ _ H2) as (y & h' & HY & _).
      destruct (runner_step n _ _ r y H3 HY) as (y' & HY' & _). apply (HE (S j)); [lia|]. exists y'. split; [assumption|]. intros E.
      destruct (i_mutex _ _ _ (holds_inv (S j))) as ((M1'' & _) & _). destruct (M1'' _ _ _ HY' E) as (_ & O'). unfold holds_ok in O'. rewrite EO in O'. destruct O' as (z' & i' & O').
      unfold tmove in H4. rewrite H2 in H4. destruct H4 as (H4 & _). congruence.
Qed.

(** ** Every worker moves on *)
Lemma done_moves w r k : pc (f k) w = Some (WDone r) ->
  exists j p', k <= j /\ pc (f j) w = Some (WDone r) /\ step n (f j) (f (S j)) /\ pc (f (S j)) w = Some p' /\ p' <> WDone r /\ wmove (f j) (f (S j)) w (WDone r) p'.
Proof.
  intros HP. apply worker_waits; auto; [discriminate|]. intros m HM EM. destruct (released r m) as (j & HL & HJ). exists j. split; [assumption|]. intros EJ.
  destruct (i_mutex _ _ _ (holds_inv j)) as (_ & _ & F2 & _). pose proof (forall_nth _ _ _ _ F2 EJ) as FP. cbn [pc_ok] in FP. destruct (runner_exists _ r (holds_inv j) FP) as (x & HX).
  specialize (HJ x HX). destruct (kind_of x) eqn:EK.
  - eapply can_work with (p' := WHold r); [eapply w_complete_sequenced; eassumption|eassumption|discriminate| |discriminate].
    destruct (begin_post_begun (with_worker (f j) w (WHold r)) r x (AWorker w) None) as (x' & tq & aq & HB & ->). unfold pc. sim. eapply nth_upd_same; eassumption.
  - works w_complete_parallel.
Qed.
Lemma any_moves w p k : pc (f k) w = Some p -> p <> WExit ->
  exists j p', k <= j /\ pc (f j) w = Some p /\ step n (f j) (f (S j)) /\ pc (f (S j)) w = Some p' /\ p' <> p /\ wmove (f j) (f (S j)) w p p'.
Proof. intros HP NE. destruct p; try congruence; try (apply worker_moves; auto; exact I). now apply done_moves. Qed.

(** ** While stop() is not called *)
Section Up.
Hypothesis up : forall k, ever_stopped (f k) = false.
Hypothesis some_worker : 0 < n.
Lemma keeps k : keep (f k) = true /\ phase (f k) = Running /\ mexpired (f k) = false.
Proof.
  destruct (i_phase _ _ _ (holds_inv k)) as (P1 & P2 & _ & P4 & _). pose proof (up k) as U.
  assert (EP : phase (f k) = Running) by (destruct (phase (f k)) eqn:E; [auto|destruct P1 as (_ & E'); congruence..]). split; [auto|]. split; [assumption|].
  destruct (mexpired (f k)); [|reflexivity]. specialize (P4 eq_refl). congruence.
Qed.
Definition rank (p : worker_pc) : nat :=
  match p with WPop => 0 | WLoop => 1 | WHold _ => 2 | WDone _ => 3 | WRun _ => 4 | WLock _ => 5 | WGot _ => 6 | WExit => 7 end.
Lemma worker_up w k : w < n -> exists p, pc (f k) w = Some p /\ p <> WExit.
Proof.
  intros HW. destruct (i_up _ _ _ (holds_inv k)) as (U1 & _ & U3 & _). unfold pc. rewrite <- U3 in HW. apply nth_error_Some in HW.
  destruct (nth_error (workers (f k)) w) as [p|] eqn:E; [|congruence]. exists p. split; [reflexivity|]. eapply (forall_nth _ _ _ _ (U1 (proj1 (keeps k)))). eassumption.
Qed.
Lemma comes_to_pop w k : w < n -> exists j, k <= j /\ pc (f j) w = Some WPop.
Proof.
  intros HW. destruct (worker_up w k HW) as (p & HP & NE). remember (rank p) as m eqn:EM. revert k p HP NE EM. induction m as [m IH] using lt_wf_ind. intros k p HP NE ->.
  assert (D : p = WPop \/ p <> WPop) by (destruct p; first [left; reflexivity | right; discriminate]). destruct D as [->|D]; [eauto|].
  destruct (any_moves w p k HP NE) as (j & p' & H1 & H2 & H3 & H4 & H5 & H6).
  assert (NE' : p' <> WExit). { destruct (worker_up w (S j) HW) as (q & HQ & NQ). congruence. }
  destruct (IH (rank p') ltac:(destruct (keeps j) as (EK & _); unfold wmove in H6; rewrite ?EK in H6; destruct p as [| |e|(r & i)|(r & i)|r|r|]; try congruence; cbn [rank]; repeat match goal with H : _ \/ _ |- _ => destruct H | H : _ /\ _ |- _ => destruct H | H : exists _, _ |- _ => destruct H end; subst; cbn [rank]; lia) (S j) p' H4 NE' eq_refl) as (j' & HL & HJ).
  exists j'. split; [lia|assumption].
Qed.
(** A task in the manager's queue is taken from it. *)
Lemma popped e k : In e (tasks (f k)) -> exists j w, k <= j /\ pc (f j) w = Some (WGot e).
Proof.
  intros HI. apply in_split in HI as (a & b & E). remember (length a) as m eqn:EM. revert k a b E EM. induction m as [m IH] using lt_wf_ind. intros k a b E ->.
  destruct (comes_to_pop 0 k some_worker) as (j & HL & HJ). destruct (worker_moves 0 WPop j HJ I) as (j1 & p' & H1 & H2 & H3 & H4 & H5 & H6).
  destruct (until (fun s => exists a' b', tasks s = a' ++ e :: b' /\ length a' <= length a) (fun s s' => exists w, pc s' w = Some (WGot e)) k j1 ltac:(lia)) as [(a' & b' & E' & LE)|(m & HM & _ & _ & w & HW)]; [now exists a, b| | |exists (S m), w; split; [lia|assumption]].
  - intros s s' _ HS (a' & b' & E' & LE). destruct (tasks_step n s s' HS) as [(t & ET)|(e' & w & ET & HW)].
    + left. exists a', (b' ++ t). rewrite ET, E', <- app_assoc. auto.
    + destruct a' as [|y a']; rewrite E' in ET; injection ET as -> ET; [right; eauto|]. left. exists a', b'. split; [now symmetry|]. cbn [length] in LE. lia.
  - cbn [wmove] in H6. rewrite E' in H6. destruct H6 as [(e' & ET & ->)|(ET & _)]; [|now destruct a'].
    destruct a' as [|y a']; injection ET as -> ET; [exists (S j1), 0; split; [lia|assumption]|]. cbn [length] in LE.
    destruct (IH (length a') ltac:(lia) (S j1) a' b' (eq_sym ET) eq_refl) as (j2 & w & L2 & HW). exists j2, w. split; [lia|assumption].
Qed.
(** It is executed. *)
Lemma got_run r i w k : (forall k, alive (f k) r) -> pc (f k) w = Some (WGot (r, i)) \/ pc (f k) w = Some (WLock (r, i)) -> exists j, k <= j /\ pc (f j) w = Some (WRun (r, i)).
Proof.
  intros HA HW. assert (HL : exists j, k <= j /\ pc (f j) w = Some (WLock (r, i))).
  { destruct HW as [HW|HW]; [|eauto]. destruct (worker_moves w _ k HW I) as (j & p' & H1 & H2 & H3 & H4 & H5 & H6). cbn [wmove] in H6. rewrite (proj1 (keeps j)) in H6. subst p'. exists (S j). split; [lia|assumption]. }
  destruct HL as (j & L1 & HJ). destruct (worker_moves w _ j HJ I) as (j1 & p' & H1 & H2 & H3 & H4 & H5 & H6). cbn [wmove] in H6. destruct H6 as [->|(_ & N)]; [|now destruct (N (HA j1))].
  exists (S j1). split; [lia|assumption].
Qed.
Lemma run_done r i w k : pc (f k) w = Some (WRun (r, i)) -> exists j, k <= j /\ pc (f j) w = Some (WDone r) /\ In (r, i) (finished (f j)).
Proof.
  intros HW. destruct (worker_moves w _ k HW I) as (j & p' & H1 & H2 & H3 & H4 & H5 & H6). cbn [wmove] in H6. destruct H6 as (-> & HF). exists (S j). split; [lia|]. split; assumption.
Qed.
(** The runner's task in the manager's hands is completed. *)
Lemma token_done r k : (forall k, alive (f k) r) -> 0 < tokens (f k) r -> exists j w, k <= j /\ pc (f j) w = Some (WDone r).
Proof.
  intros HA HT. assert (HG : forall i w m, pc (f m) w = Some (WGot (r, i)) \/ pc (f m) w = Some (WLock (r, i)) -> exists j w, m <= j /\ pc (f j) w = Some (WDone r)).
  { intros i w m HW. destruct (got_run r i w m HA HW) as (j & L1 & HJ). destruct (run_done r i w j HJ) as (j' & L2 & HJ' & _). exists j', w. split; [lia|assumption]. }
  assert (IS : forall e, 0 < isr r e -> exists i, e = (r, i)).
  { intros (r' & i) H. unfold isr in H. cbn [fst] in H. destruct (Nat.eqb_spec r' r); [subst; eauto|lia]. }
  unfold tokens in HT. assert (HC : 0 < sumf (isr r) (tasks (f k)) \/ 0 < sumf (in_hand (isr r)) (workers (f k)) \/ 0 < sumf (in_run (isr r)) (workers (f k)) \/ 0 < sumf (done r) (workers (f k))) by lia.
  destruct HC as [C|[C|[C|C]]]; apply sumf_exists in C as (p & HI & HP).
  - destruct (IS _ HP) as (i & ->). destruct (popped _ _ HI) as (j & w & L1 & HW). destruct (HG i w j (or_introl HW)) as (j' & w' & L2 & HJ). exists j', w'. split; [lia|assumption].
  - apply In_nth_error in HI as (w & HW). unfold in_hand in HP. destruct p; try lia; destruct (IS _ HP) as (i & ->); eauto.
  - apply In_nth_error in HI as (w & HW). unfold in_run in HP. destruct p; try lia. destruct (IS _ HP) as (i & ->). destruct (run_done r i w k HW) as (j & L & HJ & _). eauto.
  - apply In_nth_error in HI as (w & HW). unfold done, eqn in HP. destruct p; try lia. destruct (Nat.eqb_spec r0 r); [subst|lia]. eauto.
Qed.
(** A task that waits in its runner is given to the manager. *)
Lemma leaves_pending r i k : (forall k, alive (f k) r) -> (exists x, nth_error (runners (f k)) r = Some x /\ In i (pending x)) -> exists j, k <= j /\ In (r, i) (tasks (f j)).
Proof.
  intros HA (x & HX & HI). apply in_split in HI as (a & b & E). remember (length a) as m eqn:EM. revert k x HX a b E EM. induction m as [m IH] using lt_wf_ind. intros k x HX a b E ->.
  assert (EK : kind_of x = Sequenced). { destruct (kind_of x) eqn:EK; [reflexivity|]. destruct (i_up _ _ _ (holds_inv k)) as (_ & _ & _ & U4 & _). rewrite (U4 _ _ HX EK) in E. now destruct a. }
  assert (EX : expired x = false). { destruct (HA k) as (y & HY & EY). congruence. }
  assert (HT : 0 < tokens (f k) r).
  { destruct (i_tokens _ _ _ (holds_inv k) _ _ HX EK) as (_ & _ & T3). destruct T3 as (T4 & T5); [auto|]. destruct (flag_after x); [rewrite T4; auto; lia|]. destruct T5 as (T5 & _); [reflexivity|]. rewrite T5 in E. now destruct a. }
  destruct (token_done r k HA HT) as (j & w & L1 & HJ). destruct (done_moves w r j HJ) as (j1 & p' & L2 & H2 & H3 & H4 & H5 & H6).
  set (P := fun s => kind_of x = Sequenced /\ mexpired s = false /\ exists y b', nth_error (runners s) r = Some y /\ pending y = a ++ i :: b' /\ kind_of y = Sequenced).
  set (Q := fun s s' => exists y y' p, nth_error (runners s) r = Some y /\ nth_error (runners s') r = Some y' /\ pending y = p :: pending y' /\ tasks s' = tasks s ++ [(r, p)] /\ (exists b', pending y = a ++ i :: b')).
  assert (HQ : forall m, k <= m -> Q (f m) (f (S m)) -> exists j, k <= j /\ In (r, i) (tasks (f j))).
  { intros m HM (y & y' & p & HY & HY' & E1 & E2 & (b' & E3)). rewrite E3 in E1. destruct a as [|q a]; injection E1 as -> E1.
    - exists (S m). split; [lia|]. rewrite E2. apply in_app_iff. right. now left.
    - destruct (IH (length a) ltac:(cbn [length]; lia) (S m) y' HY' a b' (eq_sym E1) eq_refl) as (j2 & L & HI). exists j2. split; [lia|assumption]. }
  assert (HU : P (f j1) \/ exists m, k <= m < j1 /\ Q (f m) (f (S m))).
  { clear H2 H3 H4 H5 H6. assert (HL : k <= j1) by lia. clear L1 L2 HJ.
    assert (HM : forall m, mexpired (f m) = false) by (intros m; apply keeps).
    induction HL as [|j1 HL IHL]; [left; unfold P; eauto 10|]. destruct IHL as [IHL|(m & ? & ?)]; [|right; exists m; split; [lia|assumption]].
    destruct (runs j1) as [->|HS]; [auto|]. destruct IHL as (_ & EM & y & b' & HY & E1 & E2). destruct (runner_step n _ _ r y HS HY) as (y' & HY' & EK' & (R1 & _)).
    destruct R1 as [(q & R1)|(p & R1 & R2)].
    - left. split; [assumption|]. split; [apply HM|]. exists y', (b' ++ q). split; [assumption|]. split; [|congruence]. now rewrite R1, E1, <- app_assoc.
    - right. exists j1. split; [lia|]. exists y, y', p. repeat split; eauto. }
  destruct HU as [(_ & EM & y & b' & HY & E1 & E2)|(m & HM & HQ')]; [|eapply HQ; [|exact HQ']; lia].
  cbn [wmove] in H6. destruct H6 as [(y' & HY' & E3 & _)|(y1 & y' & tq & aq & HY1 & _ & _ & _ & HB & HY' & ET)]; [congruence|].
  assert (y1 = y) as -> by congruence. apply (HQ j1); [lia|]. inversion HB; subst; try congruence.
  - exists y, (Runner (kind_of y) q (has_running y) (Some (Held (AWorker w) (Some true) None)) (expired y)), p. repeat split; eauto.
  - sim. congruence.
  - match goal with H : pending y = [] |- _ => rewrite H in E1 end. now destruct a.
Qed.
Lemma finished_stays e k j : k <= j -> In e (finished (f k)) -> In e (finished (f j)).
Proof. intros HL HI. apply (forever (fun s => In e (finished s)) k j HL HI). intros s s' _ HS H. destruct (log_step n s s' HS) as (F & _). now apply F. Qed.
Lemma tasks_finish r i k : (forall k, alive (f k) r) -> In (r, i) (tasks (f k)) -> exists j, k <= j /\ In (r, i) (finished (f j)).
Proof.
  intros HA HI. destruct (popped _ _ HI) as (j & w & L1 & HW). destruct (got_run r i w j HA (or_introl HW)) as (j1 & L2 & H1). destruct (run_done r i w j1 H1) as (j2 & L3 & _ & HF). exists j2. split; [lia|assumption].
Qed.
(** ** Accepted tasks are finished *)
Lemma accepted_finish r i k : (forall k, alive (f k) r) -> In (r, i) (accepted (f k)) -> exists j, k <= j /\ In (r, i) (finished (f j)).
Proof.
  intros HA HI. destruct (i_flow _ _ _ (holds_inv k) r i) as (_ & F2 & F3). specialize (F2 (up k) (HA k)). apply sumf_in in HI. rewrite <- F2 in HI. unfold whereabouts in HI.
  assert (HC : 0 < sumf (eqe r i) (map fst (started (f k))) \/ 0 < sumf (eqe r i) (tasks (f k)) \/ 0 < sumf (in_hand (eqe r i)) (workers (f k)) \/ 0 < pend_in (runners (f k)) r i) by lia.
  assert (IS : forall e, 0 < eqe r i e -> e = (r, i)).
  { intros (r' & i') H. unfold eqe in H. cbn [fst snd] in H. destruct (Nat.eqb_spec r' r), (Nat.eqb_spec i' i); cbn [andb] in H; try lia. now subst. }
  destruct HC as [C|[C|[C|C]]].
  - assert (HC : 0 < sumf (eqe r i) (finished (f k)) \/ 0 < sumf (in_run (eqe r i)) (workers (f k))) by lia. destruct HC as [C'|C'].
    + exists k. split; [lia|]. now apply sumf_in.
    + apply sumf_exists in C' as (p & HP & HQ). apply In_nth_error in HP as (w & HW). unfold in_run in HQ. destruct p; try lia. rewrite (IS _ HQ) in HW.
      destruct (run_done r i w k HW) as (j & L & _ & HF). eauto.
  - apply tasks_finish; auto. now apply sumf_in.
  - apply sumf_exists in C as (p & HP & HQ). apply In_nth_error in HP as (w & HW).
    destruct (got_run r i w k HA) as (j & L & HJ); [unfold in_hand in HQ; destruct p; try lia; rewrite (IS _ HQ) in HW; auto|].
    destruct (run_done r i w j HJ) as (j' & L' & _ & HF). exists j'. split; [lia|assumption].
  - unfold pend_in in C. destruct (nth_error (runners (f k)) r) as [x|] eqn:HX; [|lia]. apply sumf_exists in C as (i' & HP & HQ). apply IS in HQ. injection HQ as ->.
    destruct (leaves_pending r i k HA) as (j & L & HJ); [eauto|]. destruct (tasks_finish r i j HA HJ) as (j' & L' & HF). exists j'. split; [lia|assumption].
Qed.

(** ** Delayed tasks are accepted *)
Lemma timer_up' k : timer (f k) <> TExit.
Proof. destruct (i_up _ _ _ (holds_inv k)) as (_ & U2 & _). apply U2, keeps. Qed.
End Up.

(** The timer goes on. *)
Lemma timer_moves k : timer (f k) <> TExit -> exists j, k <= j /\ timer (f j) = timer (f k) /\ (timer_holds (timer (f k)) = true -> delayed (f j) = delayed (f k)) /\ step n (f j) (f (S j)) /\ tmove (f j) (f (S j)).
Proof.
  intros NE. destruct (timer_holds (timer (f k))) eqn:HH.
  2: { destruct (timer_waits_free _ k HH eq_refl NE) as (j & H1 & H2 & H3 & H4). exists j. repeat split; auto. discriminate. }
  destruct (timer_waits (timer (f k)) (delayed (f k)) k NE eq_refl eq_refl HH) as (j & H1 & H2 & H3 & H4 & H5); [|exists j; repeat split; auto].
  intros m HM EM ED. destruct (timer (f k)) as [| |z|z i|r z i| |] eqn:ET; try discriminate.
  - destruct (nth_error (delayed (f k)) i) as [((r & k0) & t)|] eqn:EN.
    + destruct (released r m) as (j & HL & HJ). exists j. split; [assumption|]. intros E1 E2. rewrite <- E2 in EN.
      pose proof (remove_length _ _ _ EN) as RL.
      destruct (i_mutex _ _ _ (holds_inv j)) as (_ & _ & _ & F3 & _). pose proof (forall_nth _ _ _ _ F3 EN) as FD. cbn [fst] in FD.
      destruct (runner_exists _ r (holds_inv j) FD) as (x & HX). specialize (HJ x HX). unfold can_act. cbn [acts]. rewrite E1.
      destruct (Z_lt_le_dec z t) as [LT|GE].
      * eexists. split; [eapply t_next; eassumption|]. sim. split; [discriminate|]. left. injection as E. lia.
      * destruct (expired x) eqn:EX; [|destruct (kind_of x) eqn:EK].
        -- eexists. split; [eapply t_expired; eassumption|]. sim. split; [discriminate|]. right. lia.
        -- eexists. split; [eapply t_post_sequenced; eassumption|]. match goal with |- context [begin_post ?a ?b ?c ?d ?e] => destruct (begin_post_begun a b c d e) as (x' & tq & aq & HB & ->) end. sim. split; [discriminate|]. left. discriminate.
        -- eexists. split; [eapply t_post_parallel; eassumption|]. match goal with |- context [post_to_manager ?a ?b ?c] => destruct (post_to_manager_posted a b c) as (aq & HA & ->) end. sim. split; [discriminate|]. right. lia.
    + exists m. split; [lia|]. intros _ _. rewrite <- ED in EN. apply nth_error_None in EN. eexists. split; [eapply t_end; eassumption|]. cbn [acts]. rewrite EM. sim. split; [discriminate|]. left. discriminate.
  - exists m. split; [lia|]. intros _ _. destruct (i_mutex _ _ _ (holds_inv m)) as ((_ & _ & M3) & _). destruct (M3 _ _ _ EM) as (y & h' & HY & EY & EO').
    eexists. split; [eapply t_post_end; eassumption|]. cbn [acts]. rewrite EM, (end_post_ended _ _ _ _ EY). sim. split; [discriminate|left; discriminate].
Qed.
Definition scan_weight (s : state) : nat := match timer s with TScan _ i => 1 + 2 * (length (delayed s) - i) | TPosting _ _ i => 2 + 2 * (length (delayed s) - i) | _ => 0 end.
Lemma leaves_scan k : exists j, k <= j /\ timer_holds (timer (f j)) = false /\ (timer_holds (timer (f k)) = true -> timer (f j) = TSleep).
Proof.
  destruct (timer_holds (timer (f k))) eqn:HH; [|exists k; split; [lia|]; split; [assumption|discriminate]].
  remember (scan_weight (f k)) as m eqn:EM. revert k HH EM. induction m as [m IH] using lt_wf_ind. intros k HH ->.
  destruct (timer_moves k) as (j & L & ET & ED & HS & HM); [intros E; rewrite E in HH; discriminate|]. specialize (ED HH).
  unfold tmove in HM. rewrite ET, ED in HM. destruct (timer (f k)) as [| |z|z i|r z i| |] eqn:ETK; try discriminate.
  - destruct HM as [(T1 & T2 & (e & T3 & _))|[(T1 & T2 & (e & T3))|(T1 & T2)]].
    + pose proof (nth_lt _ _ _ T3). destruct (IH (scan_weight (f (S j)))) with (k := S j) as (j' & L' & A1 & A2); auto; [unfold scan_weight; rewrite T1, T2, ETK; lia|now rewrite T1|].
      exists j'. split; [lia|]. split; [assumption|]. intros _. now apply A2.
    + pose proof (nth_lt _ _ _ T3). pose proof (remove_length _ _ _ T3) as RL.
      destruct (IH (scan_weight (f (S j)))) with (k := S j) as (j' & L' & A1 & A2); auto; [unfold scan_weight; rewrite ETK, T2; destruct T1 as [->|(r & ->)]; lia|destruct T1 as [->|(r & ->)]; reflexivity|].
      exists j'. split; [lia|]. split; [assumption|]. intros _. now apply A2.
    + exists (S j). rewrite T1. split; [lia|]. auto.
  - destruct HM as (T1 & T2). destruct (IH (scan_weight (f (S j)))) with (k := S j) as (j' & L' & A1 & A2); auto; [unfold scan_weight; rewrite T1, T2, ETK; lia|now rewrite T1|].
    exists j'. split; [lia|]. split; [assumption|]. intros _. now apply A2.
Qed.
Lemma limbo_once s r i t r' t' : inv n kinds s -> In (r, i, t) (limbo s) -> forall j e, nth_error (limbo s) j = Some e -> e = (r, i, t) -> ~ In (r', i, t') (remove_nth j (limbo s)).
Proof.
  intros HI HL j e HN -> HR. destruct (i_once _ _ _ HI i) as (O & _). unfold known in O.
  pose proof (sumf_remove (fun e : nat * nat * Z => eqn i (snd (fst e))) _ _ _ HN) as SR. apply (sumf_pos (fun e : nat * nat * Z => eqn i (snd (fst e)))) in HR. cbn [fst snd] in *.
  assert (E : eqn i i = 1) by (unfold eqn; now rewrite Nat.eqb_refl). lia.
Qed.
Lemma leaves_limbo r i t k : In (r, i, t) (limbo (f k)) -> exists j, k <= j /\ In (r, i, t) (delayed (f j)).
Proof.
  intros HI. destruct (wait (ThPoster i) (fun s => In (r, i, t) (limbo s)) (fun s s' => In (r, i, t) (delayed s')) k HI) as (j & H1 & H2 & H3 & H4).
  - intros s s' _ HS HL. eapply limbo_step; eassumption.
  - intros s s' _ HS HL (_ & HA). destruct (limbo_step n s s' _ HS HL) as [H|H]; [|assumption]. now apply HA in H.
  - apply acts_irrefl.
  - intros m HM EM. destruct (leaves_scan m) as (j & L & HT & _). exists j. split; [assumption|]. intros EJ.
    pose proof EJ as EJ'. apply In_nth_error in EJ' as (q & HQ). eexists. split; [eapply (c_delay_push n (f j) q); eassumption|]. cbn [acts]. sim.
    split; [eauto|]. intros r' t'. eapply limbo_once; eauto using holds_inv.
  - exists (S j). split; [lia|assumption].
Qed.
Section Delayed.
Hypothesis up : forall k, ever_stopped (f k) = false.
Variable r : nat.
Hypothesis lives : forall k, alive (f k) r.
Definition posted (i : nat) (s : state) : Prop := In (r, i) (accepted s) \/ queued_up (runners s) r i.
Lemma stays_delayed i t k j : k <= j -> In (r, i, t) (delayed (f k)) -> In (r, i, t) (delayed (f j)) \/ exists m, k <= m <= j /\ posted i (f m).
Proof.
  intros L HD. induction L as [|j L IH]; [auto|]. destruct IH as [IH|(m & HM & HP)]; [|right; exists m; split; [lia|assumption]].
  destruct (runs j) as [->|HS]; [auto|]. destruct (delayed_step n kinds _ _ r i t (holds_inv j) (up j) HS IH (lives j)) as [|HP]; [auto|]. right. exists (S j). split; [lia|exact HP].
Qed.
Lemma remove_before {A} (l : list A) i q e : nth_error l q = Some e -> i < q -> nth_error (remove_nth i l) (q - 1) = Some e.
Proof.
  revert i q. induction l as [|y l IH]; intros [|i] [|q] H L; try discriminate; try lia; cbn [remove_nth nth_error] in *.
  - cbn [Nat.sub]. now rewrite Nat.sub_0_r.
  - replace (S q - 1) with (S (q - 1)) by lia. cbn [nth_error]. apply IH; [assumption|lia].
Qed.
(** A scan that comes to a task that is due posts it. *)
Lemma scan_hits i t z k : (t <= z)%Z -> (exists a q, (timer (f k) = TScan z a \/ exists r, timer (f k) = TPosting r z a) /\ a <= q /\ nth_error (delayed (f k)) q = Some (r, i, t)) ->
  exists j, k <= j /\ posted i (f j).
Proof.
  intros HZ. remember (scan_weight (f k)) as m eqn:EM. revert k EM. induction m as [m IH] using lt_wf_ind. intros k -> (a & q & HT & LQ & HN).
  destruct (timer_moves k) as (j & L & ET & ED & HS & HM); [intros E; rewrite E in HT; destruct HT as [HT|(? & HT)]; discriminate|]. assert (ED' : delayed (f j) = delayed (f k)) by (apply ED; destruct HT as [->|(r0 & ->)]; reflexivity). clear ED.
  assert (HD : In (r, i, t) (delayed (f j))) by (rewrite ED'; eapply nth_error_In; eassumption).
  destruct (delayed_step n kinds _ _ r i t (holds_inv j) (up j) HS HD (lives j)) as [HD'|HP]; [|exists (S j); split; [lia|exact HP]].
  assert (GO : scan_weight (f (S j)) < scan_weight (f k) -> (exists a q, (timer (f (S j)) = TScan z a \/ exists r, timer (f (S j)) = TPosting r z a) /\ a <= q /\ nth_error (delayed (f (S j))) q = Some (r, i, t)) -> exists j, k <= j /\ posted i (f j)).
  { intros W HX. destruct (IH _ W (S j) eq_refl HX) as (j' & L' & HP). exists j'. split; [lia|assumption]. }
  unfold scan_weight in GO. unfold tmove in HM. rewrite ET, ED' in HM. destruct HT as [HT|(r0 & HT)]; rewrite HT in HM, GO.
  - pose proof (nth_lt _ _ _ HN) as LL. destruct HM as [(T1 & T2 & (e & T3 & T4))|[(T1 & T2 & (e & T3))|(T1 & T2)]]; [| |lia].
    + apply GO; [rewrite T1, T2; lia|]. exists (S a), q. split; [auto|]. rewrite T2. split; [|assumption]. enough (a <> q) by lia. intros ->. rewrite HN in T3. injection T3 as <-. cbn [snd] in T4. lia.
    + pose proof (remove_length _ _ _ T3) as RL. destruct (Nat.eq_dec a q) as [->|N].
      * (* the entry itself was removed; it cannot be there a second time *)
        exfalso. rewrite T2 in HD'. rewrite HN in T3. destruct (i_once _ _ _ (holds_inv k) i) as (O & _). unfold known in O.
        pose proof (sumf_remove (fun e : nat * nat * Z => eqn i (snd (fst e))) _ _ _ HN) as SR. apply (sumf_pos (fun e : nat * nat * Z => eqn i (snd (fst e)))) in HD'. cbn [fst snd] in *.
        assert (E : eqn i i = 1) by (unfold eqn; now rewrite Nat.eqb_refl). lia.
      * apply GO; [rewrite T2; destruct T1 as [->|(r1 & ->)]; lia|]. exists a, (q - 1). split; [destruct T1 as [->|(r1 & ->)]; eauto|]. split; [lia|]. rewrite T2. apply remove_before; [assumption|lia].
  - destruct HM as (T1 & T2). apply GO; [rewrite T1, T2; lia|]. exists a, q. rewrite T1, T2. auto.
Qed.
Lemma clock_grows k j : k <= j -> (clock (f k) <= clock (f j))%Z.
Proof. intros L. induction L as [|j L IH]; [lia|]. destruct (runs j) as [->|HS]; [assumption|]. destruct (log_step n _ _ HS) as (_ & _ & H & _). lia. Qed.
Lemma delayed_posted i t k : time_passes f -> In (r, i, t) (delayed (f k)) -> exists j, k <= j /\ posted i (f j).
Proof.
  intros TP HD. destruct (TP t) as (k1 & HK).
  assert (NX : forall m, timer (f m) <> TExit) by (intros m; eapply timer_up'; eassumption).
  (* to the sleep, with time passed *)
  assert (GO : forall m, k <= m -> forall t0, timer (f m) = t0 -> timer_holds t0 = false -> exists j, m <= j /\ step n (f j) (f (S j)) /\ timer (f j) = t0 /\ tmove (f j) (f (S j))).
  { intros m _ t0 E HH. destruct (timer_waits_free t0 m HH E) as (j & H1 & H2 & H3 & H4); [rewrite <- E; apply NX|]. eauto 10. }
  set (m0 := Nat.max k k1). assert (C0 : forall m, m0 <= m -> (t <= clock (f m))%Z) by (intros m L; pose proof (clock_grows k1 m ltac:(lia)); lia).
  assert (S1 : exists m, m0 <= m /\ timer (f m) = TNow).
  { assert (SL : forall m, timer (f m) = TSleep -> m0 <= m -> exists m', m0 <= m' /\ timer (f m') = TNow).
    { intros m E L. destruct (GO m ltac:(lia) _ E eq_refl) as (j & L1 & _ & E1 & M1). unfold tmove in M1. rewrite E1 in M1.
      destruct (GO (S j) ltac:(lia) _ M1 eq_refl) as (j2 & L2 & _ & E2 & M2). unfold tmove in M2. rewrite E2, (proj1 (keeps up j2)) in M2. exists (S j2). split; [lia|assumption]. }
    destruct (leaves_scan m0) as (m1 & L1 & HH & SS). destruct (timer (f m1)) as [| |z|z a|r0 z a| |] eqn:ET; try discriminate.
    - destruct (GO m1 ltac:(lia) _ ET eq_refl) as (j2 & L2 & _ & E2 & M2). unfold tmove in M2. rewrite E2, (proj1 (keeps up j2)) in M2. exists (S j2). split; [lia|assumption].
    - eauto.
    - destruct (GO m1 ltac:(lia) _ ET eq_refl) as (j2 & L2 & _ & E2 & M2). unfold tmove in M2. rewrite E2 in M2.
      destruct (leaves_scan (S j2)) as (m3 & L3 & _ & SS3). apply (SL m3); [apply SS3; now rewrite M2|lia].
    - apply (SL m1 ET L1).
    - now apply NX in ET. }
  destruct S1 as (m1 & L1 & E1). destruct (GO m1 ltac:(lia) _ E1 eq_refl) as (j2 & L2 & _ & E2 & M2). unfold tmove in M2. rewrite E2 in M2.
  destruct (GO (S j2) ltac:(lia) _ M2 eq_refl) as (j3 & L3 & S3 & E3 & M3). unfold tmove in M3. rewrite E3 in M3.
  destruct (stays_delayed i t k (S j3) ltac:(lia) HD) as [HD3|(m & LM & HP)]; [|exists m; split; [lia|assumption]].
  apply In_nth_error in HD3 as (q & HQ). destruct (scan_hits i t (clock (f j2)) (S j3)) as (j & L & HP); [apply C0; lia|exists 0, q; split; [auto|split; [lia|assumption]]|]. exists j. split; [lia|assumption].
Qed.
Lemma posted_accepted i k : posted i (f k) -> exists j, k <= j /\ In (r, i) (accepted (f j)).
Proof.
  intros [HA|HQ]; [eauto|]. destruct (released r k) as (j & L & HJ).
  destruct (until (fun s => queued_up (runners s) r i) (fun s s' => In (r, i) (accepted s')) k j L HQ) as [(y & HY & IY)|(m & HM & _ & _ & HA)].
  - intros s s' _ HS H. eapply queued_step; eassumption.
  - unfold to_queue in IY. rewrite (HJ _ HY) in IY. destruct IY.
  - exists (S m). split; [lia|assumption].
Qed.
Lemma delay_accepted i k : time_passes f -> In (r, i) (delay_log (f k)) -> exists j, k <= j /\ In (r, i) (accepted (f j)).
Proof.
  intros TP HD. destruct (reaches_taken n kinds (f k) (reached k) (up k) r i HD (lives k)) as [H|[(t & H)|H]]; [eauto| |apply posted_accepted; now right].
  assert (HJ : exists j, k <= j /\ In (r, i, t) (delayed (f j))) by (destruct H as [H|H]; [now apply leaves_limbo|eauto]).
  destruct HJ as (j & L & HJ). destruct (delayed_posted i t j TP HJ) as (j1 & L1 & HP). destruct (posted_accepted i j1 HP) as (j2 & L2 & HA). exists j2. split; [lia|assumption].
Qed.
End Delayed.

(** ** stop() returns *)
Section Stop.
Variable k0 : nat.
Hypothesis stopping : phase (f k0) = Stopping.
Definition returned (j : nat) : Prop := exists m, k0 <= m <= j /\ phase (f m) = Stopped.
Lemma still j : k0 <= j -> phase (f j) = Stopping \/ returned j.
Proof.
  intros L. induction L as [|j L IH]; [auto|]. destruct IH as [IH|(m & HM & HP)]; [|right; exists m; split; [lia|assumption]].
  destruct (runs j) as [->|HS]; [auto|]. destruct (phase_step n _ _ HS IH) as [|H]; [auto|]. right. exists (S j). split; [lia|assumption].
Qed.
Lemma stop_keep j : phase (f j) = Stopping -> keep (f j) = false.
Proof. intros E. destruct (i_phase _ _ _ (holds_inv j)) as (P1 & _). apply P1. congruence. Qed.
Lemma exit_stays w k j : k0 <= k -> k <= j -> pc (f k) w = Some WExit -> pc (f j) w = Some WExit \/ returned j.
Proof.
  intros L0 L H. induction L as [|j L IH]; [auto|]. destruct IH as [IH|(m & HM & HP)]; [|right; exists m; split; [lia|assumption]].
  destruct (still j ltac:(lia)) as [SJ|(m & HM & HP)]; [|right; exists m; split; [lia|assumption]].
  destruct (runs j) as [->|HS]; [auto|]. destruct (worker_step n kinds _ _ w _ (holds_inv j) HS IH) as (p' & E & [->|M]); [auto|]. cbn [wmove] in M. congruence.
Qed.
Definition stop_rank (p : worker_pc) : nat :=
  match p with WExit => 0 | WLoop => 1 | WHold _ => 2 | WDone _ => 3 | WRun _ => 4 | WLock _ => 5 | WGot _ => 6 | WPop => 7 end.
Lemma worker_exits w k : k0 <= k -> w < n -> exists j, k <= j /\ (pc (f j) w = Some WExit \/ returned j).
Proof.
  intros L0 HW. assert (HP : exists p, pc (f k) w = Some p).
  { destruct (i_up _ _ _ (holds_inv k)) as (_ & _ & U3 & _). rewrite <- U3 in HW. apply nth_error_Some in HW. unfold pc. destruct (nth_error (workers (f k)) w); [eauto|congruence]. }
  destruct HP as (p & HP). remember (stop_rank p) as m eqn:EM. revert k p L0 HP EM. induction m as [m IH] using lt_wf_ind. intros k p L0 HP ->.
  assert (D : p = WExit \/ p <> WExit) by (destruct p; first [left; reflexivity | right; discriminate]). destruct D as [->|D]; [eauto|].
  destruct (any_moves w p k HP D) as (j & p' & H1 & H2 & H3 & H4 & H5 & H6). destruct (still j ltac:(lia)) as [SJ|HR]; [|eauto].
  destruct (IH (stop_rank p') ltac:(unfold wmove in H6; rewrite ?(stop_keep j SJ) in H6; destruct p as [| |e|(r & i)|(r & i)|r|r|]; try congruence; cbn [stop_rank]; repeat match goal with H : _ \/ _ |- _ => destruct H | H : _ /\ _ |- _ => destruct H | H : exists _, _ |- _ => destruct H end; subst; cbn [stop_rank]; lia) (S j) p' ltac:(lia) H4 eq_refl) as (j' & L' & HJ).
  exists j'. split; [lia|assumption].
Qed.
Lemma returned_dec j1 : ~ returned j1 \/ returned j1.
Proof.
  unfold returned. induction j1 as [|j IHj].
  - destruct (Nat.eq_dec k0 0) as [->|N]; [|left; intros (m & HM & _); lia]. destruct (phase (f 0)) eqn:E; [left; intros (m & HM & HP); assert (m = 0) as -> by lia; congruence..|right; exists 0; auto].
  - destruct IHj as [IHj|(m & HM & HP)]; [|right; exists m; split; [lia|assumption]]. destruct (le_lt_dec k0 (S j)); [|left; intros (m & HM & _); lia].
    destruct (phase (f (S j))) eqn:E; [left; intros (m & HM & HP); destruct (Nat.eq_dec m (S j)) as [->|]; [congruence|]; apply IHj; exists m; split; [lia|assumption]..|right; exists (S j); split; [lia|assumption]].
Qed.
Lemma workers_exit m : m <= n -> exists j, k0 <= j /\ ((forall w, w < m -> pc (f j) w = Some WExit) \/ returned j).
Proof.
  induction m as [|m IH]; intros L; [exists k0; split; [lia|]; left; intros; lia|]. destruct IH as (j & L1 & [H|H]); [lia| |eauto].
  destruct (worker_exits m j L1 ltac:(lia)) as (j1 & L2 & [H1|H1]); [|exists j1; split; [lia|auto]].
  exists j1. split; [lia|]. destruct (still j1 ltac:(lia)) as [SJ|HR]; [|auto].
  pose proof (returned_dec j1) as HN.
  destruct HN as [HN|HN]; [|auto]. left. intros w HW. destruct (Nat.eq_dec w m) as [->|N]; [assumption|]. destruct (exit_stays w j j1 L1 L2 (H w ltac:(lia))); [assumption|contradiction].
Qed.
Lemma timer_exit_stays k j : k0 <= k -> k <= j -> timer (f k) = TExit -> timer (f j) = TExit \/ returned j.
Proof.
  intros L0 L H. induction L as [|j L IH]; [auto|]. destruct IH as [IH|(m & HM & HP)]; [|right; exists m; split; [lia|assumption]].
  destruct (still j ltac:(lia)) as [SJ|(m & HM & HP)]; [|right; exists m; split; [lia|assumption]].
  destruct (runs j) as [->|HS]; [auto|]. destruct (timer_step n kinds _ _ (holds_inv j) HS) as [(E & _)|M]; [left; congruence|]. unfold tmove in M. rewrite IH in M. congruence.
Qed.
Lemma timer_exits : forall k, k0 <= k -> exists j, k <= j /\ (timer (f j) = TExit \/ returned j).
Proof.
  assert (A1 : forall k, k0 <= k -> timer (f k) = TLoop -> exists j, k <= j /\ (timer (f j) = TExit \/ returned j)).
  { intros k L E. destruct (timer_moves k) as (j & L1 & ET & _ & HS & M); [rewrite E; discriminate|]. destruct (still j ltac:(lia)) as [SJ|HR]; [|eauto]. unfold tmove in M. rewrite ET, E, (stop_keep j SJ) in M. exists (S j). split; [lia|auto]. }
  assert (A2 : forall k, k0 <= k -> timer (f k) = TSleep -> exists j, k <= j /\ (timer (f j) = TExit \/ returned j)).
  { intros k L E. destruct (timer_moves k) as (j & L1 & ET & _ & HS & M); [rewrite E; discriminate|]. unfold tmove in M. rewrite ET, E in M. destruct (A1 (S j) ltac:(lia) M) as (j1 & L2 & H). exists j1. split; [lia|assumption]. }
  assert (A3 : forall k, k0 <= k -> timer_holds (timer (f k)) = true -> exists j, k <= j /\ (timer (f j) = TExit \/ returned j)).
  { intros k L E. destruct (leaves_scan k) as (j & L1 & _ & HJ). destruct (A2 j ltac:(lia) (HJ E)) as (j1 & L2 & H). exists j1. split; [lia|assumption]. }
  assert (A4 : forall k z, k0 <= k -> timer (f k) = TLock z -> exists j, k <= j /\ (timer (f j) = TExit \/ returned j)).
  { intros k z L E. destruct (timer_moves k) as (j & L1 & ET & _ & HS & M); [rewrite E; discriminate|]. unfold tmove in M. rewrite ET, E in M. destruct (A3 (S j) ltac:(lia)) as (j1 & L2 & H); [now rewrite M|]. exists j1. split; [lia|assumption]. }
  intros k L. destruct (timer (f k)) as [| |z|z i|r z i| |] eqn:E; eauto.
  - destruct (timer_moves k) as (j & L1 & ET & _ & HS & M); [rewrite E; discriminate|]. unfold tmove in M. rewrite ET, E in M. destruct (A4 (S j) _ ltac:(lia) M) as (j1 & L2 & H). exists j1. split; [lia|assumption].
  - apply A3; [assumption|now rewrite E].
  - apply A3; [assumption|now rewrite E].
Qed.
Lemma all_exit s : length (workers s) = n -> (forall w, w < n -> pc s w = Some WExit) -> Forall (eq WExit) (workers s).
Proof. intros HL H. apply Forall_forall. intros p HI. apply In_nth_error in HI as (w & HW). pose proof (nth_lt _ _ _ HW) as LW. specialize (H w ltac:(lia)). unfold pc in H. congruence. Qed.
Lemma stops : exists j, k0 <= j /\ phase (f j) = Stopped.
Proof.
  assert (RE : forall j, returned j -> exists j, k0 <= j /\ phase (f j) = Stopped) by (intros j (m & HM & HP); exists m; split; [lia|assumption]).
  destruct (workers_exit n ltac:(lia)) as (j1 & L1 & [W1|R1]); [|eauto]. destruct (timer_exits j1 L1) as (j2 & L2 & [T2|R2]); [|eauto].
  destruct (returned_dec j2) as [NR|HR]; [|eauto]. destruct (still j2 ltac:(lia)) as [SJ|HR]; [|contradiction].
  assert (W2 : forall w, w < n -> pc (f j2) w = Some WExit) by (intros w HW; destruct (exit_stays w j1 j2 L1 L2 (W1 w HW)); [assumption|contradiction]).
  destruct (wait ThStopper (fun s => phase s = Stopping /\ Forall (eq WExit) (workers s) /\ timer s = TExit) (fun s s' => phase s' = Stopped) j2) as (j & H1 & H2 & H3 & H4).
  - split; [assumption|]. split; [|assumption]. apply all_exit; [|assumption]. apply (i_up _ _ _ (holds_inv j2)).
  - intros s s' HI HS (E1 & E2 & E3). destruct (phase_step n _ _ HS E1) as [E|E]; [left|auto]. split; [assumption|]. split.
    + apply all_exit; [apply (i_up _ _ _ (inv_step _ _ _ _ HI HS))|]. intros w HW. assert (HP : pc s w = Some WExit).
      { unfold pc. pose proof (proj1 (proj2 (proj2 (i_up _ _ _ HI)))) as U3. rewrite <- U3 in HW. apply nth_error_Some in HW. destruct (nth_error (workers s) w) as [p|] eqn:EW; [|congruence]. now rewrite (exited_nth _ _ _ E2 EW). }
      destruct (worker_step n kinds _ _ w _ HI HS HP) as (p' & HP' & [->|M]); [assumption|]. cbn [wmove] in M. congruence.
    + destruct (timer_step n kinds _ _ HI HS) as [(ET & _)|M]; [congruence|]. unfold tmove in M. rewrite E3 in M. congruence.
  - intros s s' _ _ _ (_ & H). exact H.
  - apply acts_irrefl.
  - intros m HM _. exists m. split; [lia|]. intros (E1 & E2 & E3). eexists. split; [apply k_stopped; assumption|]. cbn [acts]. auto.
  - exists (S j). split; [lia|assumption].
Qed.
End Stop.
End Fair.
