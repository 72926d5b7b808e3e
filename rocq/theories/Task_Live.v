(** Progress of the task manager model: accepted tasks can always be finished, and stop() can always return. *)
From Verif Require Import Common Concurrent_Model Concurrent_Proofs Task_Model Task_Spec Task_Proofs.
Local Open Scope nat_scope.

Section Live.
Variable n : nat.
Variable kinds : list runner_kind.

(** A measure of the work that is left; [a], [b]: weights of a worker at the head of its loop and at its pop. *)
Definition worker_weight (a b : nat) (p : worker_pc) : nat :=
  match p with WLoop => a | WPop => b | WGot _ => 12 | WLock _ => 11 | WRun _ => 10 | WDone _ => 9 | WHold _ => 5 | WExit => 0 end.
Definition hold_weight (h : option held) : nat := match h with None => 0 | Some h => 2 + match queue_up h with Some _ => 22 | None => 0 end end.
Definition runner_weight (x : runner) : nat := 21 * length (pending x) + hold_weight (hold x).
Definition timer_weight (m : nat) (t : timer_pc) : nat :=
  match t with TExit => 0 | TLoop => 1 | TSleep => 2 | TScan _ i => 3 + (m - i) | TPosting _ _ i => 4 + (m - i) | TLock _ => 5 + m | TNow => 6 + m end.
Definition measure (a b : nat) (s : state) : nat :=
  sumf (worker_weight a b) (workers s) + 20 * length (tasks s) + sumf runner_weight (runners s) + 60 * length (delayed s) + timer_weight (length (delayed s)) (timer s).

Lemma begun_weight s r x who task x' tq aq : begun s r x who task x' tq aq -> hold x = None ->
  20 * length tq + runner_weight x' <= runner_weight x + match task with None => 2 | Some _ => 24 end.
Proof.
  intros HB HH. unfold runner_weight, hold_weight. rewrite HH. destruct HB; cbn [pending hold queue_up length]; repeat match goal with H : pending _ = _ |- _ => rewrite H end; cbn [length]; try destruct task; lia.
Qed.
Lemma end_weight x h : hold x = Some h -> runner_weight (Runner (kind_of x) (pending x ++ to_queue x) (flag_after x) None (expired x)) < runner_weight x.
Proof. intros H. unfold runner_weight, to_queue, hold_weight. rewrite H. cbn [pending hold]. rewrite app_length. destruct (queue_up h); cbn [length]; lia. Qed.
Lemma remove_length {A} (l : list A) i e : nth_error l i = Some e -> S (length (remove_nth i l)) = length l.
Proof. revert i; induction l as [|y l IH]; intros [|i] H; try discriminate; cbn [remove_nth nth_error length] in *; [reflexivity|]. now rewrite (IH _ H). Qed.

(** What a step of the threads leaves as it was. *)
Definition same (s s' : state) : Prop :=
  next s' = next s /\ ever_stopped s' = ever_stopped s /\ phase s' = phase s /\ keep s' = keep s /\ map expired (runners s') = map expired (runners s) /\ exists a, accepted s' = accepted s ++ a.
Lemma same_refl s : same s s.
Proof. repeat split. exists []. now rewrite app_nil_r. Qed.
Lemma same_trans s s' s'' : same s s' -> same s' s'' -> same s s''.
Proof. intros (A & B & C & D & E & (a & F)) (A' & B' & C' & D' & E' & (a' & F')). repeat split; try congruence. exists (a ++ a'). rewrite F', F. now rewrite app_assoc. Qed.
(** Only the clock, the delayed tasks and the timer may differ. *)
Definition quiet (s s' : state) : Prop := delayed s' = delayed s /\ limbo s' = limbo s /\ clock s' = clock s /\ deadlines s' = deadlines s /\ delay_log s' = delay_log s.

Definition timer_next (s s' : state) : Prop :=
  match timer s with
  | TScan z i => timer s' = timer s \/ timer s' = TScan z (S i) /\ (exists e, nth_error (delayed s) i = Some e /\ (z < snd e)%Z) \/ (exists r, timer s' = TPosting r z i) \/ timer s' = TSleep /\ length (delayed s) <= i
  | TPosting r z i => timer s' = timer s \/ timer s' = TScan z i
  | _ => True
  end.
Lemma release_timer a b s r x h : 0 < a -> a <= 5 -> b <= 11 -> inv n kinds s -> nth_error (runners s) r = Some x -> hold x = Some h ->
  exists s', step n s s' /\ measure a b s' < measure a b s /\ same s s' /\ quiet s s' /\ timer_next s s'.
Proof.
  intros A1 A2 A3 HI HX HH. destruct (i_mutex _ _ _ HI) as ((M1 & _) & _). destruct (M1 _ _ _ HX HH) as (K & O).
  pose proof (end_weight _ _ HH) as EW. unfold holds_ok in O. destruct (holder h) as [|w|] eqn:EO.
  - eexists. split; [eapply c_post_end; eassumption|]. rewrite (end_post_ended _ _ _ _ HH). unfold measure, same, quiet, timer_next. sim.
    pose proof (sumf_upd runner_weight _ _ _ (Runner (kind_of x) (pending x ++ to_queue x) (flag_after x) None (expired x)) HX) as U.
    repeat split; [lia|apply (map_upd _ _ _ _ x HX); reflexivity|eauto|destruct (timer s); auto].
  - eexists. split; [eapply w_complete_end; eassumption|]. rewrite (end_post_ended _ _ _ _ HH). unfold measure, same, quiet, timer_next. sim.
    pose proof (sumf_upd runner_weight _ _ _ (Runner (kind_of x) (pending x ++ to_queue x) (flag_after x) None (expired x)) HX) as U.
    pose proof (sumf_upd (worker_weight a b) _ _ _ WLoop O) as V. cbn [worker_weight] in V.
    repeat split; [lia|apply (map_upd _ _ _ _ x HX); reflexivity|eauto|destruct (timer s); auto].
  - destruct O as (z & i & O). eexists. split; [eapply t_post_end; eassumption|]. rewrite (end_post_ended _ _ _ _ HH). unfold measure, same, quiet, timer_next. sim.
    pose proof (sumf_upd runner_weight _ _ _ (Runner (kind_of x) (pending x ++ to_queue x) (flag_after x) None (expired x)) HX) as U. rewrite O. cbn [timer_weight].
    repeat split; [lia|apply (map_upd _ _ _ _ x HX); reflexivity|eauto|destruct (timer s); auto].
Qed.
Lemma release a b s r x h : 0 < a -> a <= 5 -> b <= 11 -> inv n kinds s -> nth_error (runners s) r = Some x -> hold x = Some h ->
  exists s', step n s s' /\ measure a b s' < measure a b s /\ same s s' /\ quiet s s'.
Proof. intros A1 A2 A3 HI HX HH. destruct (release_timer a b s r x h) as (s' & H1 & H2 & H3 & H4 & _); eauto. Qed.
Ltac one_step U HW := unfold measure, same, quiet; sim; match goal with |- context [upd ?ws ?w ?p] => pose proof (sumf_upd (worker_weight _ _) ws w _ p HW) as U end.
(** A worker that has a task, or is about to fetch one, can go on, or the holder of a mutex can. *)
Lemma worker_goes_on a b s w p : 0 < a -> a <= 8 -> a <= 5 -> b <= 11 -> inv n kinds s -> nth_error (workers s) w = Some p ->
  match p with WGot _ | WLock _ | WRun _ | WDone _ | WHold _ => True | _ => False end ->
  exists s', step n s s' /\ measure a b s' < measure a b s /\ same s s' /\ quiet s s'.
Proof.
  intros A0 A1 A2 A3 HI HW HP. destruct (i_mutex _ _ _ HI) as ((M1 & M2 & M3) & F1 & F2 & F3 & F4). pose proof (forall_nth _ _ _ _ F2 HW) as FP.
  assert (EX : forall r, r < length (runners s) -> exists x, nth_error (runners s) r = Some x).
  { intros r H. apply nth_error_Some in H. destruct (nth_error (runners s) r); [eauto|congruence]. }
  assert (NP : exists t, accepted s = accepted s ++ t) by (exists []; now rewrite app_nil_r).
  destruct p as [| |e|(r & i)|(r & i)|r|r|]; try contradiction; cbn [pc_ok fst] in FP.
  - eexists. split; [eapply w_check; eassumption|]. unfold measure, same, quiet. sim.
    pose proof (sumf_upd (worker_weight a b) _ _ _ (if keep s then WLock e else WLoop) HW) as U. destruct (keep s); cbn [worker_weight] in U; repeat split; auto; lia.
  - destruct (EX r FP) as (x & HX). destruct (expired x) eqn:E; (eexists; split; [first [eapply w_expired; eassumption | eapply w_start; eassumption]|]); unfold measure, same, quiet; sim.
    + pose proof (sumf_upd (worker_weight a b) _ _ _ WLoop HW) as U. cbn [worker_weight] in U. repeat split; auto; lia.
    + pose proof (sumf_upd (worker_weight a b) _ _ _ (WRun (r, i)) HW) as U. cbn [worker_weight] in U. repeat split; auto; lia.
  - eexists. split; [eapply w_finish; eassumption|]. unfold measure, same, quiet. sim. pose proof (sumf_upd (worker_weight a b) _ _ _ (WDone r) HW) as U. cbn [worker_weight] in U. repeat split; auto; lia.
  - destruct (EX r FP) as (x & HX). destruct (hold x) as [h|] eqn:EH; [eapply release; eauto|]. destruct (kind_of x) eqn:EK.
    + eexists. split; [eapply w_complete_sequenced; eassumption|]. destruct (begin_post_begun (with_worker s w (WHold r)) r x (AWorker w) None) as (x' & tq & aq & HB & ->).
      pose proof (begun_weight _ _ _ _ _ _ _ _ HB EH) as BW. destruct (begun_runner _ _ _ _ _ _ _ _ HB) as (_ & _ & EE). unfold measure, same, quiet. sim.
      pose proof (sumf_upd (worker_weight a b) _ _ _ (WHold r) HW) as U. cbn [worker_weight] in U. pose proof (sumf_upd runner_weight _ _ _ x' HX) as V. rewrite app_length.
      repeat split; auto; [lia| |eauto]. apply (map_upd _ _ _ _ x HX). assumption.
    + eexists. split; [eapply w_complete_parallel; eassumption|]. unfold measure, same, quiet. sim. pose proof (sumf_upd (worker_weight a b) _ _ _ WLoop HW) as U. cbn [worker_weight] in U. repeat split; auto; lia.
  - destruct (M2 _ _ HW) as (x & h & HX & HH & _). eapply release; eauto.
Qed.
(** Nothing is left to do. *)
Definition settled (s : state) : Prop := tasks s = [] /\ Forall (eq WPop) (workers s) /\ (forall r x, nth_error (runners s) r = Some x -> hold x = None).
Lemma find_worker (P : worker_pc -> Prop) (D : forall p, {P p} + {~ P p}) ws : Forall P ws \/ exists w p, nth_error ws w = Some p /\ ~ P p.
Proof.
  induction ws as [|p ws [IH|(w & p' & H & N)]]; [auto| |].
  - destruct (D p) as [Y|N]; [auto|]. right. exists 0, p. auto.
  - right. exists (S w), p'. auto.
Qed.
Lemma find_hold rs : (forall r x, nth_error rs r = Some x -> hold x = None) \/ exists r x h, nth_error rs r = Some x /\ hold x = Some h.
Proof.
  induction rs as [|y rs [IH|(r & x & h & H & E)]].
  - left. intros [|r] x H; discriminate.
  - destruct (hold y) as [h|] eqn:E; [right; exists 0, y, h; auto|]. left. intros [|r] x H; cbn [nth_error] in H; [congruence|eauto].
  - right. exists (S r), x, h. auto.
Qed.
Lemma drain_progress s : inv n kinds s -> ever_stopped s = false -> 0 < n -> settled s \/
  exists s', step n s s' /\ measure 2 1 s' < measure 2 1 s /\ same s s' /\ quiet s s'.
Proof.
  intros HI HE HN. pose proof (i_phase _ _ _ HI) as (P1 & P2 & _). pose proof (i_up _ _ _ HI) as (U1 & _ & U3 & _).
  assert (EK : keep s = true). { destruct (phase s) eqn:E; [auto|destruct P1 as (_ & E'); congruence..]. }
  assert (NP : exists t, accepted s = accepted s ++ t) by (exists []; now rewrite app_nil_r).
  destruct (find_hold (runners s)) as [NH|(r & x & h & HX & HH)]; [|right; eapply release; eauto; lia].
  destruct (find_worker (eq WPop) ltac:(intros p; destruct p; first [left; reflexivity | right; discriminate]) (workers s)) as [FW|(w & p & HW & N)].
  - destruct (tasks s) as [|e q] eqn:ET; [left; repeat split; auto|]. right.
    destruct (workers s) as [|p ws] eqn:EW; [cbn [length] in U3; lia|]. inversion FW as [|? ? E _]; subst p.
    assert (HW : nth_error (workers s) 0 = Some WPop) by (rewrite EW; reflexivity).
    eexists. split; [eapply (w_pop n s 0); eassumption|]. unfold measure, same, quiet. sim. pose proof (sumf_upd (worker_weight 2 1) _ _ _ (WGot e) HW) as U. cbn [worker_weight] in U. rewrite ET. cbn [length].
    repeat split; auto; lia.
  - right. destruct p as [| |e|e|e|r|r|]; try congruence; try (eapply worker_goes_on; eauto; try exact I; lia).
    + eexists. split; [eapply w_loop; eassumption|]. rewrite EK. unfold measure, same, quiet. sim. pose proof (sumf_upd (worker_weight 2 1) _ _ _ WPop HW) as U. cbn [worker_weight] in U. repeat split; auto; lia.
    + specialize (U1 EK). now pose proof (forall_nth _ _ _ _ U1 HW).
Qed.
Lemma steps_front s s' s'' : step n s s' -> steps n s' s'' -> steps n s s''.
Proof. intros HS H. induction H; [eapply steps_more; [apply steps_none|assumption]|eapply steps_more; eauto]. Qed.
Lemma quiet_trans s s' s'' : quiet s s' -> quiet s' s'' -> quiet s s''.
Proof. unfold quiet. intuition congruence. Qed.
Lemma drain s : inv n kinds s -> ever_stopped s = false -> 0 < n -> exists s', steps n s s' /\ same s s' /\ quiet s s' /\ settled s'.
Proof.
  intros HI HE HN. remember (measure 2 1 s) as m eqn:EM. revert s HI HE EM. induction m as [m IH] using lt_wf_ind. intros s HI HE ->.
  destruct (drain_progress s HI HE HN) as [HS|(s1 & HS & HM & HA & HQ)].
  - exists s. repeat split; try apply same_refl; try apply HS. apply steps_none.
  - destruct (IH _ HM s1 (inv_step _ _ _ _ HI HS)) as (s2 & H1 & H2 & H3 & H4); [destruct HA as (_ & -> & _); assumption|reflexivity|].
    exists s2. split; [eapply steps_front; eauto|]. split; [eapply same_trans; eauto|]. split; [eapply quiet_trans; eauto|assumption].
Qed.
(** When nothing is left to do, every accepted task of a live runner has been finished. *)
Lemma settled_finished s : inv n kinds s -> ever_stopped s = false -> settled s -> forall r i, In (r, i) (accepted s) -> alive s r -> In (r, i) (finished s).
Proof.
  intros HI HE (ET & FW & NH) r i HA HL.
  assert (Z : forall f : worker_pc -> nat, f WPop = 0 -> sumf f (workers s) = 0) by (intros f E; apply sumf_zero; intros p HP; rewrite Forall_forall in FW; now rewrite <- (FW _ HP)).
  destruct (i_flow _ _ _ HI r i) as (_ & F2 & F3). specialize (F2 HE HL). unfold whereabouts in F2. rewrite ET, sumf_nil, (Z (in_hand _)) in F2 by reflexivity. rewrite (Z (in_run _)) in F3 by reflexivity.
  assert (HP : pend_in (runners s) r i = 0).
  { destruct HL as (x & HX & EX). unfold pend_in. rewrite HX. enough (E : pending x = []) by now rewrite E. destruct (kind_of x) eqn:EK.
    - destruct (i_tokens _ _ _ HI _ _ HX EK) as (T1 & T2 & T3). destruct T3 as (T4 & T5); [auto|]. destruct (flag_after x); [|now apply T5]. specialize (T4 eq_refl).
      unfold tokens in T4. rewrite ET, sumf_nil, !Z in T4 by reflexivity. lia.
    - destruct (i_up _ _ _ HI) as (_ & _ & _ & U4 & _). eauto. }
  apply sumf_in. apply sumf_in in HA. lia.
Qed.

(** * stop() *)
Lemma stop_progress s : inv n kinds s -> phase s = Stopping -> Forall (eq WExit) (workers s) /\ timer s = TExit \/
  exists s', step n s s' /\ measure 2 3 s' < measure 2 3 s /\ same s s'.
Proof.
  intros HI HP. pose proof (i_phase _ _ _ HI) as (P1 & _). assert (EK : keep s = false) by (apply P1; congruence).
  assert (NP : exists t, accepted s = accepted s ++ t) by (exists []; now rewrite app_nil_r).
  assert (RL : forall r x h, nth_error (runners s) r = Some x -> hold x = Some h -> exists s', step n s s' /\ measure 2 3 s' < measure 2 3 s /\ same s s').
  { intros r x h HX HH. destruct (release 2 3 s r x h) as (s' & H1 & H2 & H3 & _); eauto; lia. }
  destruct (find_worker (eq WExit) ltac:(intros p; destruct p; first [left; reflexivity | right; discriminate]) (workers s)) as [FW|(w & p & HW & N)].
  - destruct (i_mutex _ _ _ HI) as ((M1 & M2 & M3) & F1 & F2 & F3 & F4).
    destruct (timer s) as [| |z|z i|r z i| |] eqn:ET; auto; right.
    + eexists. split; [eapply t_loop; eassumption|]. rewrite EK. unfold measure, same. sim. rewrite ET. cbn [timer_weight]. repeat split; auto; lia.
    + eexists. split; [eapply t_now; eassumption|]. unfold measure, same. sim. rewrite ET. cbn [timer_weight]. repeat split; auto; lia.
    + eexists. split; [eapply t_lock; eassumption|]. unfold measure, same. sim. rewrite ET. cbn [timer_weight]. repeat split; auto; lia.
    + destruct (nth_error (delayed s) i) as [((r & k) & t)|] eqn:ED.
      * pose proof (nth_lt _ _ _ ED) as LI. pose proof (forall_nth _ _ _ _ F3 ED) as FD. cbn [fst] in FD. pose proof (remove_length _ _ _ ED) as RE.
        destruct (Z_lt_le_dec z t) as [LT|GE]; [eexists; split; [eapply t_next; eassumption|]; unfold measure, same; sim; rewrite ET; cbn [timer_weight]; repeat split; auto; lia|].
        apply nth_error_Some in FD. destruct (nth_error (runners s) r) as [x|] eqn:HX; [clear FD|congruence].
        destruct (expired x) eqn:EX; [eexists; split; [eapply t_expired; eassumption|]; unfold measure, same; sim; rewrite ET; cbn [timer_weight]; repeat split; auto; lia|].
        destruct (hold x) as [h|] eqn:EH; [eauto|]. destruct (kind_of x) eqn:EKD.
        -- eexists. split; [eapply t_post_sequenced; eassumption|]. match goal with |- context [begin_post ?a ?b ?c ?d ?e] => destruct (begin_post_begun a b c d e) as (x' & tq & aq & HB & ->) end.
           pose proof (begun_weight _ _ _ _ _ _ _ _ HB EH) as BW. destruct (begun_runner _ _ _ _ _ _ _ _ HB) as (_ & _ & EE). unfold measure, same. sim.
           pose proof (sumf_upd runner_weight _ _ _ x' HX) as V. rewrite app_length, ET. cbn [timer_weight]. repeat split; auto; [lia| |eauto]. apply (map_upd _ _ _ _ x HX). assumption.
        -- eexists. split; [eapply t_post_parallel; eassumption|]. match goal with |- context [post_to_manager ?a ?b ?c] => destruct (post_to_manager_posted a b c) as (aq & HA & ->) end.
           unfold measure, same. sim. rewrite app_length, ET. cbn [timer_weight]. assert (length aq <= 1) by (destruct HA as [(-> & _)|(-> & _)]; cbn; lia). repeat split; eauto; lia.
      * apply nth_error_None in ED. eexists. split; [eapply t_end; eassumption|]. unfold measure, same. sim. rewrite ET. cbn [timer_weight]. repeat split; auto; lia.
    + destruct (M3 _ _ _ eq_refl) as (x & h & HX & HH & _). eauto.
    + eexists. split; [eapply t_sleep; eassumption|]. unfold measure, same. sim. rewrite ET. cbn [timer_weight]. repeat split; auto; lia.
  - right. destruct p as [| |e|e|e|r|r|]; try congruence; try (destruct (worker_goes_on 2 3 s w _ ltac:(lia) ltac:(lia) ltac:(lia) ltac:(lia) HI HW I) as (s' & H1 & H2 & H3 & _); eauto; fail).
    + eexists. split; [eapply w_loop; eassumption|]. rewrite EK. unfold measure, same. sim. pose proof (sumf_upd (worker_weight 2 3) _ _ _ WExit HW) as U. cbn [worker_weight] in U. repeat split; auto; lia.
    + destruct (tasks s) as [|e q] eqn:ET.
      * eexists. split; [eapply w_pop_nothing; eassumption|]. unfold measure, same. sim. pose proof (sumf_upd (worker_weight 2 3) _ _ _ WLoop HW) as U. cbn [worker_weight] in U. repeat split; auto; lia.
      * eexists. split; [eapply w_pop; eassumption|]. unfold measure, same. sim. pose proof (sumf_upd (worker_weight 2 3) _ _ _ (WGot e) HW) as U. cbn [worker_weight] in U. rewrite ET. cbn [length]. repeat split; auto; lia.
Qed.
Lemma stop_returns s : inv n kinds s -> phase s = Stopping -> exists s', steps n s s' /\ next s' = next s /\ phase s' = Stopped.
Proof.
  intros HI HE. remember (measure 2 3 s) as m eqn:EM. revert s HI HE EM. induction m as [m IH] using lt_wf_ind. intros s HI HE ->.
  destruct (stop_progress s HI HE) as [(H1 & H2)|(s1 & HS & HM & HA)].
  - eexists. split; [eapply steps_more; [apply steps_none|apply k_stopped; assumption]|]. auto.
  - destruct HA as (EN & _ & EP & _). destruct (IH _ HM s1 (inv_step _ _ _ _ HI HS)) as (s2 & H1 & H2 & H3); [congruence|reflexivity|].
    exists s2. repeat apply conj; [eapply steps_front; eauto|congruence|assumption].
Qed.

(** * Delayed tasks *)
(** A delayed task that was taken, of a live runner, is still waiting, or with the timer, or was accepted. *)
Definition taken (s : state) : Prop := ever_stopped s = false -> forall r i, In (r, i) (delay_log s) -> alive s r ->
  In (r, i) (accepted s) \/ (exists t, In (r, i, t) (limbo s) \/ In (r, i, t) (delayed s)) \/ (exists x, nth_error (runners s) r = Some x /\ In i (to_queue x)).
Lemma alive_step s s' r : step n s s' -> alive s' r -> alive s r.
Proof.
  intros HS. change (alive_in (runners s') r -> alive_in (runners s) r). split_step HS; auto.
  all: eapply alive_upd; [eassumption|].
  all: try (match goal with HB : begun _ _ _ _ _ _ _ _ |- _ => destruct (begun_runner _ _ _ _ _ _ _ _ HB) as (_ & _ & EE) end; congruence).
  all: sim; auto; discriminate.
Qed.
Lemma in_remove_nth {A} (l : list A) i e y : nth_error l i = Some e -> In y l -> y = e \/ In y (remove_nth i l).
Proof.
  revert i. induction l as [|z l IH]; intros [|i] H HI; try discriminate; cbn [nth_error remove_nth In] in *.
  - injection H as ->. destruct HI; auto.
  - destruct HI as [->|HI]; [auto|]. destruct (IH _ H HI); auto.
Qed.
Lemma begun_task s r x who i x' tq aq : begun s r x who (Some i) x' tq aq -> mexpired s = false -> In (r, i) aq \/ In i (to_queue x').
Proof. intros HB HM. inversion HB; subst; unfold to_queue; cbn [hold queue_up In]; auto; congruence. Qed.
Definition queued_up (rs : list runner) (r i : nat) : Prop := exists y, nth_error rs r = Some y /\ In i (to_queue y).
Lemma queued_kept rs r0 x x' r i : nth_error rs r0 = Some x -> hold x = None -> queued_up rs r i -> queued_up (upd rs r0 x') r i.
Proof.
  intros H HH (y & HY & IY). destruct (Nat.eqb_spec r0 r) as [->|N].
  - assert (y = x) as -> by congruence. unfold to_queue in IY. now rewrite HH in IY.
  - exists y. now rewrite nth_upd_other.
Qed.
Lemma queued_ended rs r0 x x' r i : nth_error rs r0 = Some x -> queued_up rs r i -> In (r, i) (map (pair r0) (to_queue x)) \/ queued_up (upd rs r0 x') r i.
Proof.
  intros H (y & HY & IY). destruct (Nat.eqb_spec r0 r) as [->|N].
  - assert (y = x) as -> by congruence. left. now apply in_map.
  - right. exists y. now rewrite nth_upd_other.
Qed.
Lemma taken_step s s' : inv n kinds s -> taken s -> step n s s' -> taken s'.
Proof.
  intros HI HT HS HE r i HL HA. assert (HA' := alive_step _ _ _ HS HA).
  assert (HE' : ever_stopped s = false). { destruct (ever_stopped s) eqn:E; [|reflexivity]. exfalso. revert HE E. clear -HS. split_step HS; congruence. }
  assert (HM : mexpired s = false). { destruct (mexpired s) eqn:E; [|reflexivity]. destruct (i_phase _ _ _ HI) as (P1 & _ & _ & P4 & _). specialize (P4 E). destruct P1; congruence. }
  specialize (HT HE' r i).
  assert (NQ : forall x, hold x = None -> to_queue x = []) by (intros x E; unfold to_queue; now rewrite E).
  revert HL. split_step HS; intros HL; try (specialize (HT HL HA')); rewrite ?in_app_iff.
  all: try (destruct HT as [HT|[(t0 & HT)|HT]]; [now auto|right; left; exists t0; now auto|now auto]; fail).
  all: repeat match goal with |- context [exists y, nth_error ?rs ?r = Some y /\ In ?i (to_queue y)] => change (exists y, nth_error rs r = Some y /\ In i (to_queue y)) with (queued_up rs r i) end.
  all: try match type of HT with context [exists y, nth_error ?rs ?r = Some y /\ In ?i (to_queue y)] => change (exists y, nth_error rs r = Some y /\ In i (to_queue y)) with (queued_up rs r i) in HT end.
  - destruct HT as [HT|[HT|HT]]; auto. right; right. eapply queued_kept; eassumption.
  - destruct HT as [HT|[HT|HT]]; auto. destruct (queued_ended _ _ _ (Runner (kind_of x) (pending x ++ to_queue x) (flag_after x) None (expired x)) _ _ H HT); auto.
  - apply in_app_iff in HL. destruct HL as [HL|[HL|[]]].
    + destruct (HT HL HA') as [H2|[(t & H2)|H2]]; auto. right; left. exists t. rewrite in_app_iff. tauto.
    + injection HL as -> <-. right; left. eexists. left. apply in_app_iff. right. left. reflexivity.
  - destruct HT as [HT|[(t & [HT|HT])|HT]]; auto.
    + right; left. exists t. rewrite in_app_iff. destruct (in_remove_nth _ _ _ _ H HT) as [<-|]; cbn [In]; auto.
    + right; left. exists t. rewrite in_app_iff. auto.
  - destruct HT as [HT|[HT|HT]]; auto. right; right. eapply queued_kept; eassumption.
  - destruct HT as [HT|[HT|HT]]; auto. match goal with H : nth_error (runners s) r0 = Some x |- _ => destruct (queued_ended _ _ _ (Runner (kind_of x) (pending x ++ to_queue x) (flag_after x) None (expired x)) _ _ H HT) end; auto.
  - destruct HT as [HT|[(t0 & [HT|HT])|HT]]; eauto. match goal with HD : nth_error (delayed s) _ = _ |- _ => destruct (in_remove_nth _ _ _ _ HD HT) as [E|] end; eauto.
    injection E as -> -> ->. destruct HA' as (y & HY & EY). congruence.
  - destruct HT as [HT|[(t0 & [HT|HT])|HT]]; eauto. match goal with HD : nth_error (delayed s) _ = _ |- _ => destruct (in_remove_nth _ _ _ _ HD HT) as [E|] end; eauto.
    injection E as -> -> ->. match goal with HQ : _ \/ _ |- _ => destruct HQ as [(-> & HQ)|(-> & _)]; [congruence|] end. cbn [In]. auto.
  - destruct HT as [HT|[(t0 & [HT|HT])|HT]]; eauto; [|right; right; eapply queued_kept; eassumption].
    match goal with HD : nth_error (delayed s) _ = _ |- _ => destruct (in_remove_nth _ _ _ _ HD HT) as [E|] end; eauto.
    injection E as -> -> ->. destruct (begun_task _ _ _ _ _ _ _ _ HB) as [HI1|HI1]; [exact HM|auto|]. right; right. exists x'. split; [eapply nth_upd_same; eassumption|assumption].
  - destruct HT as [HT|[HT|HT]]; auto. match goal with H : nth_error (runners s) r0 = Some x |- _ => destruct (queued_ended _ _ _ (Runner (kind_of x) (pending x ++ to_queue x) (flag_after x) None (expired x)) _ _ H HT) end; auto.
  - destruct HT as [HT|[HT|HT]]; auto. right; right. eapply queued_kept; eassumption.
Qed.
Lemma taken_initial : taken (initial n kinds).
Proof. intros _ r i []. Qed.
Lemma reaches_taken s : reaches n kinds s -> taken s.
Proof. intros HR. induction HR as [|s s' HR IH HS]; [apply taken_initial|]. eapply taken_step; eauto using reaches_inv. Qed.
Lemma steps_inv s s' : inv n kinds s -> steps n s s' -> inv n kinds s'.
Proof. intros HI HS. induction HS; eauto using inv_step. Qed.
Lemma steps_taken s s' : inv n kinds s -> taken s -> steps n s s' -> taken s'.
Proof. intros HI HT HS. induction HS; eauto using taken_step, steps_inv. Qed.
Lemma steps_alive s s' r : steps n s s' -> alive s' r -> alive s r.
Proof. intros HS. induction HS; eauto using alive_step. Qed.
Lemma steps_trans s s' s'' : steps n s s' -> steps n s' s'' -> steps n s s''.
Proof. intros H1 H2. revert H1. induction H2 as [|s1 s2 s3 H2 IH HS]; intros H1; [assumption|]. eapply steps_more; [apply IH; assumption|assumption]. Qed.

(** ** Every delayed task can be finished *)
Definition keeps_delayed (s s' : state) : Prop := incl (delayed s') (delayed s) /\ limbo s' = limbo s /\ clock s' = clock s /\ delay_log s' = delay_log s.
Lemma in_remove_incl {A} (l : list A) i : incl (remove_nth i l) l.
Proof. revert i. induction l as [|y l IH]; intros [|i] z; cbn [remove_nth In]; auto. intros [->|H]; [auto|]. right. now apply (IH i). Qed.
Lemma quiet_keeps s s' : quiet s s' -> keeps_delayed s s'.
Proof. intros (A & B & C & D & E). repeat split; auto. rewrite A. apply incl_refl. Qed.
(** A timer that is not at the head of its loop can go on, or the holder of a runner's mutex can. *)
Lemma timer_goes_on s : inv n kinds s -> timer s <> TLoop -> timer s <> TExit ->
  exists s', step n s s' /\ measure 2 3 s' < measure 2 3 s /\ same s s' /\ keeps_delayed s s' /\ timer_next s s'.
Proof.
  intros HI HL HE.
  assert (NP : exists t, accepted s = accepted s ++ t) by (exists []; now rewrite app_nil_r).
  assert (RL : forall r x h, nth_error (runners s) r = Some x -> hold x = Some h -> exists s', step n s s' /\ measure 2 3 s' < measure 2 3 s /\ same s s' /\ keeps_delayed s s' /\ timer_next s s').
  { intros r x h HX HH. destruct (release_timer 2 3 s r x h) as (s' & H1 & H2 & H3 & H4 & H5); auto; try lia. exists s'. split; [assumption|]. split; [assumption|]. split; [assumption|]. split; [now apply quiet_keeps|assumption]. }
  destruct (i_mutex _ _ _ HI) as ((M1 & M2 & M3) & F1 & F2 & F3 & F4).
  assert (IR := @incl_refl _ (delayed s)). assert (IN := fun i => in_remove_incl (delayed s) i).
  destruct (timer s) as [| |z|z i|r z i| |] eqn:ET; try congruence.
  + eexists. split; [eapply t_now; eassumption|]. unfold measure, same, keeps_delayed, timer_next. sim. rewrite ET. cbn [timer_weight]. repeat split; auto; lia.
  + eexists. split; [eapply t_lock; eassumption|]. unfold measure, same, keeps_delayed, timer_next. sim. rewrite ET. cbn [timer_weight]. repeat split; auto; lia.
  + destruct (nth_error (delayed s) i) as [((r & k) & t)|] eqn:ED.
    * pose proof (nth_lt _ _ _ ED) as LI. pose proof (forall_nth _ _ _ _ F3 ED) as FD. cbn [fst] in FD. pose proof (remove_length _ _ _ ED) as RE.
      destruct (Z_lt_le_dec z t) as [LT|GE]; [eexists; split; [eapply t_next; eassumption|]; unfold measure, same, keeps_delayed, timer_next; sim; rewrite ET; cbn [timer_weight]; repeat split; auto; [lia|right; left; split; [reflexivity|]; eexists; split; [eassumption|assumption]]|].
      apply nth_error_Some in FD. destruct (nth_error (runners s) r) as [x|] eqn:HX; [clear FD|congruence].
      destruct (expired x) eqn:EX; [eexists; split; [eapply t_expired; eassumption|]; unfold measure, same, keeps_delayed, timer_next; sim; rewrite ET; cbn [timer_weight]; repeat split; auto; lia|].
      destruct (hold x) as [h|] eqn:EH; [eauto|]. destruct (kind_of x) eqn:EKD.
      -- eexists. split; [eapply t_post_sequenced; eassumption|]. match goal with |- context [begin_post ?a ?b ?c ?d ?e] => destruct (begin_post_begun a b c d e) as (x' & tq & aq & HB & ->) end.
         pose proof (begun_weight _ _ _ _ _ _ _ _ HB EH) as BW. destruct (begun_runner _ _ _ _ _ _ _ _ HB) as (_ & _ & EE). unfold measure, same, keeps_delayed, timer_next. sim.
         pose proof (sumf_upd runner_weight _ _ _ x' HX) as V. rewrite app_length, ET. cbn [timer_weight]. repeat split; auto; [lia|apply (map_upd _ _ _ _ x HX); assumption|eauto|right; right; left; eauto].
      -- eexists. split; [eapply t_post_parallel; eassumption|]. match goal with |- context [post_to_manager ?a ?b ?c] => destruct (post_to_manager_posted a b c) as (aq & HA & ->) end.
         unfold measure, same, keeps_delayed, timer_next. sim. rewrite app_length, ET. cbn [timer_weight]. assert (length aq <= 1) by (destruct HA as [(-> & _)|(-> & _)]; cbn; lia). repeat split; eauto; lia.
    * apply nth_error_None in ED. eexists. split; [eapply t_end; eassumption|]. unfold measure, same, keeps_delayed, timer_next. sim. rewrite ET. cbn [timer_weight]. repeat split; auto; lia.
  + destruct (M3 _ _ _ eq_refl) as (x & h & HX & HH & _). eauto.
  + eexists. split; [eapply t_sleep; eassumption|]. unfold measure, same, keeps_delayed, timer_next. sim. rewrite ET. cbn [timer_weight]. repeat split; auto; lia.
Qed.
Definition calm (s s' : state) : Prop := same s s' /\ delay_log s' = delay_log s.
Lemma calm_refl s : calm s s.
Proof. split; [apply same_refl|reflexivity]. Qed.
Lemma calm_trans s s' s'' : calm s s' -> calm s' s'' -> calm s s''.
Proof. intros (A & B) (A' & B'). split; [eapply same_trans; eauto|congruence]. Qed.
Lemma timer_up s : inv n kinds s -> ever_stopped s = false -> keep s = true /\ timer s <> TExit.
Proof.
  intros HI HE. destruct (i_phase _ _ _ HI) as (P1 & P2 & _). destruct (i_up _ _ _ HI) as (_ & U2 & _).
  assert (EK : keep s = true) by (destruct (phase s) eqn:E; [auto|destruct P1 as (_ & E'); congruence..]). auto.
Qed.
Lemma timer_to_loop s : inv n kinds s -> ever_stopped s = false -> exists s', steps n s s' /\ calm s s' /\ timer s' = TLoop.
Proof.
  intros HI HE. remember (measure 2 3 s) as m eqn:EM. revert s HI HE EM. induction m as [m IH] using lt_wf_ind. intros s HI HE ->.
  assert (D : timer s = TLoop \/ timer s <> TLoop) by (destruct (timer s); first [left; reflexivity | right; discriminate]). destruct D as [D|D].
  - exists s. split; [apply steps_none|]. split; [apply calm_refl|assumption].
  - destruct (timer_goes_on s HI D) as (s1 & HS & HM & HA & HK & _); [now apply timer_up|].
    destruct (IH _ HM s1 (inv_step _ _ _ _ HI HS)) as (s2 & H1 & H2 & H3); [destruct HA as (_ & -> & _); assumption|reflexivity|].
    exists s2. split; [eapply steps_front; eauto|]. split; [|assumption]. eapply calm_trans; [|eassumption]. split; [assumption|apply HK].
Qed.
Lemma push_limbo s : timer s = TLoop -> exists s', steps n s s' /\ calm s s' /\ timer s' = TLoop /\ limbo s' = [].
Proof.
  remember (limbo s) as l eqn:EL. revert s EL. induction l as [|e l IH]; intros s EL HT.
  - exists s. split; [apply steps_none|]. split; [apply calm_refl|]. auto.
  - destruct (IH (with_delayed s (delayed s ++ [e]) (remove_nth 0 (limbo s)))) as (s2 & H1 & H2 & H3 & H4); sim; [now rewrite <- EL|assumption|].
    exists s2. split; [eapply steps_front; [|exact H1]; eapply (c_delay_push _ s 0 e); [now rewrite <- EL|now rewrite HT]|]. split; [|auto]. exact H2.
Qed.
Lemma latest (l : list (nat * nat * Z)) c : exists z, (c <= z)%Z /\ Forall (fun e => (snd e <= z)%Z) l.
Proof.
  induction l as [|e l (z & H1 & H2)]; [exists c; split; [lia|constructor]|]. exists (Z.max z (snd e)). split; [lia|]. constructor; [lia|].
  eapply Forall_impl; [|exact H2]. intros y HY. cbn beta in *. lia.
Qed.
Definition scanning (z : Z) (s : state) : Prop := (timer s = TScan z 0 \/ exists r, timer s = TPosting r z 0) /\ Forall (fun e => (snd e <= z)%Z) (delayed s) /\ limbo s = [].
Lemma start_scan s : keep s = true -> timer s = TLoop -> limbo s = [] -> exists s' z, steps n s s' /\ calm s s' /\ scanning z s'.
Proof.
  intros HK HT HL. destruct (latest (delayed s) (clock s)) as (z & HZ & HF).
  pose proof (tick n s (z - clock s) ltac:(lia)) as S1. replace (clock s + (z - clock s))%Z with z in S1 by lia.
  pose proof (t_loop n (with_clock s z) HT) as S2. sim. rewrite HK in S2.
  pose proof (t_now n (with_timer (with_clock s z) TNow) eq_refl) as S3. sim.
  pose proof (t_lock n _ z (eq_refl : timer (with_timer (with_clock s z) (TLock z)) = TLock z)) as S4. 
  eexists _, z. split; [|split; [|]].
  - eapply steps_more; [eapply steps_more; [eapply steps_more; [eapply steps_more; [apply steps_none|exact S1]|exact S2]|exact S3]|exact S4].
  - split; [|reflexivity]. repeat split. exists []. sim. now rewrite app_nil_r.
  - unfold scanning. sim. auto.
Qed.
Lemma scan_all s z : inv n kinds s -> scanning z s -> exists s', steps n s s' /\ calm s s' /\ delayed s' = [] /\ limbo s' = [].
Proof.
  intros HI HC. remember (measure 2 3 s) as m eqn:EM. revert s HI HC EM. induction m as [m IH] using lt_wf_ind. intros s HI HC ->.
  assert (D : delayed s = [] \/ delayed s <> []) by (destruct (delayed s); [auto|right; discriminate]). destruct HC as (HT & HF & HL). destruct D as [D|D].
  - exists s. split; [apply steps_none|]. split; [apply calm_refl|]. auto.
  - destruct (timer_goes_on s HI) as (s1 & HS & HM & HA & HK & HN); [destruct HT as [->|(r & ->)]; discriminate..|].
    destruct (IH _ HM s1 (inv_step _ _ _ _ HI HS)) as (s2 & H1 & H2 & H3); [|reflexivity|].
    + unfold scanning. destruct HK as (K1 & K2 & _). split; [|split; [eapply incl_Forall; eassumption|congruence]].
      unfold timer_next in HN. destruct HT as [HT|(r & HT)]; rewrite HT in HN.
      * destruct HN as [HN|[(HN & e & HE & LE)|[(r & HN)|(HN & LE)]]]; eauto; exfalso.
        -- apply nth_error_In in HE. rewrite Forall_forall in HF. specialize (HF _ HE). lia.
        -- destruct (delayed s); [congruence|cbn [length] in LE; lia].
      * destruct HN as [HN|HN]; eauto.
    + exists s2. split; [eapply steps_front; eauto|]. split; [|assumption]. eapply calm_trans; [|eassumption]. split; [assumption|apply HK].
Qed.
Lemma same_alive s s' r : same s s' -> alive s r -> alive s' r.
Proof.
  intros (_ & _ & _ & _ & E & _) (x & HX & EX). pose proof (map_nth_error expired _ _ HX) as H. rewrite <- E in H. unfold alive.
  destruct (nth_error (runners s') r) as [y|] eqn:HY; [|apply nth_error_None in HY; rewrite <- (map_length expired) in HY; apply nth_error_None in HY; congruence].
  apply (map_nth_error expired) in HY. exists y. split; [reflexivity|congruence].
Qed.
Lemma finish_delayed s : inv n kinds s -> taken s -> ever_stopped s = false -> 0 < n ->
  exists s', steps n s s' /\ same s s' /\ delay_log s' = delay_log s /\ forall r i, In (r, i) (delay_log s) \/ In (r, i) (accepted s) -> alive s r -> In (r, i) (finished s').
Proof.
  intros HI HT HE HN.
  destruct (timer_to_loop s HI HE) as (s1 & A1 & A2 & A3). pose proof (steps_inv _ _ HI A1) as I1.
  destruct (push_limbo s1 A3) as (s2 & B1 & B2 & B3 & B4). pose proof (steps_inv _ _ I1 B1) as I2. assert (C2 := calm_trans _ _ _ A2 B2).
  assert (E2 : ever_stopped s2 = false) by (destruct C2 as ((_ & -> & _) & _); assumption).
  destruct (start_scan s2) as (s3 & z & D1 & D2 & D3); [now apply timer_up|assumption..|]. pose proof (steps_inv _ _ I2 D1) as I3. assert (C3 := calm_trans _ _ _ C2 D2).
  destruct (scan_all s3 z I3 D3) as (s4 & F1 & F2 & F3 & F4). pose proof (steps_inv _ _ I3 F1) as I4. assert (C4 := calm_trans _ _ _ C3 F2).
  assert (E4 : ever_stopped s4 = false) by (destruct C4 as ((_ & -> & _) & _); assumption).
  destruct (drain s4 I4 E4 HN) as (s5 & G1 & G2 & G3 & G4). pose proof (steps_inv _ _ I4 G1) as I5.
  assert (C5 : calm s s5) by (eapply calm_trans; [exact C4|split; [assumption|apply G3]]).
  assert (HS : steps n s s5) by (eauto using steps_trans).
  assert (E5 : ever_stopped s5 = false) by (destruct C5 as ((_ & -> & _) & _); assumption).
  exists s5. split; [assumption|]. split; [apply C5|]. split; [apply C5|]. intros r i HD HA. pose proof (same_alive _ _ _ (proj1 C5) HA) as HA5.
  apply settled_finished; auto. destruct HD as [HD|HD].
  - pose proof (steps_taken _ _ HI HT HS E5 r i) as HT5. rewrite (proj2 C5) in HT5. destruct (HT5 HD HA5) as [H|[(t & [H|H])|(x & HX & H)]]; [assumption| | |]; exfalso.
    + destruct G3 as (_ & E & _). rewrite E, F4 in H. destruct H.
    + destruct G3 as (E & _). rewrite E, F3 in H. destruct H.
    + destruct G4 as (_ & _ & NH). unfold to_queue in H. now rewrite (NH _ _ HX) in H.
  - destruct C5 as ((_ & _ & _ & _ & _ & (l & ->)) & _). apply in_app_iff. auto.
Qed.
End Live.
