(** Theorems for C36 and C37: what happens under a fair scheduler. *)
From Verif Require Import Common Concurrent_Model Concurrent_Proofs Task_Model Task_Spec Task_Fair_Spec Task_Proofs Task_Live Task_Fair Task_Props.
Local Open Scope nat_scope.

(** In every fair execution during which stop() is not called and runner [r] is kept, every task that the runner
    accepted is executed to its end. *)
Theorem accepted_is_executed n kinds f r i k : reaches n kinds (f 0) -> execution n f -> fair n f -> 0 < n -> (forall j, ever_stopped (f j) = false) -> (forall j, alive (f j) r) ->
  In (r, i) (accepted (f k)) -> exists j, k <= j /\ In (r, i) (finished (f j)).
Proof. intros. eapply accepted_finish; eauto. Qed.
(** So is every task posted with a delay, if time goes on. *)
Theorem delayed_is_executed n kinds f r i k : reaches n kinds (f 0) -> execution n f -> fair n f -> 0 < n -> (forall j, ever_stopped (f j) = false) -> (forall j, alive (f j) r) ->
  time_passes f -> In (r, i) (delay_log (f k)) -> exists j, k <= j /\ In (r, i) (finished (f j)).
Proof.
  intros HR HX HF HN HU HA HT HD. destruct (delay_accepted n kinds f HR HX HF HU r HA i k HT HD) as (j & L & HJ).
  destruct (accepted_finish n kinds f HR HX HF HU HN r i j HA HJ) as (j' & L' & HJ'). exists j'. split; [lia|assumption].
Qed.
(** In every fair execution stop() returns, whatever is posted meanwhile. *)
Theorem stop_returns_under_fairness n kinds f k : reaches n kinds (f 0) -> execution n f -> fair n f -> phase (f k) = Stopping -> exists j, k <= j /\ phase (f j) = Stopped.
Proof. intros HR HX HF HP. exact (stops n kinds f HR HX HF k HP). Qed.

(** ** Fair executions exist *)
Definition prepend (s : state) (f : nat -> state) (k : nat) : state := match k with O => s | S k' => f k' end.
Lemma prepend_fair n s f : step n s (f 0) -> execution n f -> fair n f -> execution n (prepend s f) /\ fair n (prepend s f).
Proof.
  intros HS HX HF. split.
  - intros [|k]; cbn [prepend]; [auto|apply HX].
  - intros a k. destruct (HF a (pred k)) as (j & L & HJ). exists (S j). split; [lia|]. cbn [prepend]. destruct HJ as [HJ|HJ]; [auto|]. right. intros [|j'] L'; [lia|]. cbn [prepend]. apply HJ. lia.
Qed.
Lemma extend n s f : steps n s (f 0) -> execution n f -> fair n f -> exists g m, g 0 = s /\ execution n g /\ fair n g /\ (forall k, g (m + k) = f k) /\ (forall k, k <= m -> steps n (g k) (f 0)).
Proof.
  intros HS. remember (f 0) as s1 eqn:E1. revert f E1. induction HS as [s|s s1 s2 HS IH HT]; intros f E1 HX HF.
  - exists f, 0. repeat split; auto. intros k L. assert (k = 0) as -> by lia. rewrite <- E1. apply steps_none.
  - destruct (prepend_fair n s1 f) as (X & F); [congruence|assumption..|]. destruct (IH (prepend s1 f) eq_refl X F) as (g & m & G1 & G2 & G3 & G4 & G5).
    exists g, (S m). repeat split; auto.
    + intros k. rewrite Nat.add_succ_comm, G4. reflexivity.
    + intros k L. destruct (Nat.eq_dec k (S m)) as [->|N].
      * rewrite <- (Nat.add_1_r m), G4. cbn [prepend]. rewrite E1. apply steps_none.
      * eapply steps_more; [apply G5; lia|assumption].
Qed.
Lemma steps_reaches n kinds s s' : reaches n kinds s -> steps n s s' -> reaches n kinds s'.
Proof. intros HR HS. induction HS; eauto using r_step. Qed.
Lemma ever_stopped_back n s s' : steps n s s' -> ever_stopped s' = false -> ever_stopped s = false.
Proof.
  intros HS. induction HS as [|s s1 s2 HS IH HT]; auto. intros E. apply IH. destruct (ever_stopped s1) eqn:E1; [|reflexivity]. destruct (log_step n _ _ HT) as (_ & _ & _ & H). rewrite H in E; congruence.
Qed.
Lemma alive_back n s s' r : steps n s s' -> alive s' r -> alive s r.
Proof. intros HS. induction HS; eauto using alive_step. Qed.

(** One idle worker and the timer run their loops. *)
Section Idle.
Variable b : state.
Hypotheses (b1 : tasks b = []) (b2 : delayed b = []) (b3 : limbo b = []) (b4 : keep b = true) (b5 : phase b = Running) (b6 : forall r x, nth_error (runners b) r = Some x -> hold x = None)
  (b7 : workers b = [WLoop]) (b8 : timer b = TLoop).
Fixpoint turn (k : nat) : nat * Z :=
  match k with O => (0, clock b) | S k' => let '(p, c) := turn k' in if p =? 7 then (0, (c + 1)%Z) else (S p, c) end.
Definition shape (p : nat) (c : Z) : state :=
  let w := if p =? 1 then WPop else WLoop in
  let t := match p with 3 => TNow | 4 => TLock c | 5 => TScan c 0 | 6 => TSleep | _ => TLoop end in
  with_timer (with_workers (with_clock b c) [w]) t.
Definition idle (k : nat) : state := shape (fst (turn k)) (snd (turn k)).
Lemma turn_small k : fst (turn k) < 8.
Proof. induction k as [|k IH]; cbn [turn fst]; [lia|]. destruct (turn k) as (p & c). cbn [fst] in IH. destruct (Nat.eqb_spec p 7); cbn [fst]; lia. Qed.
Lemma turn_comes q k : q < 8 -> exists j, k <= j /\ fst (turn j) = q.
Proof.
  intros HQ. assert (Z0 : exists j, k <= j /\ fst (turn j) = 0).
  { remember (7 - fst (turn k)) as m eqn:EM. revert k EM. induction m as [|m IH]; intros k EM; pose proof (turn_small k) as TS.
    - exists (S k). split; [lia|]. cbn [turn]. destruct (turn k) as (p & c). cbn [fst] in *. assert (p = 7) as -> by lia. reflexivity.
    - destruct (IH (S k)) as (j & L & HJ); [|exists j; split; [lia|assumption]]. cbn [turn]. destruct (turn k) as (p & c). cbn [fst] in *. destruct (Nat.eqb_spec p 7); cbn [fst]; lia. }
  destruct Z0 as (j & L & HJ). clear -L HJ HQ. induction q as [|q IH]; [eauto|]. destruct IH as (j1 & L1 & H1); [lia|]. exists (S j1). split; [lia|]. cbn [turn]. destruct (turn j1) as (p & c). cbn [fst] in *. subst p.
  destruct (Nat.eqb_spec q 7); [lia|]. reflexivity.
Qed.
Lemma idle_start : idle 0 = b.
Proof. unfold idle, shape. cbn [turn fst snd Nat.eqb]. destruct b; cbn in *. now rewrite b7, b8. Qed.
Lemma turn_next k p c : turn k = (p, c) -> turn (S k) = if p =? 7 then (0, (c + 1)%Z) else (S p, c).
Proof. intros E. cbn [turn]. now rewrite E. Qed.
Lemma idle_step k : step 1 (idle k) (idle (S k)).
Proof.
  pose proof (turn_small k) as TS. destruct (turn k) as (p & c) eqn:E. cbn [fst] in TS. unfold idle. rewrite (turn_next _ _ _ E), E. cbn [fst snd].
  destruct p as [|[|[|[|[|[|[|[|p]]]]]]]]; [..|lia]; cbn [Nat.eqb fst snd]; unfold shape; cbn [Nat.eqb].
  - refine (eq_ind _ (step 1 _) (w_loop 1 _ 0 _) _ _); [reflexivity|]. sim. rewrite b4. reflexivity.
  - refine (eq_ind _ (step 1 _) (w_pop_nothing 1 _ 0 _ _) _ _); [reflexivity|exact b1|]. reflexivity.
  - refine (eq_ind _ (step 1 _) (t_loop 1 _ _) _ _); [reflexivity|]. sim. rewrite b4. reflexivity.
  - refine (eq_ind _ (step 1 _) (t_now 1 _ _) _ _); [reflexivity|]. reflexivity.
  - refine (eq_ind _ (step 1 _) (t_lock 1 _ c _) _ _); [reflexivity|]. reflexivity.
  - refine (eq_ind _ (step 1 _) (t_end 1 _ c 0 _ _) _ _); [reflexivity| |reflexivity]. sim. rewrite b2. apply le_n.
  - refine (eq_ind _ (step 1 _) (t_sleep 1 _ _) _ _); [reflexivity|]. reflexivity.
  - refine (eq_ind _ (step 1 _) (tick 1 _ 1 _) _ _); [lia|]. reflexivity.
Qed.
Lemma idle_clock k z : exists j, k <= j /\ (z <= snd (turn j))%Z.
Proof.
  assert (G : forall m : nat, exists j, k <= j /\ (snd (turn k) + Z.of_nat m <= snd (turn j))%Z).
  { induction m as [|m (j & L & HJ)]; [exists k; split; [lia|]; lia|]. destruct (turn_comes 7 j ltac:(lia)) as (j1 & L1 & E1). exists (S j1). split; [lia|].
    assert (M : (snd (turn j) <= snd (turn j1))%Z).
    { clear -L1. induction L1 as [|j1 L1 IH]; [lia|]. cbn [turn]. destruct (turn j1) as (p & c). cbn [snd] in *. destruct (p =? 7); cbn [snd]; lia. }
    cbn [turn]. destruct (turn j1) as (p & c). cbn [fst snd] in *. subst p. cbn [Nat.eqb snd]. lia. }
  destruct (G (Z.to_nat (z - snd (turn k)))) as (j & L & HJ). exists j. split; [assumption|lia].
Qed.
Lemma idle_fair : execution 1 idle /\ fair 1 idle /\ time_passes idle /\ forall k, runners (idle k) = runners b /\ ever_stopped (idle k) = ever_stopped b.
Proof.
  assert (HB : forall k, runners (idle k) = runners b /\ ever_stopped (idle k) = ever_stopped b /\ limbo (idle k) = [] /\ phase (idle k) = Running /\ length (workers (idle k)) = 1) by (intros k; unfold idle, shape; sim; auto).
  split; [intros k; right; apply idle_step|]. split; [|split].
  - intros a k. destruct a as [[|w]| |r|i|].
    + destruct (turn_comes 0 k ltac:(lia)) as (j & L & E). exists j. split; [assumption|]. left. destruct (turn j) as (p & c) eqn:ET. cbn [fst] in E. subst p. unfold idle. rewrite (turn_next _ _ _ ET), ET. cbn. split; discriminate.
    + exists k. split; [lia|]. right. intros j _ (s' & HS & HA & HN). apply HN. destruct (HB j) as (_ & _ & _ & EP & EL).
      assert (E1 : nth_error (workers (idle j)) (S w) = None) by (apply nth_error_None; lia). rewrite E1. apply nth_error_None.
      enough (length (workers s') = 1) by lia. clear -HS EP EL b5. split_step HS; rewrite ?upd_length; auto. 
    + destruct (turn_comes 2 k ltac:(lia)) as (j & L & E). exists j. split; [assumption|]. left. destruct (turn j) as (p & c) eqn:ET. cbn [fst] in E. subst p. unfold idle. rewrite (turn_next _ _ _ ET), ET. cbn. split; [discriminate|]. left. discriminate.
    + exists k. split; [lia|]. right. intros j _ (s' & HS & x & h & x' & H1 & H2 & _). destruct (HB j) as (E & _). rewrite E in H1. rewrite (b6 _ _ H1) in H2. discriminate.
    + exists k. split; [lia|]. right. intros j _ (s' & HS & (r & t & H) & _). destruct (HB j) as (_ & _ & E & _). rewrite E in H. destruct H.
    + exists k. split; [lia|]. right. intros j _ (s' & HS & H & _). destruct (HB j) as (_ & _ & _ & E & _). congruence.
  - intros z. destruct (idle_clock 0 z) as (j & _ & HJ). exists j. exact HJ.
  - intros k. destruct (HB k) as (E1 & E2 & _). auto.
Qed.
End Idle.
Tactic Notation "then_step" ident(T) ident(HG) uconstr(c) := eapply (HG _ _ _ T); [eapply c; first [reflexivity|lia|repeat constructor]|]; clear T; intro T; cbv beta iota zeta delta -[Z.le Z.lt] in T.
(** The hypotheses of the first two theorems are met: a sequenced runner has accepted a task, a second one, with a
    delay, is still with its poster, nothing is executed yet; there is a fair execution from here on. *)
Example fair_execution : exists f, reaches 1 [Sequenced] (f 0) /\ execution 1 f /\ fair 1 f /\ (forall j, ever_stopped (f j) = false) /\ (forall j, alive (f j) 0) /\ time_passes f /\
  accepted (f 0) = [(0, 0)] /\ delay_log (f 0) = [(0, 1)] /\ limbo (f 0) = [(0, 1, 5%Z)] /\ started (f 0) = [].
Proof.
  start 1 [Sequenced] R. next R (c_post_sequenced 1 _ 0). next R (c_post_end 1 _ 0). eapply (go _ _ _ _ _ R); [eapply (c_delay 1 _ 0 _ 5); reflexivity|]. clear R; intro R; cbv beta iota zeta delta -[Z.le Z.lt] in R.
  match type of R with reaches _ _ ?s => assert (E0 : exists s0, s0 = s) by eauto; destruct E0 as (s0 & E0); rewrite <- E0 in R end.
  assert (HG : forall s s' (P : Prop), steps 1 s0 s -> step 1 s s' -> (steps 1 s0 s' -> P) -> P) by (intros s s' P H1 H2 H3; apply H3; eapply steps_more; eassumption).
  assert (T := steps_none 1 s0). rewrite E0 in T at 2.
  then_step T HG (w_loop 1 _ 0). then_step T HG (w_pop 1 _ 0). then_step T HG (w_check 1 _ 0). then_step T HG (w_start 1 _ 0). then_step T HG (w_finish 1 _ 0). then_step T HG (w_complete_sequenced 1 _ 0). then_step T HG (w_complete_end 1 _ 0).
  then_step T HG (c_delay_push 1 _ 0). eapply (HG _ _ _ T); [eapply (tick 1 _ 7); lia|]; clear T; intro T; cbv beta iota zeta delta -[Z.le Z.lt] in T.
  then_step T HG (t_loop 1). then_step T HG (t_now 1). then_step T HG (t_lock 1). then_step T HG (t_post_sequenced 1). then_step T HG (t_post_end 1). then_step T HG (t_end 1). then_step T HG (t_sleep 1).
  then_step T HG (w_loop 1 _ 0). then_step T HG (w_pop 1 _ 0). then_step T HG (w_check 1 _ 0). then_step T HG (w_start 1 _ 0). then_step T HG (w_finish 1 _ 0). then_step T HG (w_complete_sequenced 1 _ 0). then_step T HG (w_complete_end 1 _ 0).
  match type of T with steps _ _ ?s => set (b := s) in T end.
  assert (NH : forall r x, nth_error (runners b) r = Some x -> hold x = None) by (intros [|[|r]] x E; try discriminate; injection E as <-; reflexivity).
  destruct (idle_fair b eq_refl eq_refl eq_refl eq_refl eq_refl NH) as (X & F & TP & K).
  rewrite <- (idle_start b eq_refl eq_refl eq_refl eq_refl eq_refl NH eq_refl eq_refl) in T. destruct (extend 1 s0 (idle b) T X F) as (g & m & G1 & G2 & G3 & G4 & G5).
  exists g. rewrite G1. split; [exact R|]. subst s0. split; [exact G2|]. split; [exact G3|].
  assert (AL : alive b 0) by (now eexists; split).
  assert (HJ : forall j, ever_stopped (g j) = false /\ alive (g j) 0).
  { intros j. destruct (le_lt_dec j m) as [L|L].
    - specialize (G5 j L). destruct (K 0) as (K1 & K2). split; [eapply ever_stopped_back; [exact G5|rewrite K2; reflexivity]|eapply alive_back; [exact G5|]]. unfold alive. rewrite K1. exact AL.
    - replace j with (m + (j - m)) by lia. rewrite G4. destruct (K (j - m)) as (K1 & K2). split; [rewrite K2; reflexivity|]. unfold alive. rewrite K1. exact AL. }
  split; [apply HJ|]. split; [apply HJ|]. split; [intros z; destruct (TP z) as (k & HK); exists (m + k); now rewrite G4|]. repeat split.
Qed.
(** And that of the third: a fair execution from the state of [reachable_stopping], where a worker has a task. *)
Example fair_stopping : exists f, reaches 1 [Sequenced] (f 0) /\ execution 1 f /\ fair 1 f /\ phase (f 0) = Stopping /\ In (WGot (0, 0)) (workers (f 0)).
Proof.
  to_stopping R. match type of R with reaches _ _ ?s => assert (E0 : exists s0, s0 = s) by eauto; destruct E0 as (s0 & E0); rewrite <- E0 in R end.
  assert (HG : forall s s' (P : Prop), steps 1 s0 s -> step 1 s s' -> (steps 1 s0 s' -> P) -> P) by (intros s s' P H1 H2 H3; apply H3; eapply steps_more; eassumption).
  assert (T := steps_none 1 s0). rewrite E0 in T at 2.
  then_step T HG (w_check 1 _ 0). then_step T HG (w_loop 1 _ 0). then_step T HG (t_loop 1). then_step T HG (k_stopped 1).
  match type of T with steps _ _ ?s => set (b := s) in T end.
  assert (X : execution 1 (fun _ => b)) by (intros k; auto).
  assert (F : fair 1 (fun _ => b)).
  { intros a k. exists k. split; [lia|]. right. intros j _ (s' & HS & HA). destruct a as [[|w]| |r|i|]; cbn [acts] in HA.
    - destruct HA as (HA & _). now apply HA.
    - destruct HA as (_ & HA). apply HA. assert (EN : nth_error (workers b) (S w) = None) by now destruct w. rewrite EN. apply nth_error_None.
      assert (length (workers b) = 1) by reflexivity. enough (length (workers s') = 1) by lia. clear -HS H. split_step HS; rewrite ?upd_length; auto.
    - destruct HA as (HA & _). now apply HA.
    - destruct HA as (x & h & x' & H1 & H2 & _). destruct r as [|[|r]]; try discriminate. injection H1 as <-. discriminate.
    - destruct HA as ((r & t & []) & _).
    - destruct HA as (HA & _). discriminate. }
  destruct (extend 1 s0 (fun _ => b) T X F) as (g & m & G1 & G2 & G3 & _). exists g. rewrite G1. split; [exact R|]. subst s0. split; [exact G2|]. split; [exact G3|]. split; [reflexivity|now left].
Qed.
