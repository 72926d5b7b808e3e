(** Property C64: signal handlers. *)
From Verif Require Import Common Signal_Model Signal_Spec.

Definition action_for (f : option nat) : action := match f with Some _ => Handle | None => Default end.
Definition actions_for (f : option nat) (signals : list Z) (a : Z -> action) : Prop := forall n, In n signals -> a n = action_for f.
(** What holds of every state, in terms of the last two functions given. *)
Record inv (log : list event) (s : state) : Prop := Inv {
  i_other : forall n, ~ In n s_signals -> m_action s n = Default;
  i_running : Z.of_nat (length (m_running s)) = in_handler log;
  i_phase : match m_phase s with
    | Idle => during_call log = false /\ m_handler s = Whole (last_set log) /\ actions_for (last_set log) s_signals (m_action s)
    | Assigning f => during_call log = true /\ f = last_set log /\ (m_handler s = Whole (fst (last_two log)) \/ m_handler s = Torn) /\ actions_for (fst (last_two log)) s_signals (m_action s)
    | Registering f rest => during_call log = true /\ f = last_set log /\ m_handler s = Whole f /\
        exists before, s_signals = before ++ rest /\ actions_for f before (m_action s) /\ actions_for (fst (last_two log)) rest (m_action s)
    end }.
Lemma last_set_snoc log e : last_set (log ++ [e]) = match e with SetBegins g => g | _ => last_set log end.
Proof. unfold last_set. rewrite fold_left_app. reflexivity. Qed.
Lemma during_snoc log e : during_call (log ++ [e]) = match e with SetBegins _ => true | SetReturns => false | _ => during_call log end.
Proof. unfold during_call. rewrite fold_left_app. reflexivity. Qed.
Lemma in_handler_snoc log e : in_handler (log ++ [e]) = match e with Arrives _ (Invoked _ _) => in_handler log + 1 | HandlerReturns _ => in_handler log - 1 | _ => in_handler log end.
Proof. unfold in_handler. rewrite fold_left_app. reflexivity. Qed.
Lemma last_two_snoc log e : last_two (log ++ [e]) = match e with SetBegins g => (snd (last_two log), g) | _ => last_two log end.
Proof. unfold last_two. rewrite fold_left_app. reflexivity. Qed.
Lemma last_two_set log : snd (last_two log) = last_set log.
Proof. induction log as [|e log IH] using rev_ind; [reflexivity|]. rewrite last_set_snoc, last_two_snoc. destruct e; auto. Qed.
Lemma remove_one_length f l : In f l -> length l = S (length (remove_one f l)).
Proof.
  induction l as [|g l IH]; [intros []|]. intros H. cbn [remove_one]. destruct (Nat.eqb_spec f g) as [->|HN]; [reflexivity|]. cbn [length]. f_equal. apply IH. destruct H as [->|H]; [congruence|exact H].
Qed.
Lemma signals_nodup : NoDup s_signals.
Proof. unfold s_signals. repeat constructor; cbn [In]; intros H; repeat destruct H as [H|H]; try discriminate H; exact H. Qed.

Lemma step_inv log s e t : inv log s -> step s e t -> inv (log ++ [e]) t.
Proof.
  intros [IO IR IP] HS. destruct HS as [h a run f|h a run f HT HD|h a f run HD|a f run|h a f n rest run|h a f run|s n|h a p run f HF]; cbn [m_running m_phase m_handler m_action] in *.
  - constructor; cbn [m_running m_phase m_handler m_action]; [exact IO|now rewrite in_handler_snoc|]. rewrite during_snoc, last_set_snoc, last_two_snoc. cbn [fst]. destruct IP as (I1 & I2 & I3). rewrite last_two_set. auto.
  - constructor; cbn [m_running m_phase m_handler m_action]; [exact IO|now rewrite in_handler_snoc|]. rewrite during_snoc, last_set_snoc, last_two_snoc. destruct IP as (I1 & I2 & I3 & I4). auto.
  - constructor; cbn [m_running m_phase m_handler m_action]; [exact IO|now rewrite in_handler_snoc|]. rewrite during_snoc, last_set_snoc, last_two_snoc. destruct IP as (I1 & I2 & I3 & I4). auto.
  - constructor; cbn [m_running m_phase m_handler m_action]; [exact IO|now rewrite in_handler_snoc|]. rewrite during_snoc, last_set_snoc, last_two_snoc. destruct IP as (I1 & I2 & I3 & I4). repeat (split; [assumption || reflexivity|]). exists []. split; [reflexivity|]. split; [intros n []|exact I4].
  - destruct IP as (I1 & I2 & I3 & before & E & I4 & I5). assert (HI : In n s_signals) by (rewrite E; apply in_or_app; right; now left).
    assert (HN : ~ In n rest /\ ~ In n before). { pose proof signals_nodup as ND. rewrite E in ND. apply NoDup_remove_2 in ND. split; intros H; apply ND; apply in_or_app; auto. }
    constructor; cbn [m_running m_phase m_handler m_action]; [|now rewrite in_handler_snoc|].
    + intros k HK. unfold set_action. destruct (Z.eqb_spec k n) as [->|]; [contradiction|auto].
    + rewrite during_snoc, last_set_snoc, last_two_snoc. repeat (split; [assumption|]). exists (before ++ [n]). rewrite <- app_assoc. split; [exact E|]. split.
      * intros k HK. unfold set_action. destruct (Z.eqb_spec k n) as [->|HK']; [now destruct f|]. apply in_app_or in HK. destruct HK as [HK|[HK|[]]]; [auto|congruence].
      * intros k HK. unfold set_action. destruct (Z.eqb_spec k n) as [->|HK']; [tauto|]. apply I5. now right.
  - destruct IP as (I1 & I2 & I3 & before & E & I4 & I5). constructor; cbn [m_running m_phase m_handler m_action]; [exact IO|now rewrite in_handler_snoc|]. rewrite during_snoc, last_set_snoc. split; [reflexivity|]. subst f. split; [assumption|]. rewrite app_nil_r in E. now rewrite E.
  - destruct s as [h a p run]. cbn [m_running m_phase m_handler m_action] in *.
    assert (G : inv (log ++ [Arrives n (deliver (State h a p run) n)]) (State h a p (match deliver (State h a p run) n with Invoked f _ => f :: run | _ => run end))).
    { constructor; cbn [m_running m_phase m_handler m_action]; [exact IO| |].
      - rewrite in_handler_snoc. destruct (deliver (State h a p run) n); cbn [length]; lia.
      - rewrite during_snoc, last_set_snoc, last_two_snoc. exact IP. }
    now destruct (deliver (State h a p run) n).
  - constructor; cbn [m_running m_phase m_handler m_action]; [exact IO| |].
    + rewrite in_handler_snoc, <- IR, (remove_one_length f run HF). lia.
    + rewrite during_snoc, last_set_snoc, last_two_snoc. exact IP.
Qed.
Lemma run_inv log s : run initial log s -> inv log s.
Proof.
  induction 1 as [|log t e u HR IH HS]; [|eapply step_inv; eauto]. constructor; cbn; [reflexivity|reflexivity|]. split; [reflexivity|]. split; [reflexivity|]. intros n _. reflexivity.
Qed.
Lemma handled_signals n : handled n <-> In n s_signals.
Proof. unfold handled, s_signals. cbn [In]. intuition auto. Qed.
Lemma run_last log e s : run initial (log ++ [e]) s -> exists t, run initial log t /\ step t e s.
Proof. intros H. inversion H as [E|log' t e' u HR HS E]; [now destruct log|]. apply app_inj_tail in E. destruct E as (-> & ->). eauto. Qed.
Lemma arrival log n what s : run initial (log ++ [Arrives n what]) s -> exists t, inv log t /\ what = deliver t n.
Proof. intros H. apply run_last in H. destruct H as (t & HR & HS). exists t. split; [now apply run_inv|]. inversion HS; subst. reflexivity. Qed.
Lemma deliver_whole s n f : m_action s n = action_for f -> m_handler s = Whole f -> deliver s n = wanted f n.
Proof. intros A H. unfold deliver. rewrite A, H. now destruct f. Qed.

(** Outside calls of set_signal_handler every handled signal leads to the function set last, with the signal's number, or to the
    default action if none is set. *)
Theorem signals_handled : forall log n what s, run initial (log ++ [Arrives n what]) s -> during_call log = false -> handled n -> what = wanted (last_set log) n.
Proof.
  intros log n what s HR HD HH. apply arrival in HR. destruct HR as (t & [IO IR IP] & ->). apply handled_signals in HH. destruct (m_phase t) as [|f|f rest].
  - destruct IP as (_ & I2 & I3). apply deliver_whole; auto.
  - destruct IP as (I1 & _). congruence.
  - destruct IP as (I1 & _). congruence.
Qed.
(** Other signals always keep the default action. *)
Theorem other_signals_default : forall log n what s, run initial (log ++ [Arrives n what]) s -> ~ handled n -> what = DefaultAction.
Proof. intros log n what s HR HN. apply arrival in HR. destruct HR as (t & [IO IR IP] & ->). unfold deliver. rewrite IO; [reflexivity|]. intros H. apply HN. now apply handled_signals. Qed.
(** While the first function is being set, or none after none, a signal leads to the default action or to the new function. *)
Theorem first_set_safe : forall log n what s, run initial (log ++ [Arrives n what]) s -> during_call log = true -> fst (last_two log) = None -> handled n -> what = DefaultAction \/ what = wanted (last_set log) n.
Proof.
  intros log n what s HR HD HF HH. apply arrival in HR. destruct HR as (t & [IO IR IP] & ->). apply handled_signals in HH. destruct (m_phase t) as [|f|f rest].
  - destruct IP as (I1 & _). congruence.
  - destruct IP as (_ & I2 & I3 & I4). left. unfold deliver. rewrite HF in I4. now rewrite (I4 n HH).
  - destruct IP as (_ & I2 & I3 & before & E & I4 & I5). rewrite E in HH. apply in_app_or in HH. destruct HH as [HH|HH].
    + right. subst f. apply deliver_whole; auto.
    + left. unfold deliver. rewrite HF in I5. now rewrite (I5 n HH).
Qed.
(** While one function replaces another, a signal leads to one of the two, unless the assignment is under way; while a function
    is being removed also to an exception out of the signal handler. *)
Theorem replacement_outcomes : forall log n what s f, run initial (log ++ [Arrives n what]) s -> during_call log = true -> fst (last_two log) = Some f -> handled n ->
  what = Invoked f n \/ what = wanted (last_set log) n \/ what = Undefined \/ (what = BadFunctionCall /\ last_set log = None).
Proof.
  intros log n what s f0 HR HD HF HH. apply arrival in HR. destruct HR as (t & [IO IR IP] & ->). apply handled_signals in HH. destruct (m_phase t) as [|f|f rest].
  - destruct IP as (I1 & _). congruence.
  - destruct IP as (_ & I2 & I3 & I4). rewrite HF in *. specialize (I4 n HH). unfold deliver. rewrite I4. cbn [action_for]. destruct I3 as [-> | ->]; auto.
  - destruct IP as (_ & I2 & I3 & before & E & I4 & I5). rewrite HF in I5. unfold deliver. rewrite I3. rewrite E in HH. apply in_app_or in HH. destruct HH as [HH|HH].
    + rewrite (I4 n HH), I2. destruct (last_set log); auto.
    + rewrite (I5 n HH), I2. cbn [action_for]. destruct (last_set log); auto.
Qed.
(** A function is destroyed while it runs only if a handler runs during a call. *)
Theorem destroyed_only_while_running : forall log s, run initial (log ++ [UseAfterDestruction]) s -> 0 < in_handler log /\ during_call log = true.
Proof.
  intros log s HR. apply run_last in HR. destruct HR as (t & HR & HS). apply run_inv in HR. destruct HR as [IO IR IP]. inversion HS as [| |h a f run HD E1 E2 E3| | | | |]; subst. cbn [m_running m_phase] in *. split; [|tauto].
  destruct run; [|cbn [length] in IR; lia]. destruct h as [[g|]|]; discriminate HD.
Qed.

(** ** What is false *)
Lemma run_more s log t e u : run s log t -> step t e u -> run s (log ++ [e]) u.
Proof. intros H1 H2. econstructor; eauto. Qed.
Lemma run_trans s a t b u : run s a t -> run t b u -> run s (a ++ b) u.
Proof. intros H1 H2. induction H2 as [|b t' e u H2 IH HS]; [now rewrite app_nil_r|]. rewrite app_assoc. econstructor; eauto. Qed.
Definition set_log (f : option nat) : list event := [SetBegins f; SetTears; SetAssigned] ++ repeat SetRegistered 8 ++ [SetReturns].
Lemma run_registers h f rest : forall a rn, exists a', run (State h a (Registering f rest) rn) (repeat SetRegistered (length rest)) (State h a' (Registering f []) rn).
Proof.
  induction rest as [|n rest IH]; intros a rn; [exists a; constructor|]. destruct (IH (set_action a n (match f with Some _ => Handle | None => Default end)) rn) as (a' & H). exists a'. cbn [length repeat].
  change (SetRegistered :: repeat SetRegistered (length rest)) with ([SetRegistered] ++ repeat SetRegistered (length rest)). eapply run_trans; [|exact H]. change [SetRegistered] with ([] ++ [SetRegistered]). econstructor; [constructor|constructor].
Qed.
Lemma run_set h a f : h <> Torn -> exists a', run (State h a Idle []) (set_log f) (State (Whole f) a' Idle []).
Proof.
  intros HT. destruct (run_registers (Whole f) f s_signals a []) as (a' & H). exists a'. unfold set_log. eapply run_trans; [|eapply run_trans; [exact H|]].
  - change [SetBegins f; SetTears; SetAssigned] with ((([] ++ [SetBegins f]) ++ [SetTears]) ++ [SetAssigned]). eapply run_more; [|constructor]. eapply run_more; [|constructor; [exact HT|now destruct h as [[|]|]]]. eapply run_more; [constructor|constructor].
  - change [SetReturns] with ([] ++ [SetReturns]). eapply run_more; constructor.
Qed.
(** Removing a handler is not safe: a signal that arrives then makes the library call a function that is not there. *)
Theorem removing_refuted : forall f n, handled n -> exists s, run initial (set_log (Some f) ++ [SetBegins None; SetTears; SetAssigned; Arrives n BadFunctionCall]) s.
Proof.
  intros f n HH. destruct (run_set (Whole None) (fun _ => Default) (Some f)) as (a & H); [discriminate|]. pose proof (run_inv _ _ H) as [_ _ (_ & _ & IA)]. cbn [m_action] in IA. apply handled_signals in HH. specialize (IA n HH).
  eexists. eapply run_trans; [exact H|]. change [SetBegins None; SetTears; SetAssigned; Arrives n BadFunctionCall] with (((([] ++ [SetBegins None]) ++ [SetTears]) ++ [SetAssigned]) ++ [Arrives n BadFunctionCall]).
  eapply run_more; [eapply run_more; [eapply run_more; [eapply run_more; [constructor|constructor]|constructor; [discriminate|reflexivity]]|constructor]|].
  match goal with |- step ?s _ _ => assert (E : deliver s n = BadFunctionCall) by (unfold deliver; cbn [m_action m_handler]; rewrite IA; reflexivity); rewrite <- E at 1; constructor end.
Qed.
(** Nor is replacing one. *)
Theorem replacing_refuted : forall f g n, handled n -> exists s, run initial (set_log (Some f) ++ [SetBegins (Some g); SetTears; Arrives n Undefined]) s.
Proof.
  intros f g n HH. destruct (run_set (Whole None) (fun _ => Default) (Some f)) as (a & H); [discriminate|]. pose proof (run_inv _ _ H) as [_ _ (_ & _ & IA)]. cbn [m_action] in IA. apply handled_signals in HH. specialize (IA n HH).
  eexists. eapply run_trans; [exact H|]. change [SetBegins (Some g); SetTears; Arrives n Undefined] with ((([] ++ [SetBegins (Some g)]) ++ [SetTears]) ++ [Arrives n Undefined]).
  eapply run_more; [eapply run_more; [eapply run_more; [constructor|constructor]|constructor; [discriminate|reflexivity]]|].
  match goal with |- step ?s _ _ => assert (E : deliver s n = Undefined) by (unfold deliver; cbn [m_action m_handler]; rewrite IA; reflexivity); rewrite <- E at 1; constructor end.
Qed.
(** A handler that sets another one (or none), or runs in another thread meanwhile, is destroyed while it runs. *)
Theorem handler_destroyed_refuted : forall f g n, handled n -> exists s, run initial (set_log (Some f) ++ [Arrives n (Invoked f n); SetBegins g; UseAfterDestruction]) s.
Proof.
  intros f g n HH. destruct (run_set (Whole None) (fun _ => Default) (Some f)) as (a & H); [discriminate|]. pose proof (run_inv _ _ H) as [_ _ (_ & _ & IA)]. cbn [m_action] in IA. apply handled_signals in HH. specialize (IA n HH).
  eexists. eapply run_trans; [exact H|]. change [Arrives n (Invoked f n); SetBegins g; UseAfterDestruction] with ((([] ++ [Arrives n (Invoked f n)]) ++ [SetBegins g]) ++ [UseAfterDestruction]).
  assert (E : deliver (State (Whole (Some f)) a Idle []) n = Invoked f n) by (unfold deliver; cbn [m_action m_handler]; now rewrite IA).
  eapply run_more with (t := State (Whole (Some f)) a (Assigning g) [f]); [eapply run_more with (t := State (Whole (Some f)) a Idle [f]); [eapply run_more; [constructor|]|constructor]|].
  - pose proof (st_arrives (State (Whole (Some f)) a Idle []) n) as HS. rewrite E in HS. exact HS.
  - constructor. cbn. now rewrite Nat.eqb_refl.
Qed.

(** ** Examples *)
(** A handler is set and SIGTERM arrives. *)
Example signal_run : exists s, run initial (set_log (Some 1%nat) ++ [Arrives 15 (Invoked 1 15)]) s /\ during_call (set_log (Some 1%nat)) = false /\ handled 15 /\ last_set (set_log (Some 1%nat)) = Some 1%nat.
Proof.
  destruct (run_set (Whole None) (fun _ => Default) (Some 1%nat)) as (a & H); [discriminate|]. pose proof (run_inv _ _ H) as [_ _ (_ & _ & IA)]. cbn [m_action] in IA. eexists. split; [|split; [reflexivity|split; [unfold handled; tauto|reflexivity]]].
  eapply run_more; [exact H|]. assert (E : deliver (State (Whole (Some 1%nat)) a Idle []) 15 = Invoked 1 15) by (unfold deliver; cbn [m_action m_handler]; rewrite IA; [reflexivity|cbn; tauto]). rewrite <- E. constructor.
Qed.
(** While the first handler is being set: [first_set_safe] has cases. *)
Example signal_first : exists s, run initial ([SetBegins (Some 1%nat)] ++ [Arrives 15 DefaultAction]) s.
Proof. eexists. eapply run_more; [change [SetBegins (Some 1%nat)] with ([] ++ [SetBegins (Some 1%nat)]); eapply run_more; constructor|]. exact (st_arrives (State (Whole None) (fun _ => Default) (Assigning (Some 1%nat)) []) 15). Qed.
