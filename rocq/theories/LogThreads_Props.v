(** C72: logging from several threads. *)
From Verif Require Import Common LogThreads_Model LogThreads_Spec LogThreads_Proofs.

(** ** A logger with a task runner, any number of threads *)

(** The sink is given the records one at a time, numbered 0, 1, 2, ...; after a record it refused it is given no other; nothing is accessed by two
    threads at once. *)
Theorem async_sink s : reaches true s ->
  one_at_a_time (hist s) /\ numbered (records (hist s)) /\ failure_is_final (hist s) /\ ~ race true s.
Proof.
  intros R. destruct (core_reaches _ _ R (or_introl eq_refl)) as (w & C). pose proof (c_data _ _ _ C) as [N A F _ _ _ _].
  repeat (split; [assumption|]). exact (core_no_race _ _ _ C (shape_reaches _ _ R)).
Qed.
(** The records come in the order in which the tasks were posted, those of one thread in the order of its calls, none twice. *)
Theorem async_in_order s : reaches true s ->
  subsequence (map fst (records (hist s))) (posts (hist s)) /\
  forall t, subsequence (of_thread t (map fst (records (hist s)))) (of_thread t (calls (hist s))).
Proof.
  intros R. destruct (ordered_reaches _ R) as [P _ C _ _ _ _ _]. apply sub_prefix in P. split; [exact P|]. intros t.
  eapply sub_trans; [apply sub_filter, P|]. exact (sub_prefix _ _ _ (C t)).
Qed.
(** Unless the sink refuses a record, the logger is destroyed or the task manager stops, no call is left out: when nothing is under way the sink
    has been given the record of every call whose level is one of the four. *)
Theorem async_complete s : reaches true s -> settled s -> ~ refused (hist s) -> ~ In EDestroy (hist s) -> ~ In EStop (hist s) ->
  map fst (records (hist s)) = posts (hist s) /\
  forall t, of_thread t (map fst (records (hist s))) = of_thread t (filter a_level (calls (hist s))).
Proof.
  intros R (ST & Q) NR ND NS. destruct (ordered_reaches _ R) as [_ P _ L _ _ _ K].
  assert (E : map fst (records (hist s)) = posts (hist s)).
  { rewrite <- P by (intros c I; destruct (K c I); auto). rewrite ST, Q. cbn. now rewrite app_nil_r. }
  split; [exact E|]. intros t. rewrite E. specialize (L NR NS t). rewrite ST in L. cbn in L. now rewrite app_nil_r in L.
Qed.
(** The only other reasons for a call to be left out. *)
Theorem async_left_out s c : reaches true s ->
  (In (ESkip c) (hist s) -> refused (hist s) \/ In EDestroy (hist s)) /\ (running s = false -> In EStop (hist s)) /\ (failed s = true -> refused (hist s)).
Proof. intros R. destruct (ordered_reaches _ R) as [_ _ _ _ F _ N K]. split; [exact (K c)|]. split; assumption. Qed.

(** ** A logger without a task runner *)

(** If the calls do not overlap, all of this holds, in the order of the calls. *)
Theorem sync_serialized s : reaches false s -> no_overlap (hist s) ->
  one_at_a_time (hist s) /\ numbered (records (hist s)) /\ failure_is_final (hist s) /\ ~ race false s /\
  subsequence (map fst (records (hist s))) (calls (hist s)) /\
  (settled s -> ~ refused (hist s) -> map fst (records (hist s)) = filter a_level (calls (hist s))).
Proof.
  intros R OV. destruct (core_reaches _ _ R (or_intror OV)) as (w & C). pose proof (c_data _ _ _ C) as [N A F _ _ _ _].
  destruct (serial_reaches _ R OV _ C) as [S1 S2].
  split; [assumption|]. split; [assumption|]. split; [assumption|]. split; [exact (core_no_race _ _ _ C (shape_reaches _ _ R))|].
  split; [exact (sub_prefix _ _ _ S1)|]. intros (ST & _) NR. specialize (S2 NR). rewrite ST in S2. cbn in S2. now rewrite app_nil_r in S2.
Qed.

(** ** What does not hold *)

Definition call_a := Call 1 1 10.
Definition call_b := Call 2 1 20.
Local Ltac tidy H := cbv [initial failed index queue at_ alive running hist move app negb who call_a call_b] in H.

(** Two threads that call a logger without a task runner at the same time: both are in m_index++, both records get the number 0, and the sink is
    called while it is being called. *)
Theorem sync_race_refuted : exists s, reaches false s /\ race false s /\ ~ numbered (records (hist s)) /\ ~ one_at_a_time (hist s).
Proof.
  pose proof (reaches_initial false) as R. tidy R.
  eapply reaches_step in R; [|apply (s_call _ _ call_a); reflexivity]. tidy R.
  eapply reaches_step in R; [|apply (s_call _ _ call_b); reflexivity]. tidy R.
  eapply reaches_step in R; [|apply (s_load _ _ (Client 1) call_a); reflexivity]. tidy R.
  eapply reaches_step in R; [|apply (s_load _ _ (Client 2) call_b); reflexivity]. tidy R.
  eapply reaches_step in R; [|apply (s_store _ _ (Client 1) call_a 0); reflexivity]. tidy R.
  eapply reaches_step in R; [|apply (s_store _ _ (Client 2) call_b 0); reflexivity]. tidy R.
  eapply reaches_step in R; [|apply (s_begin _ _ (Client 1) call_a 0); reflexivity]. tidy R.
  eapply reaches_step in R; [|apply (s_begin _ _ (Client 2) call_b 0); reflexivity]. tidy R.
  eexists. split; [|split; [|split]].
  - exact R.
  - exists (Client 1), (Client 2). split; [discriminate|]. split; exact I.
  - intros N. discriminate N.
  - intros O. destruct (O [ECall call_a; ECall call_b] call_a 0 [] call_b 0 [] eq_refl) as (? & []).
Qed.
(** ... and a failure is forgotten: the sink refuses the record of one thread, then accepts that of another which was already under way, and the
    logger goes on. *)
Theorem sync_failure_refuted : exists s, reaches false s /\ ~ failure_is_final (hist s) /\ failed s = false /\ settled s /\ refused (hist s).
Proof.
  pose proof (reaches_initial false) as R. tidy R.
  eapply reaches_step in R; [|apply (s_call _ _ call_a); reflexivity]. tidy R.
  eapply reaches_step in R; [|apply (s_call _ _ call_b); reflexivity]. tidy R.
  eapply reaches_step in R; [|apply (s_load _ _ (Client 1) call_a); reflexivity]. tidy R.
  eapply reaches_step in R; [|apply (s_store _ _ (Client 1) call_a 0); reflexivity]. tidy R.
  eapply reaches_step in R; [|apply (s_begin _ _ (Client 1) call_a 0); reflexivity]. tidy R.
  eapply reaches_step in R; [|apply (s_end _ _ (Client 1) call_a 0 false); reflexivity]. tidy R.
  eapply reaches_step in R; [|apply (s_leave _ _ (Client 1) call_a false); reflexivity]. tidy R.
  eapply reaches_step in R; [|apply (s_load _ _ (Client 2) call_b); reflexivity]. tidy R.
  eapply reaches_step in R; [|apply (s_store _ _ (Client 2) call_b 1); reflexivity]. tidy R.
  eapply reaches_step in R; [|apply (s_begin _ _ (Client 2) call_b 1); reflexivity]. tidy R.
  eapply reaches_step in R; [|apply (s_end _ _ (Client 2) call_b 1 true); reflexivity]. tidy R.
  eapply reaches_step in R; [|apply (s_leave _ _ (Client 2) call_b true); reflexivity]. tidy R.
  eexists. split; [|split; [|split; [|split]]].
  - exact R.
  - intros F. apply (F [ECall call_a; ECall call_b; EBegin call_a 0] call_a 0 [EReturn call_a; EBegin call_b 1; EEnd call_b 1 true; EReturn call_b] call_b 1 eq_refl).
    right. left. reflexivity.
  - reflexivity.
  - split; [|reflexivity]. intros [[|[|[|t]]]|]; reflexivity.
  - exists call_a, 0. cbn. tauto.
Qed.
(** A logger with a task runner that is destroyed drops the records it has accepted: nothing failed and nothing was stopped, the call returned, and
    its record is given to no sink. *)
Theorem async_destroyed_refuted : exists s c, reaches true s /\ settled s /\ ~ refused (hist s) /\ ~ In EStop (hist s) /\
  In (EPost c) (hist s) /\ ~ In c (map fst (records (hist s))).
Proof.
  pose proof (reaches_initial true) as R. tidy R.
  eapply reaches_step in R; [|apply (s_call _ _ call_a); reflexivity]. tidy R.
  eapply reaches_step in R; [|apply (s_post _ _ call_a 1); reflexivity]. tidy R.
  eapply reaches_step in R; [|apply s_destroy; [reflexivity|intros [[|[|t]]|]; reflexivity]]. tidy R.
  eapply reaches_step in R; [|apply (s_skip _ _ call_a []); try reflexivity; now left]. tidy R.
  eexists. exists call_a. split; [|split; [|split; [|split; [|split]]]].
  - exact R.
  - split; [|reflexivity]. intros [[|[|t]]|]; reflexivity.
  - intros (c & i & H). cbn in H. intuition discriminate.
  - cbn. intuition discriminate.
  - cbn. tauto.
  - cbn. tauto.
Qed.

(** Two threads, three calls, one of them with a level that is none: what [async_complete] and the others speak about happens. *)
Example two_threads : exists s, reaches true s /\ settled s /\ ~ refused (hist s) /\ ~ In EDestroy (hist s) /\ ~ In EStop (hist s) /\
  records (hist s) = [(call_b, 0); (call_a, 1)] /\ calls (hist s) = [call_a; Call 3 7 30; call_b].
Proof.
  pose proof (reaches_initial true) as R. tidy R.
  eapply reaches_step in R; [|apply (s_call _ _ call_a); reflexivity]. tidy R.
  eapply reaches_step in R; [|apply (s_discard _ _ (Call 3 7 30)); reflexivity]. tidy R.
  eapply reaches_step in R; [|apply (s_call _ _ call_b); reflexivity]. tidy R.
  eapply reaches_step in R; [|apply (s_post _ _ call_b 2); reflexivity]. tidy R.
  eapply reaches_step in R; [|apply (s_start _ _ call_b []); reflexivity]. tidy R.
  eapply reaches_step in R; [|apply (s_load _ _ Worker call_b); reflexivity]. tidy R.
  eapply reaches_step in R; [|apply (s_post _ _ call_a 1); reflexivity]. tidy R.
  eapply reaches_step in R; [|apply (s_store _ _ Worker call_b 0); reflexivity]. tidy R.
  eapply reaches_step in R; [|apply (s_begin _ _ Worker call_b 0); reflexivity]. tidy R.
  eapply reaches_step in R; [|apply (s_end _ _ Worker call_b 0 true); reflexivity]. tidy R.
  eapply reaches_step in R; [|apply (s_leave _ _ Worker call_b true); reflexivity]. tidy R.
  eapply reaches_step in R; [|apply (s_start _ _ call_a []); reflexivity]. tidy R.
  eapply reaches_step in R; [|apply (s_load _ _ Worker call_a); reflexivity]. tidy R.
  eapply reaches_step in R; [|apply (s_store _ _ Worker call_a 1); reflexivity]. tidy R.
  eapply reaches_step in R; [|apply (s_begin _ _ Worker call_a 1); reflexivity]. tidy R.
  eapply reaches_step in R; [|apply (s_end _ _ Worker call_a 1 true); reflexivity]. tidy R.
  eapply reaches_step in R; [|apply (s_leave _ _ Worker call_a true); reflexivity]. tidy R.
  eexists. split; [|split; [|split; [|split; [|split; [|split]]]]].
  - exact R.
  - split; [|reflexivity]. intros [[|[|[|t]]]|]; reflexivity.
  - intros (c & i & H). cbn in H. intuition discriminate.
  - cbn. intuition discriminate.
  - cbn. intuition discriminate.
  - reflexivity.
  - reflexivity.
Qed.
(** One thread after the other without a task runner. *)
Example one_after_the_other : exists s, reaches false s /\ no_overlap (hist s) /\ records (hist s) = [(call_a, 0)] /\ settled s.
Proof.
  pose proof (reaches_initial false) as R. tidy R.
  eapply reaches_step in R; [|apply (s_call _ _ call_a); reflexivity]. tidy R.
  eapply reaches_step in R; [|apply (s_load _ _ (Client 1) call_a); reflexivity]. tidy R.
  eapply reaches_step in R; [|apply (s_store _ _ (Client 1) call_a 0); reflexivity]. tidy R.
  eapply reaches_step in R; [|apply (s_begin _ _ (Client 1) call_a 0); reflexivity]. tidy R.
  eapply reaches_step in R; [|apply (s_end _ _ (Client 1) call_a 0 true); reflexivity]. tidy R.
  eapply reaches_step in R; [|apply (s_leave _ _ (Client 1) call_a true); reflexivity]. tidy R.
  eapply reaches_step in R; [|apply (s_discard _ _ (Call 2 9 0)); reflexivity]. tidy R.
  eexists. split; [|split; [|split]].
  - exact R.
  - intros a c m d z E. cbn in E.
    destruct a as [|e a]; injection E as E0 E; subst.
    + destruct m as [|e0 m]; [discriminate E|]. injection E as <- E. destruct m as [|e1 m]; [discriminate E|]. injection E as <- E.
      destruct m as [|e2 m]; [discriminate E|]. injection E as <- E. cbn. tauto.
    + exfalso. destruct a as [|? a]; injection E as E0 E; subst; [discriminate|]. destruct a as [|? a]; injection E as E0 E; subst; [discriminate|].
      destruct a as [|? a]; injection E as E0 E; subst; [discriminate|]. destruct a as [|? a]; injection E as E0 E; subst.
      * destruct m as [|? m]; [discriminate E|]. injection E as <- E. destruct m as [|? m]; [discriminate E|]. injection E as <- E. destruct m; discriminate E.
      * destruct a as [|? a]; injection E as E0 E; subst; [discriminate|]. destruct a as [|? a]; injection E as E0 E; subst; [discriminate|]. destruct a; discriminate E.
  - reflexivity.
  - split; [|reflexivity]. intros [[|[|t]]|]; reflexivity.
Qed.
