(** C38: socket service notifications.  [log s] is everything that has happened, in order. *)
From Verif Require Import Common Service_Model Service_Spec Service_Proofs.
Open Scope nat_scope.

(** A log cut where a request is consumed. *)
Lemma wf_prefix a b : wf_log (a ++ b) -> wf_log a.
Proof.
  induction b as [|e b IH] using rev_ind; intros H; [now rewrite app_nil_r in H|]. apply IH. rewrite app_assoc in H.
  inversion H as [E|l ? ? ? ? Hl ? E|l ? Hl E|l ? ? Hl E|l ? Hl E|l ? ? ? ? Hl ? ? ? ? E|l ? ? ? ? Hl ? ? ? ? E];
  [destruct ((a ++ b) ++ [e]) eqn:EE; [destruct (a ++ b); discriminate EE|discriminate E]|..]; apply app_inj_tail in E as (<- & _); assumption.
Qed.
Lemma served_cut a e b d i h : wf_log (a ++ e :: b) -> served d i h e -> wf_log a /\ exists u q v, pend d a = u ++ q :: v /\ id_of q = i /\ handle_of q = h /\
  (forall x, In x u -> handle_of x <> h) /\ open_for d a h /\ (e = ENotify d i h -> ~ In (EGone (socket_of q)) a) /\ (e = EDrop d i h -> In (EGone (socket_of q)) a).
Proof.
  intros H HV. change (e :: b) with ([e] ++ b) in H. rewrite app_assoc in H. apply wf_prefix in H. split; [now apply wf_prefix in H|].
  inversion H as [E|l ? ? ? ? Hl ? E|l ? Hl E|l ? ? Hl E|l ? Hl E|l d0 u q v Hl HP HU HO HG E|l d0 u q v Hl HP HU HO HG E];
  [destruct a; discriminate E|..]; apply app_inj_tail in E as (-> & <-); try (destruct HV as [HV|HV]; discriminate HV).
  - destruct HV as [HV|HV]; [|discriminate HV]. injection HV as -> <- <-. exists u, q, v. repeat (split; [first [assumption|reflexivity]|]). split; [auto|discriminate].
  - destruct HV as [HV|HV]; [discriminate HV|]. injection HV as -> <- <-. exists u, q, v. repeat (split; [first [assumption|reflexivity]|]). split; [discriminate|auto].
Qed.
Lemma notified_served d i h : served d i h (ENotify d i h).
Proof. now left. Qed.

(** Each notification is invoked at most once (and is not both invoked and dropped). *)
Theorem notified_at_most_once s : reaches s -> NoDup (consumed (log s)).
Proof.
  intros HR. apply reaches_inv in HR. destruct HR as [WF _ _ _ _ _ _ _ _].
  assert (HM : forall a e b d i h, log s = a ++ e :: b -> served d i h e -> ~ In i (consumed b)).
  { intros a e b d i h E HV HI. apply in_flat_map in HI as (e' & HE & HI). apply in_split in HE as (b1 & b2 & ->). rewrite E in WF.
    assert (HV' : exists d' h', served d' i h' e'). { destruct e'; cbn [In] in HI; try easy; destruct HI as [->|[]]; unfold served; eauto. }
    destruct HV' as (d' & h' & HV'). pose proof (wf_nodup _ WF) as ND.
    destruct (served_cut _ _ _ _ _ _ WF HV) as (_ & u & q & v & HP & Eq1 & Eq2 & _).
    change (a ++ e :: b1 ++ e' :: b2) with (a ++ (e :: b1) ++ e' :: b2) in WF. rewrite app_assoc in WF.
    destruct (served_cut _ _ _ _ _ _ WF HV') as (_ & u' & q' & v' & HP' & Eq1' & Eq2' & _).
    assert (I1 : In q (pend d a)) by (rewrite HP; apply in_or_app; right; now left). assert (I2 : In q' (pend d' (a ++ e :: b1))) by (rewrite HP'; apply in_or_app; right; now left).
    pose proof I2 as I3. apply pend_in in I1 as (x1 & y1 & X1 & _). apply pend_in in I2 as (x2 & y2 & X2 & _).
    assert (R1 : In (ERegister d i h (socket_of q)) (a ++ e :: b1 ++ e' :: b2)). { apply in_or_app. left. rewrite X1. apply in_or_app. right. left. congruence. }
    assert (R2 : In (ERegister d' i h' (socket_of q')) (a ++ e :: b1 ++ e' :: b2)).
    { change (a ++ e :: b1 ++ e' :: b2) with (a ++ (e :: b1) ++ e' :: b2). rewrite app_assoc. apply in_or_app. left. rewrite X2. apply in_or_app. right. left. congruence. }
    destruct (reg_unique _ _ _ _ _ _ _ _ ND R1 R2) as (-> & -> & _).
    change (a ++ e :: b1 ++ e' :: b2) with (a ++ (e :: b1) ++ e' :: b2) in ND. rewrite pend_app in I3. apply in_app_or in I3 as [I3|I3].
    - apply filter_In in I3 as (_ & HS). apply survives_all_spec with (e := e) in HS; [|now left]. destruct HV as [-> | ->]; cbn [survives] in HS; destruct (same_dir_spec d' d'); try congruence;
      rewrite Eq1', Nat.eqb_refl in HS; discriminate HS.
    - apply pend_in in I3 as (x3 & y3 & X3 & _). rewrite X1, X3 in ND. rewrite Eq1, Eq1' in ND. clear - ND. change (?x ++ ERegister d' i ?h ?k :: ?y) with (x ++ [ERegister d' i h k] ++ y) in ND.
      rewrite !reg_app in ND. cbn [reg_ids flat_map app] in ND. rewrite <- !app_assoc in ND. apply nodup_app in ND as (_ & ND & _). cbn [app] in ND. inversion ND as [|? ? N _]; subst. apply N.
      apply in_or_app. right. apply in_or_app. right. now left. }
  assert (HG : forall b a, log s = a ++ b -> NoDup (consumed b)).
  { induction b as [|e b IH]; intros a E; [constructor|]. assert (NB : NoDup (consumed b)) by (apply (IH (a ++ [e])); rewrite E, <- app_assoc; reflexivity).
    destruct e as [d i h k|k|W R|d i h|d i h|h]; cbn [consumed flat_map app]; try assumption; constructor; try assumption; eapply (HM a); try eassumption; [now left|now right]. }
  now apply (HG _ []).
Qed.

(** A callback is invoked only after the registration of its request was processed, and only if the last readiness
    check, made after that, reported the socket as ready in that direction; at most one callback per
    socket and direction is invoked for one report. *)
Theorem notified_when_ready s a d i h b : reaches s -> log s = a ++ ENotify d i h :: b ->
  exists a1 W R a2 k, a = a1 ++ ESelect W R :: a2 /\ In (ERegister d i h k) a1 /\ In h (side d W R) /\ Forall not_select a2 /\ forall j e, In e a2 -> ~ served d j h e.
Proof.
  intros HR E. apply reaches_inv in HR. destruct HR as [WF _ _ _ _ _ _ _ _]. rewrite E in WF. destruct (served_cut _ _ _ _ _ _ WF (notified_served d i h)) as (_ & u & q & v & HP & <- & <- & _ & HO & _).
  destruct HO as (a1 & W & R & a2 & -> & HB & HI & HN). exists a1, W, R, a2, (socket_of q). split; [reflexivity|]. split; [|split; [assumption|split; [now apply inner_not_select|assumption]]].
  assert (HQ : In q (pend d (a1 ++ ESelect W R :: a2))) by (rewrite HP; apply in_or_app; right; now left).
  apply pend_in in HQ as (x & y & EX & _). assert (HX : In (ERegister d (id_of q) (handle_of q) (socket_of q)) (a1 ++ ESelect W R :: a2)) by (rewrite EX; apply in_or_app; right; now left).
  apply in_app_or in HX as [HX|[HX|HX]]; [assumption|discriminate HX|]. rewrite Forall_forall in HB. elim (HB _ HX).
Qed.

(** Once the removal of its socket has been processed, a notification registered before is not invoked. *)
Theorem not_notified_after_removal s a d i h k b c d' h' : reaches s -> log s = a ++ ERegister d i h k :: b ++ ERemove h :: c -> ~ In (ENotify d' i h') c.
Proof.
  intros HR E HI. apply reaches_inv in HR. destruct HR as [WF _ _ _ _ _ _ _ _]. rewrite E in WF. apply in_split in HI as (c1 & c2 & ->). pose proof (wf_nodup _ WF) as ND.
  replace (a ++ ERegister d i h k :: b ++ ERemove h :: c1 ++ ENotify d' i h' :: c2) with ((a ++ ERegister d i h k :: b ++ ERemove h :: c1) ++ ENotify d' i h' :: c2) in WF by (rewrite <- app_assoc; cbn [app]; rewrite <- app_assoc; reflexivity).
  destruct (served_cut _ _ _ _ _ _ WF (notified_served d' i h')) as (_ & u & q & v & HP & Eq1 & Eq2 & _).
  assert (HQ : In q (pend d' (a ++ ERegister d i h k :: b ++ ERemove h :: c1))) by (rewrite HP; apply in_or_app; right; now left). clear HP WF.
  set (l := a ++ ERegister d i h k :: b) in *. assert (EL : a ++ ERegister d i h k :: b ++ ERemove h :: c1 = l ++ ERemove h :: c1) by (unfold l; rewrite <- app_assoc; reflexivity). rewrite EL in HQ.
  assert (ND' : NoDup (reg_ids (l ++ ERemove h :: c1))). { rewrite <- EL. change (ENotify d' i h' :: c2) with ([ENotify d' i h'] ++ c2) in ND. revert ND. cbn [app]. change (ERemove h :: c1 ++ ?x) with ((ERemove h :: c1) ++ x). rewrite (app_assoc b). change (ERegister d i h k :: ?x ++ ?y) with ((ERegister d i h k :: x) ++ y). rewrite app_assoc, reg_app. intros ND. apply nodup_app in ND as (ND & _). exact ND. }
  pose proof HQ as HQ2. apply pend_in in HQ2 as (x & y & EX & _).
  assert (R1 : In (ERegister d i h k) (l ++ ERemove h :: c1)) by (apply in_or_app; left; unfold l; apply in_or_app; right; now left).
  assert (R2 : In (ERegister d' i h' (socket_of q)) (l ++ ERemove h :: c1)) by (rewrite EX; apply in_or_app; right; left; congruence).
  destruct (reg_unique _ _ _ _ _ _ _ _ ND' R1 R2) as (<- & <- & _).
  rewrite pend_app in HQ. apply in_app_or in HQ as [HQ|HQ].
  - apply filter_In in HQ as (_ & HS). apply survives_all_spec with (e := ERemove h) in HS; [|now left]. cbn [survives] in HS. rewrite Eq2, Z.eqb_refl in HS. discriminate HS.
  - apply pend_ids_incl in HQ. rewrite Eq1 in HQ. rewrite reg_app in ND'. apply nodup_app in ND' as (_ & _ & N). apply (N i); [|assumption]. unfold l. eapply reg_in. apply in_or_app. right. now left.
Qed.

(** A callback is not invoked after its socket object was destroyed; it is dropped only for that reason. *)
Theorem not_notified_when_gone s a k b d i h c : reaches s -> log s = a ++ EGone k :: b -> In (ERegister d i h k) (log s) -> ~ In (ENotify d i c) b.
Proof.
  intros HR E HI HN. apply reaches_inv in HR. destruct HR as [WF _ _ _ _ _ _ _ _]. apply in_split in HN as (b1 & b2 & ->). pose proof (wf_nodup _ WF) as ND. rewrite E in WF.
  change (a ++ EGone k :: b1 ++ ENotify d i c :: b2) with (a ++ (EGone k :: b1) ++ ENotify d i c :: b2) in WF. rewrite app_assoc in WF.
  destruct (served_cut _ _ _ _ _ _ WF (notified_served d i c)) as (_ & u & q & v & HP & Eq1 & Eq2 & _ & _ & HG & _).
  assert (HQ : In q (pend d (a ++ EGone k :: b1))) by (rewrite HP; apply in_or_app; right; now left). apply pend_in in HQ as (x & y & EX & _).
  assert (R2 : In (ERegister d i c (socket_of q)) (log s)).
  { rewrite E. change (a ++ EGone k :: b1 ++ ENotify d i c :: b2) with (a ++ (EGone k :: b1) ++ ENotify d i c :: b2). rewrite app_assoc. apply in_or_app. left. rewrite EX. apply in_or_app. right. left. congruence. }
  destruct (reg_unique _ _ _ _ _ _ _ _ ND HI R2) as (_ & _ & ->). apply (HG eq_refl). apply in_or_app. right. now left.
Qed.
Theorem dropped_only_when_gone s a d i h b : reaches s -> log s = a ++ EDrop d i h :: b -> exists k, In (ERegister d i h k) a /\ In (EGone k) a.
Proof.
  intros HR E. apply reaches_inv in HR. destruct HR as [WF _ _ _ _ _ _ _ _]. rewrite E in WF. destruct (served_cut _ _ _ d i h WF ltac:(now right)) as (_ & u & q & v & HP & Eq1 & Eq2 & _ & _ & _ & HG).
  exists (socket_of q). split; [|auto]. assert (HQ : In q (pend d a)) by (rewrite HP; apply in_or_app; right; now left). apply pend_in in HQ as (x & y & -> & _). apply in_or_app. right. left. congruence.
Qed.

(** Requests for the same socket and direction are served in the order in which they were registered: when the later
    one's callback is invoked, the earlier one has been consumed or removed. *)
Theorem notified_in_order s a1 d i h k a2 j k' a3 b : reaches s -> log s = a1 ++ ERegister d i h k :: a2 ++ ERegister d j h k' :: a3 ++ ENotify d j h :: b ->
  In i (consumed (a2 ++ a3)) \/ In (ERemove h) (a2 ++ a3).
Proof.
  intros HR E. apply reaches_inv in HR. destruct HR as [WF _ _ _ _ _ _ _ _]. pose proof (wf_nodup _ WF) as ND. rewrite E in WF, ND.
  set (l := a1 ++ ERegister d i h k :: a2 ++ ERegister d j h k' :: a3) in *.
  assert (EL : a1 ++ ERegister d i h k :: a2 ++ ERegister d j h k' :: a3 ++ ENotify d j h :: b = l ++ ENotify d j h :: b).
  { unfold l. rewrite <- app_assoc. cbn [app]. rewrite <- app_assoc. reflexivity. }
  rewrite EL in WF, ND. destruct (served_cut _ _ _ d j h WF ltac:(now left)) as (_ & u & q & v & HP & Eq1 & Eq2 & HU & _).
  set (qi := Request h i k). destruct (survives_all d (a2 ++ ERegister d j h k' :: a3) qi) eqn:ES.
  - exfalso. assert (NJ : NoDup (reg_ids l)) by (rewrite reg_app in ND; now apply nodup_app in ND as (ND & _)).
    pose proof (pend_nodup d _ NJ) as NP. rewrite HP in NP.
    assert (HB : exists x y z, pend d l = x ++ qi :: y ++ z /\ In q z).
    { unfold l. rewrite pend_app, pend_cons. cbn [adds]. destruct (same_dir_spec d d) as [_|N]; [|congruence]. cbn [filter]. fold qi. rewrite ES. cbn [app].
      eexists _, (filter (survives_all d (ERegister d j h k' :: a3)) (pend d a2)), _. rewrite (pend_app d a2). split; [reflexivity|].
      assert (HQ : In q (pend d l)) by (rewrite HP; apply in_or_app; right; now left). unfold l in HQ.
      change (a1 ++ ERegister d i h k :: a2 ++ ERegister d j h k' :: a3) with (a1 ++ (ERegister d i h k :: a2) ++ ERegister d j h k' :: a3) in HQ. rewrite app_assoc in HQ.
      rewrite pend_app in HQ. apply in_app_or in HQ as [HQ|HQ]; [|assumption]. exfalso. apply filter_In in HQ as (HQ & _). apply pend_ids_incl in HQ. rewrite Eq1 in HQ.
      unfold l in NJ. change (a1 ++ ERegister d i h k :: a2 ++ ERegister d j h k' :: a3) with (a1 ++ (ERegister d i h k :: a2) ++ ERegister d j h k' :: a3) in NJ. rewrite app_assoc, reg_app in NJ.
      apply nodup_app in NJ as (_ & _ & N). apply (N j HQ). now left. }
    destruct HB as (x & y & z & EP & HZ). apply in_split in HZ as (z1 & z2 & ->). rewrite HP in EP.
    assert (EU : u = x ++ qi :: y ++ z1).
    { clear - EP NP. revert EP NP. replace (x ++ qi :: y ++ z1 ++ q :: z2) with ((x ++ qi :: y ++ z1) ++ q :: z2) by (rewrite <- app_assoc; cbn [app]; rewrite <- app_assoc; reflexivity).
      generalize (x ++ qi :: y ++ z1) as w. induction u as [|c u IH]; intros w EP NP; destruct w as [|c' w]; cbn [app] in EP.
      - reflexivity.
      - injection EP as <- EP. exfalso. cbn [app map] in NP. inversion NP as [|? ? N _]; subst. apply N. apply in_map. apply in_or_app. right. now left.
      - injection EP as -> EP. exfalso. cbn [app map] in NP. inversion NP as [|? ? N _]; subst. apply N. apply in_map. apply in_or_app. right. now left.
      - injection EP as -> EP. f_equal. apply IH; [assumption|]. cbn [app map] in NP. now inversion NP. }
    apply (HU qi); [rewrite EU; apply in_or_app; right; now left|reflexivity].
  - assert (HE : exists e, In e (a2 ++ ERegister d j h k' :: a3) /\ survives d e qi = false).
    { clear - ES. induction (a2 ++ ERegister d j h k' :: a3) as [|e m IH]; [discriminate|]. cbn [survives_all forallb] in ES. destruct (survives d e qi) eqn:E; [destruct (IH ES) as (x & HX & EX); exists x; split; [now right|assumption]|exists e; split; [now left|assumption]]. }
    destruct HE as (e & HE & HF). assert (HE' : In e (a2 ++ a3)). { apply in_app_or in HE as [HE|[<-|HE]]; [apply in_or_app; now left|discriminate HF|apply in_or_app; now right]. } clear HE.
    destruct e as [? ? ? ?|?|? ?|d0 i0 h0|d0 i0 h0|h0]; cbn [survives] in HF; try discriminate HF.
    1,2: left; apply negb_false_iff, andb_true_iff in HF as (_ & HF2); apply Nat.eqb_eq in HF2; cbn [id_of qi] in HF2; subst i0; apply in_flat_map; eexists; split; [eassumption|now left].
    right. apply negb_false_iff, Z.eqb_eq in HF. cbn [handle_of qi] in HF. now subst h0.
Qed.

(** The pending requests. *)
Lemma waiting_pend l d i h : waiting l d i h -> exists q, In q (pend d l) /\ id_of q = i /\ handle_of q = h.
Proof.
  intros (k & a & b & E & H1 & H2). exists (Request h i k). split; [|auto]. eapply in_pend; [eassumption|]. apply survives_all_spec. intros e HE.
  destruct e as [? ? ? ?|?|? ?|d0 i0 h0|d0 i0 h0|h0]; cbn [survives id_of handle_of]; try reflexivity; apply negb_true_iff.
  1,2: apply andb_false_iff; right; apply Nat.eqb_neq; intros ->; apply H1; apply in_flat_map; eexists; split; [eassumption|now left].
  apply Z.eqb_neq. intros ->. contradiction.
Qed.

(** While a request is waiting, a poll is in progress or scheduled ... *)
Theorem poll_scheduled s d i h : reaches s -> service_alive s = true -> waiting (log s) d i h -> doing s <> Idle \/ In TPoll (queue s).
Proof.
  intros HR HA HW. apply reaches_inv in HR. apply waiting_pend in HW as (q & HQ & _). rewrite <- (i_pend _ HR) in HQ. apply (i_poll _ HR HA). unfold nil_reqs, reqs in *.
  destruct d; cbn [side] in HQ; [destruct (writes s); [elim HQ|reflexivity]|destruct (reads s); [elim HQ|destruct (writes s); reflexivity]].
Qed.
(** ... and a poll that finds a socket ready, when a request for it was waiting, serves one of its requests before the
    sequence does anything else. *)
Theorem ready_is_served s a W R b d i h : reaches s -> log s = a ++ ESelect W R :: b -> Forall not_select b -> (doing s = Idle \/ doing s = Polling) ->
  waiting a d i h -> In h (side d W R) -> exists j e, In e b /\ served d j h e.
Proof.
  intros HR E HB HD HW HI. apply reaches_inv in HR. pose proof (i_served _ HR d) as HS. apply waiting_pend in HW as (q & HQ & _ & EQ).
  assert (HG : served_or d (log s) []) by (destruct HD as [-> | ->] in HS; exact HS). destruct (HG a W R b h q E HB HI HQ EQ) as [[]|H]. exact H.
Qed.

(** Nothing undefined happens as long as all handles fit into the sets of ::select. *)
Theorem service_defined s : reaches s -> (forall d i h k, In (ERegister d i h k) (log s) -> (0 <= h < 1024)%Z) -> doing s <> Undefined.
Proof.
  intros HR HH HU. apply reaches_inv in HR. destruct (i_def _ HR HU) as (d & i & h & k & HI & HF). specialize (HH _ _ _ _ HI). unfold fd_ok in HF.
  apply andb_false_iff in HF as [HF|HF]; [apply Z.leb_gt in HF|apply Z.ltb_ge in HF]; lia.
Qed.

(** ** Examples *)
Lemma go s s' (P : Prop) : reaches s -> step s s' -> (reaches s' -> P) -> P.
Proof. intros R H K. exact (K (r_step s s' R H)). Qed.
Tactic Notation "next" ident(R) uconstr(c) := eapply (go _ _ _ R); [eapply c; first [reflexivity|easy|(cbn; intuition discriminate)]|]; clear R; intro R;
  cbv beta iota zeta delta -[Z.add Z.le Z.lt] in R.
Ltac start R := pose proof r_initial as R; unfold initial in R.
(** Socket 5 asks for two notifications, socket 7 for one; both are ready, one callback of each is invoked; 7 is removed;
    the second request of 5 is waiting and a poll is scheduled. *)
Example service_run : exists s, reaches s /\ service_alive s = true /\ doing s = Idle /\ waiting (log s) Read 1 5 /\ In TPoll (queue s) /\
  log s = [ERegister Read 0 5 0; ESelect [] []; ERegister Read 1 5 0; ERegister Write 2 7 1; ESelect [7%Z; 9%Z] [5%Z]; ENotify Write 2 7; ENotify Read 0 5; ERemove 7].
Proof.
  start R. next R (s_notify _ Read 5 0). next R (s_notify _ Read 5 0). next R (s_notify _ Write 7 1). next R s_run_notify.
  next R (s_select _ 0 [] []). next R s_poll_end. next R s_run_notify. next R s_run_notify. next R s_run_poll. next R (s_remove _ 7). next R (s_select _ 1 [7%Z; 9%Z] [5%Z]).
  next R s_fire_write. next R s_fire_read. next R s_poll_end. next R s_run_remove.
  eexists. split; [exact R|]. split; [reflexivity|]. split; [reflexivity|]. split; [|split; [now left|reflexivity]].
  exists 0, [ERegister Read 0 5 0; ESelect [] []]. eexists. split; [reflexivity|]. split; cbn; intuition discriminate.
Qed.
(** A socket object that goes before its notification: the callback is dropped. *)
Example service_dropped : exists s, reaches s /\ log s = [ERegister Write 0 5 3; EGone 3; ESelect [5%Z] []; EDrop Write 0 5].
Proof.
  start R. next R (s_notify _ Write 5 3). next R s_run_notify. next R (s_socket_gone _ 3). next R (s_select _ 1 [5%Z] []). next R s_fire_write. eexists. split; [exact R|reflexivity].
Qed.
(** A handle that does not fit (a process with more than 1024 open files): undefined behaviour. *)
Example service_undefined : exists s, reaches s /\ doing s = Undefined.
Proof.
  start R. next R (s_notify _ Write 1024 3). next R s_run_notify. next R (s_select_undefined _ 1 [] []). eexists. split; [exact R|reflexivity].
Qed.
(** Removing the last request and registering another one before the scheduled poll runs leaves two polls scheduled. *)
Example two_polls : exists s, reaches s /\ queue s = [TPoll; TPoll].
Proof.
  start R. next R (s_notify _ Read 5 0). next R s_run_notify. next R (s_remove _ 5). next R (s_notify _ Read 6 1). next R (s_select _ 0 [] []). next R s_poll_end.
  next R s_run_remove. next R s_run_notify. next R (s_select _ 0 [] []). next R s_poll_end. eexists. split; [exact R|reflexivity].
Qed.
