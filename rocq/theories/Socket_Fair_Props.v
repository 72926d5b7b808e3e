(** C43-C45, liveness: in every infinite execution in which the service goes on serving the socket and the operating
    system does not refuse forever, every asynchronous operation completes, or the socket is closed, or the service goes. *)
From Coq Require Import Permutation.
From Verif Require Import Common Socket_Model Socket_Spec Socket_Fair_Spec Socket_Proofs Socket_Props.
Open Scope nat_scope.

Ltac cases_step H :=
  destruct H as [s m a s' H|s m H|s i m b t q a s' H0 H|s a s' H|s H|s i r q a s' H0 H|s st s' H0 H|s st s' H0 H1 H|s i q e s' st H0 H|s e s' st H0 H|s|s H|s b|s n|s].
Lemma close_queues s : write_queue (close s) = write_queue s /\ read_queue (close s) = read_queue s /\ service_alive (close s) = service_alive s /\ is_open (close s) = false.
Proof. unfold close. destruct (is_open s) eqn:E; auto. Qed.

(** What one step does to the queues, unless it is over. *)
Lemma step_writes s s' : step s s' -> ~ over s' -> (exists l, write_queue s' = write_queue s ++ l) \/
  (exists w q l, write_queue s = w :: q /\ write_queue s' = q ++ l /\ match w with WSend i _ _ _ => told_send i s s' | WConnect i => told_connect i s s' end).
Proof.
  intros HS HO. assert (HC : forall x y, is_open y = is_open (close x) -> ~ over y -> False) by (intros x y E N; apply N; left; rewrite E; apply close_queues).
  assert (E0 : forall q : list write_request, exists l, q = q ++ l) by (intros q0; exists []; now rewrite app_nil_r).
  destruct HS as [s m a s' H|s m H|s i m b t q a s' H0 H|s a s' H|s H|s i r q a s' H0 H|s st s' H0 H|s st s' H0 H1 H|s i q e s' st H0 H|s e s' st H0 H|s|s H|s b|s n|s].
  - left. unfold send in H. destruct (send_loop _ _ _ a m) as [[[k bl] cs]|]; [|discriminate H]. injection H as <-. destruct (k =? 0); [exfalso; revert HO; apply (HC _ _ eq_refl)|apply E0].
  - left. unfold send_async. destruct (is_open _); [|apply E0]. cbn. eauto.
  - right. pose proof H as H1. unfold ready_to_send in H. destruct (send_loop _ _ _ a m) as [[[k bl] cs]|]; [|discriminate H].
    assert (HT : told_send i s s') by (exists m, b, t, q, a; auto).
    destruct (k =? length m); [|destruct bl]; injection H as <-.
    + exists (WSend i m b t), q, []. rewrite app_nil_r. auto.
    + eexists (WSend i m b t), q, _. repeat split; auto.
    + exfalso; revert HO; apply (HC _ _ eq_refl).
  - left. unfold receive in H. destruct (recv_model _ _ _ a _) as [[[bs bl] rest]|]; [|discriminate H]. injection H as <-. destruct (length bs =? 0); [exfalso; revert HO; apply (HC _ _ eq_refl)|apply E0].
  - left. unfold receive_async. destruct (is_open _); apply E0.
  - left. unfold ready_to_receive in H. destruct (recv_model _ _ _ a _) as [[[bs bl] rest]|]; [|discriminate H]. destruct bs; [destruct bl|]; injection H as <-; try apply E0. exfalso; revert HO; apply (HC _ _ eq_refl).
  - left. unfold connect in H. destruct (match st with Disconnected => true | _ => is_open (numbered s) end); [|discriminate H]. injection H as <-. destruct st; [exfalso; revert HO; apply (HC _ _ eq_refl)|apply E0..].
  - left. unfold connect_async, connect in H. destruct (match st with Disconnected => true | _ => is_open (numbered s) end); [|discriminate H]. injection H as <-. destruct st; [exfalso; revert HO; apply (HC _ _ eq_refl)| |apply E0]. cbn. eauto.
  - right. exists (WConnect i), q, []. rewrite app_nil_r. split; [assumption|]. split; [|exists q, e, s', st; auto]. unfold finish_connect in H. destruct (_ && _); injection H as <- <-; [reflexivity|exfalso; revert HO; apply (HC _ _ eq_refl)].
  - left. unfold finish_connect in H. destruct (_ && _); injection H as <- <-; [apply E0|exfalso; revert HO; apply (HC _ _ eq_refl)].
  - exfalso; revert HO; apply (HC _ _ eq_refl).
  - elim HO. now left.
  - left; apply E0.
  - left; apply E0.
  - elim HO. now right.
Qed.
Lemma step_reads s s' : step s s' -> ~ over s' -> (exists l, read_queue s' = read_queue s ++ l) \/
  (exists i r q l, read_queue s = RReceive i r :: q /\ read_queue s' = q ++ l /\ told_receive i s s').
Proof.
  intros HS HO. assert (HC : forall x y, is_open y = is_open (close x) -> ~ over y -> False) by (intros x y E N; apply N; left; rewrite E; apply close_queues).
  assert (E0 : forall q : list read_request, exists l, q = q ++ l) by (intros q0; exists []; now rewrite app_nil_r).
  destruct HS as [s m a s' H|s m H|s i m b t q a s' H0 H|s a s' H|s H|s i r q a s' H0 H|s st s' H0 H|s st s' H0 H1 H|s i q e s' st H0 H|s e s' st H0 H|s|s H|s b|s n|s].
  - left. unfold send in H. destruct (send_loop _ _ _ a m) as [[[k bl] cs]|]; [|discriminate H]. injection H as <-. destruct (k =? 0); [exfalso; revert HO; apply (HC _ _ eq_refl)|apply E0].
  - left. unfold send_async. destruct (is_open _); apply E0.
  - left. unfold ready_to_send in H. destruct (send_loop _ _ _ a m) as [[[k bl] cs]|]; [|discriminate H]. destruct (k =? length m); [|destruct bl]; injection H as <-; try apply E0. exfalso; revert HO; apply (HC _ _ eq_refl).
  - left. unfold receive in H. destruct (recv_model _ _ _ a _) as [[[bs bl] rest]|]; [|discriminate H]. injection H as <-. destruct (length bs =? 0); [exfalso; revert HO; apply (HC _ _ eq_refl)|apply E0].
  - left. unfold receive_async. destruct (is_open _); [|apply E0]. cbn. eauto.
  - right. assert (HT : told_receive i s s') by (exists r, q, a; auto). exists i, r, q. unfold ready_to_receive in H. destruct (recv_model _ _ _ a _) as [[[bs bl] rest]|]; [|discriminate H]. destruct bs; [destruct bl|]; injection H as <-.
    + eexists. repeat split; [assumption|auto].
    + exfalso; revert HO; apply (HC _ _ eq_refl).
    + exists []. rewrite app_nil_r. auto.
  - left. unfold connect in H. destruct (match st with Disconnected => true | _ => is_open (numbered s) end); [|discriminate H]. injection H as <-. destruct st; [exfalso; revert HO; apply (HC _ _ eq_refl)|apply E0..].
  - left. unfold connect_async, connect in H. destruct (match st with Disconnected => true | _ => is_open (numbered s) end); [|discriminate H]. injection H as <-. destruct st; [exfalso; revert HO; apply (HC _ _ eq_refl)|apply E0..].
  - left. unfold finish_connect in H. destruct (_ && _); injection H as <- <-; [apply E0|exfalso; revert HO; apply (HC _ _ eq_refl)].
  - left. unfold finish_connect in H. destruct (_ && _); injection H as <- <-; [apply E0|exfalso; revert HO; apply (HC _ _ eq_refl)].
  - exfalso; revert HO; apply (HC _ _ eq_refl).
  - elim HO. now left.
  - left; apply E0.
  - left; apply E0.
  - elim HO. now right.
Qed.
Lemma over_dec s : over s \/ ~ over s.
Proof. unfold over. destruct (is_open s), (service_alive s); [right; intros [H|H]; discriminate H|left; auto..]. Qed.

(** ** A queue that is served from its front *)
Section Queue.
Context {A : Type} (queue : nat -> list A) (served : A -> nat -> Prop) (done : nat -> Prop).
Hypothesis done_dec : forall k, done k \/ ~ done k.
Hypothesis moves : forall k, ~ done (S k) -> (exists l, queue (S k) = queue k ++ l) \/ (exists w q l, queue k = w :: q /\ queue (S k) = q ++ l /\ served w k).
Hypothesis goes_on : forall k, queue k <> [] -> exists j, k <= j /\ (done j \/ done (S j) \/ exists w q, queue j = w :: q /\ served w j /\ (exists l, queue (S j) = q ++ l)).
Lemma stays x p : forall d k q, length q = p -> (exists r, queue k = q ++ x :: r) ->
  (exists j, k <= j <= k + d /\ (served x j \/ done j)) \/ exists q', length q' <= p /\ exists r, queue (k + d) = q' ++ x :: r.
Proof.
  induction d as [|d IH]; intros k q E (r & HQ).
  - right. exists q. rewrite Nat.add_0_r. split; [lia|eauto].
  - destruct (IH k q E (ex_intro _ r HQ)) as [(j & HJ & H)|(q' & HL & r' & HQ')]; [left; exists j; split; [lia|assumption]|].
    destruct (done_dec (S (k + d))) as [HD|HD]; [left; exists (S (k + d)); split; [lia|auto]|].
    rewrite <- plus_n_Sm. destruct (moves _ HD) as [(l & EL)|(w & q1 & l & E1 & E2 & HS)].
    + right. exists q'. split; [assumption|]. exists (r' ++ l). rewrite EL, HQ', <- app_assoc. reflexivity.
    + rewrite HQ' in E1. destruct q' as [|w' q']; injection E1 as <- <-; [left; exists (k + d); split; [lia|auto]|].
      right. exists q'. cbn in HL. split; [lia|]. exists (r' ++ l). rewrite E2, <- app_assoc. reflexivity.
Qed.
Lemma comes x : forall p k q, length q < p -> (exists r, queue k = q ++ x :: r) -> exists j, k <= j /\ (served x j \/ done j).
Proof.
  induction p as [|p IH]; intros k q HL (r & HQ); [lia|].
  destruct (goes_on k) as (j & HJ & HG); [rewrite HQ; now destruct q|].
  destruct HG as [HD|[HD|(w & q1 & E1 & HS & l & E2)]]; [eauto|exists (S j); split; [lia|auto]|].
  destruct (stays x (length q) (j - k) k q eq_refl (ex_intro _ r HQ)) as [(j' & HJ' & H)|(q' & HL' & r' & HQ')]; [exists j'; split; [lia|assumption]|].
  replace (k + (j - k)) with j in HQ' by lia. rewrite HQ' in E1. destruct q' as [|w' q']; injection E1 as <- <-; [eauto|].
  destruct (IH (S j) q') as (j' & HJ' & H); [cbn in HL'; lia|exists (r' ++ l); rewrite E2, <- app_assoc; reflexivity|]. exists j'. split; [lia|assumption].
Qed.
End Queue.

Section Fair.
Variable f : nat -> state.
Hypothesis start : reaches (f 0).
Hypothesis runs : execution f.

Lemma reached k : reaches (f k).
Proof. induction k; [assumption|]. destruct (runs k) as [->|(HU & HS)]; [assumption|]. eapply reaches_step; eassumption. Qed.
Lemma log_grows k j : k <= j -> exists l, log (f j) = log (f k) ++ l.
Proof.
  induction 1 as [|j HL (l & IH)]; [exists []; now rewrite app_nil_r|]. destruct (runs j) as [->|(HU & HS)]; [eauto|].
  destruct (step_io _ _ (reaches_inv _ (reached j)) HS) as (l' & E & _). exists (l ++ l'). now rewrite E, IH, app_assoc.
Qed.

Section Writes.
Hypothesis serves : serves_writes f.
Definition told (w : write_request) (k : nat) : Prop := match w with WSend i _ _ _ => told_send i (f k) (f (S k)) | WConnect i => told_connect i (f k) (f (S k)) end.
Lemma request_told w k : In w (write_queue (f k)) -> exists j, k <= j /\ (told w j \/ over (f j)).
Proof.
  intros HI. apply in_split in HI as (q & r & HQ).
  apply (comes (fun k => write_queue (f k)) told (fun k => over (f k)) (fun k => over_dec (f k))) with (p := S (length q)) (q := q); [| |lia|eauto].
  - intros j HO. destruct (runs j) as [E|(HU & HS)]; [left; exists []; now rewrite E, app_nil_r|]. now apply step_writes.
  - intros j HN. destruct (serves j HN) as (j' & HJ & HT). exists j'. split; [assumption|]. destruct HT as [(i & HT)|HT]; [|auto].
    destruct (over_dec (f (S j'))) as [HO|HO]; [auto|]. right; right.
    destruct HT as [(m & b & t & q0 & a & E & HR)|(q0 & e & t & st & E & HF & ES)].
    + exists (WSend i m b t), q0. split; [assumption|]. split; [exists m, b, t, q0, a; auto|]. unfold ready_to_send in HR. destruct (send_loop _ _ _ a m) as [[[n bl] cs]|]; [|discriminate HR]. set (s1 := with_log (with_write (f j') q0) (took i cs)) in *.
      destruct (n =? length m); [|destruct bl]; injection HR as HR; rewrite <- HR; [exists []; now rewrite app_nil_r|eexists; reflexivity|exists []; rewrite app_nil_r]. cbn [write_queue with_log]. rewrite (proj1 (close_queues s1)). reflexivity.
    + exists (WConnect i), q0. split; [assumption|]. split; [exists q0, e, t, st; auto|]. exists []. rewrite app_nil_r, ES. unfold finish_connect in HF. destruct (_ && _); injection HF as <- <-; [reflexivity|]. cbn [write_queue with_log with_conn]. rewrite (proj1 (close_queues _)). reflexivity.
Qed.

Lemma send_waits i m k : In (ESend i true m) (log (f k)) -> In i (sent_ids (log (f k))) \/ over (f k) \/ exists m b t, In (WSend i m b t) (write_queue (f k)).
Proof.
  intros HI. unfold over. destruct (is_open (f k)) eqn:EO; [|auto]. destruct (service_alive (f k)) eqn:ES; [|auto].
  destruct (send_not_lost (f k) i m (reached k) EO ES HI) as [H|(r & b & t & H & _)]; [auto|]. right; right. eauto.
Qed.
(** C43: a message given to send_async is sent entirely or as far as possible, and the callback is invoked. *)
Lemma send_completes : takes_bytes f -> forall n i m k, In (ESend i true m) (log (f k)) -> length m - length (took_from i (log (f k))) < n -> exists j, k <= j /\ (In i (sent_ids (log (f j))) \/ over (f j)).
Proof.
  intros HT. induction n as [|n IH]; intros i m k HI HL; [lia|].
  assert (HP : forall j, k <= j -> In (ESend i true m) (log (f j))) by (intros j HJ; destruct (log_grows k j HJ) as (l & ->); apply in_or_app; now left).
  destruct (HT i k) as (j & HJ & [[HG|HS]|HN]).
  - destruct (IH i m (S j)) as (j' & HJ' & H); [apply HP; lia| |exists j'; split; [lia|assumption]].
    assert (EM : forall j0, k <= j0 -> length (took_from i (log (f j0))) <= length m).
    { intros j0 HJ0. destruct (prefix_of_message _ _ (i_ok _ _ (reaches_inv _ (reached j0))) i true m (HP j0 HJ0)) as (r & ->). rewrite app_length. lia. }
    assert (H1 := EM (S j)). assert (H2 : length (took_from i (log (f k))) <= length (took_from i (log (f j)))) by (destruct (log_grows k j HJ) as (l & ->); rewrite took_app, app_length; lia). lia.
  - exists (S j). split; [lia|auto].
  - destruct (send_waits i m j (HP j HJ)) as [H|[H|(m' & b & t & HQ)]]; [eauto..|].
    destruct (request_told _ j HQ) as (j' & HJ' & [H|H]); [elim (HN j' HJ' H)|exists j'; split; [lia|auto]].
Qed.
Lemma connect_completes i k : In (WConnect i) (write_queue (f k)) -> exists j, k <= j /\ (In i (finished_ids (log (f j))) \/ over (f j)).
Proof.
  intros HI. destruct (request_told _ k HI) as (j & HJ & [(q & e & t & st & _ & _ & E)|H]); [|eauto]. exists (S j). split; [lia|]. left. apply in_fin. exists st. rewrite E. cbn [log with_log]. apply in_or_app. right. now left.
Qed.
End Writes.

Section Reads.
Hypothesis serves : serves_reads f.
Lemma receive_told i r k : In (RReceive i r) (read_queue (f k)) -> exists j, k <= j /\ (told_receive i (f j) (f (S j)) \/ over (f j)).
Proof.
  intros HI. apply in_split in HI as (q & r0 & HQ).
  pose (tld := fun (w : read_request) k => match w with RReceive i _ => told_receive i (f k) (f (S k)) end).
  apply (comes (fun k => read_queue (f k)) tld (fun k => over (f k)) (fun k => over_dec (f k))) with (x := RReceive i r) (p := S (length q)) (q := q); [| |lia|eauto].
  - intros j HO. destruct (runs j) as [E|(HU & HS)]; [left; exists []; now rewrite E, app_nil_r|]. destruct (step_reads _ _ HS HO) as [?|(i0 & r1 & q1 & l & H1 & H2 & H3)]; [auto|]. right. exists (RReceive i0 r1), q1, l. auto.
  - intros j HN. destruct (serves j HN) as (j' & HJ & HT). exists j'. split; [assumption|]. destruct HT as [(i0 & r1 & q0 & a & E & HR)|HT]; [|auto].
    destruct (over_dec (f (S j'))) as [HO|HO]; [auto|]. right; right. exists (RReceive i0 r1), q0. split; [assumption|]. split; [exists r1, q0, a; auto|].
    unfold ready_to_receive in HR. destruct (recv_model _ _ _ a _) as [[[bs bl] rest]|]; [|discriminate HR]. set (s1 := with_incoming (with_read (f j') q0) rest) in *.
    destruct bs; [destruct bl|]; injection HR as HR; rewrite <- HR; [eexists; reflexivity| |]; exists []; rewrite (app_nil_r q0); [|reflexivity]. cbn [read_queue with_log]. rewrite (proj1 (proj2 (close_queues s1))). reflexivity.
Qed.
End Reads.
End Fair.

(** C43: the callback of every send_async is invoked. *)
Theorem send_async_completes f i m k : reaches (f 0) -> execution f -> serves_writes f -> takes_bytes f ->
  In (ESend i true m) (log (f k)) -> exists j, k <= j /\ (In i (sent_ids (log (f j))) \/ over (f j)).
Proof. intros H1 H2 H3 H4 HI. apply (send_completes f H1 H2 H3 H4 (S (length m - length (took_from i (log (f k))))) i m k HI). lia. Qed.
(** If the socket is never closed and the service stays, then the whole message is sent. *)
Theorem send_async_sends_all f i m k : reaches (f 0) -> execution f -> serves_writes f -> takes_bytes f -> (forall j, ~ over (f j)) ->
  In (ESend i true m) (log (f k)) -> exists j, k <= j /\ In (ESent i (length m)) (log (f j)) /\ took_from i (log (f j)) = m.
Proof.
  intros H1 H2 H3 H4 HO HI. destruct (send_async_completes f i m k H1 H2 H3 H4 HI) as (j & HJ & [HS|HS]); [|elim (HO j HS)].
  apply in_sent in HS as (n & HS). exists j. split; [assumption|]. pose proof HS as HS'. apply in_split in HS as (a & b & E).
  pose proof (reached f H1 H2 j) as HR. destruct (send_reports _ _ _ _ _ HR E) as (x & m' & HI' & HL & HT & HF & _).
  assert (EM : x = true /\ m' = m). { destruct (log_grows f H1 H2 k j HJ) as (l & EL). assert (HI2 : In (ESend i true m) (log (f j))) by (rewrite EL; apply in_or_app; now left).
    assert (HI3 : In (ESend i x m') (log (f j))) by (rewrite E; apply in_or_app; now left). destruct (ok_unique _ _ _ _ _ _ _ (i_ok _ _ (reaches_inv _ HR)) HI2 HI3) as (<- & <-). now split. }
  destruct EM as (-> & ->). assert (EN : n = length m).
  { destruct (Nat.eq_dec n (length m)) as [|NE]; [assumption|]. exfalso. apply (HO j). left. destruct (is_open (f j)) eqn:EO; [|reflexivity]. apply (i_open _ _ (reaches_inv _ HR)) in EO. elim EO. rewrite E. apply in_or_app. left. apply HF; [reflexivity|lia]. }
  rewrite EN in HT, HS'. rewrite firstn_all in HT. auto.
Qed.
(** C44: the callback of every receive_async is invoked. *)
Theorem receive_async_completes f i k : reaches (f 0) -> execution f -> serves_reads f -> gives_answers f ->
  In (EReceive i true) (log (f k)) -> exists j, k <= j /\ (In i (received_ids (log (f j))) \/ over (f j)).
Proof.
  intros H1 H2 H3 H4 HI. destruct (H4 i k) as (j & HJ & [H|HN]); [exists (S j); split; [lia|auto]|].
  destruct (over_dec (f j)) as [HO|HO]; [eauto|].
  destruct (receive_not_lost (f j) i (reached f H1 H2 j)) as [H|(b & H)]; [| | |eauto|].
  - destruct (is_open (f j)) eqn:EO; [reflexivity|elim HO; now left].
  - destruct (service_alive (f j)) eqn:EO; [reflexivity|elim HO; now right].
  - destruct (log_grows f H1 H2 k j HJ) as (l & ->). apply in_or_app. now left.
  - destruct (receive_told f H2 H3 i b j H) as (j' & HJ' & [HT|HT]); [elim (HN j' HJ' HT)|exists j'; split; [lia|auto]].
Qed.
(** C45: when connect_async has returned Connecting, its callback is invoked. *)
Theorem connect_async_completes f k : reaches (f 0) -> execution f -> serves_writes f ->
  connect_async (f k) Connecting = Some (f (S k)) -> exists j, k <= j /\ (In (next_op (f k)) (finished_ids (log (f j))) \/ over (f j)).
Proof.
  intros H1 H2 H3 HC. destruct (connect_completes f H2 H3 (next_op (f k)) (S k)) as (j & HJ & H); [|exists j; split; [lia|assumption]].
  unfold connect_async, connect in HC. cbn [is_open numbered] in HC. destruct (is_open (f k)); [|discriminate HC]. injection HC as HC. rewrite <- HC. cbn. apply in_or_app. right. now left.
Qed.

(** ** An execution that satisfies all of these hypotheses: connect_async, two overlapping send_async, one of which is
    told twice, and a receive_async, which is told twice. *)
Definition e0 : state := fresh Tcp 3.
Definition get (o : option state) : state := match o with Some s => s | None => e0 end.
Definition e1 : state := get (connect_async e0 Connecting).
Definition e2 : state := with_log (fst (finish_connect (with_write e1 []) true)) [EFinished 0 Connected].
Definition e3 : state := send_async e2 [1; 2]%Z.
Definition e4 : state := send_async e3 [3]%Z.
Definition e5 : state := receive_async e4.
Definition e6 : state := get (ready_to_send e5 [WSend 2 [3]%Z 0 1] 1 [1; 2]%Z 0 2 [Took 1; Refused true]).
Definition e7 : state := get (ready_to_send e6 [WSend 1 [2]%Z 1 2] 2 [3]%Z 0 1 [Took 1]).
Definition e8 : state := get (ready_to_send e7 [] 1 [2]%Z 1 2 [Took 1]).
Definition e9 : state := get (ready_to_receive e8 [] 3 [] (NoData true)).
Definition e10 : state := with_log (with_incoming e9 (incoming e9 ++ [[4; 5]%Z])) [EArrived [4; 5]%Z].
Definition e11 : state := get (ready_to_receive e10 [] 3 [] (Got 2)).
Definition ef (k : nat) : state := nth k [e0; e1; e2; e3; e4; e5; e6; e7; e8; e9; e10] e11.
Lemma ef_late k : 11 <= k -> ef k = e11.
Proof. intros HK. unfold ef. now apply nth_overflow. Qed.
Example fair_socket : reaches (ef 0) /\ execution ef /\ serves_writes ef /\ takes_bytes ef /\ serves_reads ef /\ gives_answers ef /\ (forall j, ~ over (ef j)) /\
  In (ESend 1 true [1; 2]%Z) (log (ef 3)) /\ In (ESend 2 true [3]%Z) (log (ef 4)) /\ In (EReceive 3 true) (log (ef 5)) /\ connect_async (ef 0) Connecting = Some (ef 1).
Proof.
  split; [apply fresh_reaches|]. split; [|split; [|split; [|split; [|split; [|split]]]]].
  - intros k. destruct k as [|[|[|[|[|[|[|[|[|[|[|k]]]]]]]]]]]; try (right; split; [reflexivity|]).
    + eapply (SConnectAsync _ Connecting); reflexivity.
    + eapply (SConnectable _ 0 [] true); reflexivity.
    + now apply (SSendAsync e2 [1; 2]%Z).
    + now apply (SSendAsync e3 [3]%Z).
    + now apply (SReceiveAsync e4).
    + eapply (SWritable _ _ _ _ _ _ [Took 1; Refused true]); reflexivity.
    + eapply (SWritable _ _ _ _ _ _ [Took 1]); reflexivity.
    + eapply (SWritable _ _ _ _ _ _ [Took 1]); reflexivity.
    + eapply (SReadable _ _ _ _ (NoData true)); reflexivity.
    + apply (SArrive e9 [4; 5]%Z).
    + eapply (SReadable _ _ _ _ (Got 2)); reflexivity.
    + left. rewrite !ef_late by lia. reflexivity.
  - intros k HN. assert (HT : k <= 7 \/ 8 <= k) by lia. destruct HT as [HT|HT].
    + destruct (Nat.le_gt_cases k 1) as [L|L].
      * exists 1. split; [assumption|]. left. exists 0. right. eexists _, true, _, _. repeat split; reflexivity.
      * exists 7. split; [assumption|]. left. exists 1. left. exists [2]%Z, 1, 2, [], [Took 1]. split; reflexivity.
    + elim HN. destruct (Nat.le_gt_cases 11 k) as [L|L]; [now rewrite ef_late|]. do 8 (destruct k as [|k]; [lia|]). do 3 (destruct k as [|k]; [reflexivity|]). lia.
  - intros i k. exists (Nat.max k 8). split; [lia|]. right. intros j HJ (m & b & t & q & a & HQ & _). assert (HL : 8 <= j) by lia. clear HJ.
    destruct (Nat.le_gt_cases 11 j) as [L|L]; [rewrite ef_late in HQ by assumption; discriminate HQ|]. do 8 (destruct j as [|j]; [lia|]). do 3 (destruct j as [|j]; [discriminate HQ|]). lia.
  - intros k HN. destruct (Nat.le_gt_cases k 10) as [L|L].
    + exists 10. split; [assumption|]. left. exists 3, [], [], (Got 2). split; reflexivity.
    + rewrite ef_late in HN by lia. now elim HN.
  - intros i k. exists (Nat.max k 11). split; [lia|]. right. intros j HJ (r & q & a & HQ & _). rewrite ef_late in HQ by lia. discriminate HQ.
  - intros j. assert (HX : is_open (ef j) = true /\ service_alive (ef j) = true).
    { destruct j as [|[|[|[|[|[|[|[|[|[|[|j]]]]]]]]]]]; try (split; reflexivity). rewrite ef_late by lia. split; reflexivity. }
    intros [H|H]; destruct HX; congruence.
  - repeat split; cbn; intuition.
Qed.
