(** Lemmas for C43-C45: the invariant of a socket. *)
From Verif Require Import Common Socket_Model Socket_Spec.
Open Scope nat_scope.

Lemma sends_app a b : sends (a ++ b) = sends a ++ sends b. Proof. apply flat_map_app. Qed.
Lemma sent_app a b : sent_ids (a ++ b) = sent_ids a ++ sent_ids b. Proof. apply flat_map_app. Qed.
Lemma recvd_app a b : received_ids (a ++ b) = received_ids a ++ received_ids b. Proof. apply flat_map_app. Qed.
Lemma fin_app a b : finished_ids (a ++ b) = finished_ids a ++ finished_ids b. Proof. apply flat_map_app. Qed.
Lemma datagrams_app a b : datagrams (a ++ b) = datagrams a ++ datagrams b. Proof. apply flat_map_app. Qed.
Lemma wire_app a b : wire (a ++ b) = wire a ++ wire b. Proof. unfold wire. now rewrite datagrams_app, concat_app. Qed.
Lemma dgo_app i a b : datagrams_of i (a ++ b) = datagrams_of i a ++ datagrams_of i b. Proof. apply flat_map_app. Qed.
Lemma took_app i a b : took_from i (a ++ b) = took_from i a ++ took_from i b. Proof. unfold took_from. now rewrite dgo_app, concat_app. Qed.
Lemma arrivals_app a b : arrivals (a ++ b) = arrivals a ++ arrivals b. Proof. apply flat_map_app. Qed.
Lemma deliveries_app a b : deliveries (a ++ b) = deliveries a ++ deliveries b. Proof. apply flat_map_app. Qed.
Lemma packet_after_app a b : packet_after (a ++ b) = fold_left (fun p e => match e with EConfig n => n | _ => p end) b (packet_after a). Proof. apply fold_left_app. Qed.

(** The operation of an event. *)
Definition ev_id (e : event) : option nat :=
  match e with
  | ESend i _ _ | ETook i _ | ESent i _ | EReceive i _ | EReceived i _ | EConnect i _ | EFinished i _ => Some i
  | EArrived _ | EClosed | EConfig _ => None
  end.
Definition unused (i : nat) (l : list event) : Prop := forall e, In e l -> ev_id e <> Some i.

(** What may follow [a]. *)
Definition ok_event (pr : proto) (a : list event) (e : event) : Prop :=
  match e with
  | ESend i _ _ => unused i a
  | ETook i c => ~ In EClosed a /\ c <> [] /\ ~ In i (sent_ids a) /\ exists x m r, In (ESend i x m) a /\ m = took_from i a ++ c ++ r /\ (pr = Udp -> length c = Nat.min (packet_after a) (length (c ++ r)))
  | ESent i n => n = length (took_from i a) /\ ~ In i (sent_ids a) /\
      exists x m r, In (ESend i x m) a /\ m = took_from i a ++ r /\ (x = true -> r <> [] -> In EClosed a) /\ (x = false -> n = 0 -> In EClosed a)
  | EReceive i _ => unused i a
  | EReceived i b => ~ In i (received_ids a) /\ (exists x, In (EReceive i x) a) /\ (b = [] -> In EClosed a) /\ length b <= packet_after a
  | EConnect i st => unused i a /\ (st = Disconnected <-> In EClosed a)
  | EFinished i st => ~ In i (finished_ids a) /\ In (EConnect i Connecting) a /\ ((st = Connected /\ ~ In EClosed a) \/ (st = Disconnected /\ In EClosed a))
  | EClosed => ~ In EClosed a
  | EArrived _ | EConfig _ => True
  end.
Definition ok_log (pr : proto) (l : list event) : Prop := forall a e b, l = a ++ e :: b -> ok_event pr a e.

Lemma ok_nil pr : ok_log pr [].
Proof. intros a e b E. destruct a; discriminate E. Qed.
Lemma ok_snoc pr l e : ok_log pr l -> ok_event pr l e -> ok_log pr (l ++ [e]).
Proof.
  intros HL HE a e' b E. destruct b as [|x b] using rev_ind.
  - change (a ++ [e']) with (a ++ [e']) in E. apply app_inj_tail in E as (-> & ->). assumption.
  - clear IHb. change (e' :: b ++ [x]) with ((e' :: b) ++ [x]) in E. rewrite app_assoc in E. apply app_inj_tail in E as (-> & _). now apply HL with b.
Qed.
Lemma ok_prefix pr a b : ok_log pr (a ++ b) -> ok_log pr a.
Proof. intros H x e y ->. apply (H x e (y ++ b)). now rewrite <- app_assoc. Qed.

Lemma in_sent i l : In i (sent_ids l) <-> exists n, In (ESent i n) l.
Proof.
  unfold sent_ids. rewrite in_flat_map. split.
  - intros (e & HE & HI). destruct e; cbn [In] in HI; try easy. destruct HI as [-> | []]. eauto.
  - intros (n & H). exists (ESent i n). split; [assumption|now left].
Qed.
Lemma in_recvd i l : In i (received_ids l) <-> exists n, In (EReceived i n) l.
Proof.
  unfold received_ids. rewrite in_flat_map. split.
  - intros (e & HE & HI). destruct e; cbn [In] in HI; try easy. destruct HI as [-> | []]. eauto.
  - intros (n & H). exists (EReceived i n). split; [assumption|now left].
Qed.
Lemma in_fin i l : In i (finished_ids l) <-> exists n, In (EFinished i n) l.
Proof.
  unfold finished_ids. rewrite in_flat_map. split.
  - intros (e & HE & HI). destruct e; cbn [In] in HI; try easy. destruct HI as [-> | []]. eauto.
  - intros (n & H). exists (EFinished i n). split; [assumption|now left].
Qed.
Lemma unused_app i a b : unused i (a ++ b) <-> unused i a /\ unused i b.
Proof. unfold unused. split; [intros H; split; intros e HE; apply H, in_or_app; auto|intros (H1 & H2) e HE; apply in_app_or in HE as [HE|HE]; auto]. Qed.
Lemma unused_sent i l : unused i l -> ~ In i (sent_ids l).
Proof. intros H HI. apply in_sent in HI as (n & HI). now apply H in HI. Qed.
Lemma unused_recvd i l : unused i l -> ~ In i (received_ids l).
Proof. intros H HI. apply in_recvd in HI as (n & HI). now apply H in HI. Qed.
Lemma unused_fin i l : unused i l -> ~ In i (finished_ids l).
Proof. intros H HI. apply in_fin in HI as (n & HI). now apply H in HI. Qed.
Lemma unused_took i l : unused i l -> took_from i l = [].
Proof.
  unfold took_from. induction l as [|e l IH]; intros H; [reflexivity|]. cbn [datagrams_of flat_map]. rewrite concat_app. fold (datagrams_of i l). rewrite IH by (intros x HX; apply H; now right).
  rewrite app_nil_r. specialize (H e (or_introl eq_refl)). destruct e; try reflexivity. cbn [ev_id] in H. destruct (Nat.eqb_spec i0 i); [congruence|reflexivity].
Qed.

(** Operation [i] is a send in progress with [m] still to be sent. *)
Definition sending (l : list event) (i : nat) (x : bool) (m : list Z) : Prop :=
  exists full, In (ESend i x full) l /\ ~ In i (sent_ids l) /\ full = took_from i l ++ m.
Definition receiving (l : list event) (i : nat) (x : bool) : Prop := In (EReceive i x) l /\ ~ In i (received_ids l).
Definition connecting (l : list event) (i : nat) : Prop := In (EConnect i Connecting) l /\ ~ In i (finished_ids l).
Definition wid (w : write_request) : nat := match w with WSend i _ _ _ | WConnect i => i end.
Definition rid (r : read_request) : nat := match r with RReceive i _ => i end.
Definition wq_ok (l : list event) (w : write_request) : Prop :=
  match w with
  | WSend i m b t => sending l i true m /\ b = length (took_from i l)
  | WConnect i => connecting l i
  end.
Definition rq_ok (l : list event) (r : read_request) : Prop := match r with RReceive i b => receiving l i true /\ b = [] end.

Lemma sending_ext l l' i x m : sending l i x m -> unused i l' -> sending (l ++ l') i x m.
Proof.
  intros (full & H1 & H2 & H3) HU. exists full. split; [apply in_or_app; now left|]. rewrite sent_app, took_app, (unused_took i l' HU), app_nil_r. split; [|assumption].
  intros HI. apply in_app_or in HI as [HI|HI]; [contradiction|]. now apply (unused_sent i l').
Qed.
Lemma wq_ext l l' w : wq_ok l w -> unused (wid w) l' -> wq_ok (l ++ l') w.
Proof.
  destruct w as [i m b t|i]; cbn [wq_ok wid]; intros H HU.
  - destruct H as (H & ->). split; [now apply sending_ext|]. now rewrite took_app, (unused_took i l' HU), app_nil_r.
  - destruct H as (H1 & H2). split; [apply in_or_app; now left|]. rewrite fin_app. intros HI. apply in_app_or in HI as [HI|HI]; [contradiction|]. now apply (unused_fin i l').
Qed.
Lemma rq_ext l l' r : rq_ok l r -> unused (rid r) l' -> rq_ok (l ++ l') r.
Proof.
  destruct r as [i b]; cbn [rq_ok rid]; intros ((H1 & H2) & ->) HU. split; [|reflexivity]. split; [apply in_or_app; now left|]. rewrite recvd_app. intros HI. apply in_app_or in HI as [HI|HI]; [contradiction|]. now apply (unused_recvd i l').
Qed.

(** The invariant; the operations in [X] are being worked on. *)
Record inv (X : list nat) (s : state) : Prop := {
  i_ok : ok_log (protocol s) (log s);
  i_open : is_open s = true <-> ~ In EClosed (log s);
  i_fresh : forall e i, In e (log s) -> ev_id e = Some i -> i < next_op s;
  i_write : Forall (wq_ok (log s)) (write_queue s);
  i_read : Forall (rq_ok (log s)) (read_queue s);
  i_nodup : NoDup (X ++ map wid (write_queue s) ++ map rid (read_queue s));
  i_sends : forall i m, In (ESend i true m) (log s) -> ~ In i X -> In i (sent_ids (log s)) \/ In i (map wid (write_queue s)) \/ is_open s = false \/ service_alive s = false;
  i_receives : forall i, In (EReceive i true) (log s) -> ~ In i X -> In i (received_ids (log s)) \/ In i (map rid (read_queue s)) \/ is_open s = false \/ service_alive s = false;
  i_packet : packet_size s = packet_after (log s) }.

Lemma bool_not (b : bool) (P : Prop) : (b = true <-> ~ P) -> b = false -> ~ ~ P.
Proof. intros H E N. apply H in N. congruence. Qed.
Lemma closed_dec l : In EClosed l \/ ~ In EClosed l.
Proof.
  induction l as [|e l [IH|IH]]; [now right|left; now right|].
  destruct e; try (right; intros [HI|HI]; [discriminate HI|contradiction]). left; now left.
Qed.
Lemma not_open X s : inv X s -> is_open s = false -> In EClosed (log s).
Proof. intros H E. destruct (closed_dec (log s)) as [|N]; [assumption|]. apply (i_open _ _ H) in N. congruence. Qed.

Lemma unused_none l : (forall e, In e l -> ev_id e = None) -> forall i, unused i l.
Proof. intros H i e HE. rewrite (H e HE). discriminate. Qed.

Lemma inv_close X s : inv X s -> inv X (close s).
Proof.
  intros H. unfold close. destruct (is_open s) eqn:EO; [|assumption]. destruct H as [H1 H2 H3 H4 H5 H6 H7 H8 H9].
  assert (U : forall i, unused i [EClosed]) by (apply unused_none; intros e [<- | []]; reflexivity).
  constructor; cbn [protocol log is_open next_op write_queue read_queue service_alive packet_size].
  - apply ok_snoc; [assumption|]. cbn [ok_event]. now apply H2.
  - split; [discriminate|]. intros N. elim N. apply in_or_app. right. now left.
  - intros e i HE HI. apply in_app_or in HE as [HE|[<- | []]]; [eauto|discriminate HI].
  - eapply Forall_impl; [|exact H4]. intros w HW. now apply wq_ext.
  - eapply Forall_impl; [|exact H5]. intros w HW. now apply rq_ext.
  - assumption.
  - intros; right; right; now left.
  - intros; right; right; now left.
  - rewrite packet_after_app. assumption.
Qed.

(** Events without an operation. *)
Lemma inv_plain X s e : inv X s -> ev_id e = None -> e <> EClosed -> (forall n, e <> EConfig n) -> inv X (with_log s [e]).
Proof.
  intros [H1 H2 H3 H4 H5 H6 H7 H8 H9] HN HC HG.
  assert (U : forall i, unused i [e]) by (apply unused_none; intros x [<- | []]; assumption).
  constructor; cbn [with_log protocol log is_open next_op write_queue read_queue service_alive packet_size].
  - apply ok_snoc; [assumption|]. destruct e; try discriminate HN; try exact I. congruence.
  - rewrite H2. split; intros N HI; apply N; [apply in_app_or in HI as [HI|[HI|[]]]; [assumption|congruence]|apply in_or_app; now left].
  - intros x i HE HI. apply in_app_or in HE as [HE|[<- | []]]; [eauto|congruence].
  - eapply Forall_impl; [|exact H4]. intros w HW. now apply wq_ext.
  - eapply Forall_impl; [|exact H5]. intros w HW. now apply rq_ext.
  - assumption.
  - intros i m HI HX. apply in_app_or in HI as [HI|[HI|[]]]; [|rewrite HI in HN; discriminate HN]. rewrite sent_app. destruct (H7 i m HI HX) as [?|[?|[?|?]]]; [left; apply in_or_app; now left|auto..].
  - intros i HI HX. apply in_app_or in HI as [HI|[HI|[]]]; [|rewrite HI in HN; discriminate HN]. rewrite recvd_app. destruct (H8 i HI HX) as [?|[?|[?|?]]]; [left; apply in_or_app; now left|auto..].
  - rewrite packet_after_app, H9. cbn [fold_left]. destruct e; try reflexivity. now elim (HG n).
Qed.
Lemma inv_config X s n : inv X s -> inv X (with_log (with_packet s n) [EConfig n]).
Proof.
  intros [H1 H2 H3 H4 H5 H6 H7 H8 H9].
  assert (U : forall i, unused i [EConfig n]) by (apply unused_none; intros x [<- | []]; reflexivity).
  constructor; cbn [with_log with_packet protocol log is_open next_op write_queue read_queue service_alive packet_size].
  - apply ok_snoc; [assumption|]. exact I.
  - rewrite H2. split; intros N HI; apply N; [apply in_app_or in HI as [HI|[HI|[]]]; [assumption|congruence]|apply in_or_app; now left].
  - intros x i HE HI. apply in_app_or in HE as [HE|[<- | []]]; [eauto|discriminate HI].
  - eapply Forall_impl; [|exact H4]. intros w HW. now apply wq_ext.
  - eapply Forall_impl; [|exact H5]. intros w HW. now apply rq_ext.
  - assumption.
  - intros i m HI HX. apply in_app_or in HI as [HI|[HI|[]]]; [|discriminate HI]. rewrite sent_app. destruct (H7 i m HI HX) as [?|[?|[?|?]]]; [left; apply in_or_app; now left|auto..].
  - intros i HI HX. apply in_app_or in HI as [HI|[HI|[]]]; [|discriminate HI]. rewrite recvd_app. destruct (H8 i HI HX) as [?|[?|[?|?]]]; [left; apply in_or_app; now left|auto..].
  - rewrite packet_after_app. reflexivity.
Qed.

(** The first event of a new operation. *)
Lemma inv_start s e : inv [] s -> ev_id e = Some (next_op s) -> ok_event (protocol s) (log s) e -> inv [next_op s] (with_log (numbered s) [e]).
Proof.
  intros [H1 H2 H3 H4 H5 H6 H7 H8 H9] HN HE.
  assert (HF : forall w, wq_ok (log s) w -> wid w < next_op s).
  { intros [j m b t|j] HW; cbn [wq_ok wid] in *; [destruct HW as ((full & HW & _) & _)|destruct HW as (HW & _)]; eapply H3; try eassumption; reflexivity. }
  assert (HF' : forall w, rq_ok (log s) w -> rid w < next_op s).
  { intros [j b] HW; cbn [rq_ok rid] in *. destruct HW as ((HW & _) & _). eapply H3; try eassumption; reflexivity. }
  assert (U : forall i, i < next_op s -> unused i [e]).
  { intros i Hi x [<- | []]. rewrite HN. injection 1. lia. }
  assert (HC : e <> EClosed) by (intros ->; discriminate HN).
  constructor; cbn [with_log numbered protocol log is_open next_op write_queue read_queue service_alive packet_size].
  - now apply ok_snoc.
  - rewrite H2. split; intros N HI; apply N; [apply in_app_or in HI as [HI|[HI|[]]]; [assumption|congruence]|apply in_or_app; now left].
  - intros x i HX HI. apply in_app_or in HX as [HX|[<- | []]]; [specialize (H3 _ _ HX HI); lia|]. rewrite HI in HN. injection HN as ->. lia.
  - rewrite Forall_forall in *. intros w HW. apply wq_ext; auto.
  - rewrite Forall_forall in *. intros w HW. apply rq_ext; auto.
  - constructor; [|exact H6]. intros HI. apply in_app_or in HI as [HI|HI]; apply in_map_iff in HI as (w & EW & HI); rewrite Forall_forall in *; [specialize (HF w (H4 _ HI))|specialize (HF' w (H5 _ HI))]; lia.
  - intros i m HI HX. apply in_app_or in HI as [HI|[HI|[]]]; [|rewrite HI in HN; injection HN as ->; elim HX; now left]. rewrite sent_app. destruct (H7 i m HI (fun f => f)) as [?|[?|[?|?]]]; [left; apply in_or_app; now left|auto..].
  - intros i HI HX. apply in_app_or in HI as [HI|[HI|[]]]; [|rewrite HI in HN; injection HN as ->; elim HX; now left]. rewrite recvd_app. destruct (H8 i HI (fun f => f)) as [?|[?|[?|?]]]; [left; apply in_or_app; now left|auto..].
  - rewrite packet_after_app, H9. cbn [fold_left]. destruct e; try discriminate HN; reflexivity.
Qed.

(** Another event of an operation that is being worked on. *)
Lemma inv_more i s e : inv [i] s -> ev_id e = Some i -> ok_event (protocol s) (log s) e -> i < next_op s -> (forall m, e <> ESend i true m) -> e <> EReceive i true -> inv [i] (with_log s [e]).
Proof.
  intros [H1 H2 H3 H4 H5 H6 H7 H8 H9] HN HE HL HS HR.
  assert (U : forall w, In w (map wid (write_queue s) ++ map rid (read_queue s)) -> unused w [e]).
  { intros w HW x [<- | []]. rewrite HN. injection 1 as ->. inversion H6 as [|? ? N _]; subst. contradiction. }
  assert (HC : e <> EClosed) by (intros ->; discriminate HN).
  constructor; cbn [with_log protocol log is_open next_op write_queue read_queue service_alive packet_size].
  - now apply ok_snoc.
  - rewrite H2. split; intros N HI; apply N; [apply in_app_or in HI as [HI|[HI|[]]]; [assumption|congruence]|apply in_or_app; now left].
  - intros x j HX HI. apply in_app_or in HX as [HX|[<- | []]]; [specialize (H3 _ _ HX HI); lia|]. rewrite HI in HN. now injection HN as ->.
  - rewrite Forall_forall in *. intros w HW. apply wq_ext; auto. apply U, in_or_app. left. now apply in_map.
  - rewrite Forall_forall in *. intros w HW. apply rq_ext; auto. apply U, in_or_app. right. now apply in_map.
  - exact H6.
  - intros j m HI HX. apply in_app_or in HI as [HI|[HI|[]]]; [|rewrite HI in HN; injection HN as ->; elim HX; now left]. rewrite sent_app. destruct (H7 j m HI HX) as [?|[?|[?|?]]]; [left; apply in_or_app; now left|auto..].
  - intros j HI HX. apply in_app_or in HI as [HI|[HI|[]]]; [|rewrite HI in HN; injection HN as ->; elim HX; now left]. rewrite recvd_app. destruct (H8 j HI HX) as [?|[?|[?|?]]]; [left; apply in_or_app; now left|auto..].
  - rewrite packet_after_app, H9. cbn [fold_left]. destruct e; try discriminate HN; reflexivity.
Qed.

(** The operation is done. *)
Lemma inv_done i s : inv [i] s -> (forall m, In (ESend i true m) (log s) -> In i (sent_ids (log s)) \/ is_open s = false) ->
  (In (EReceive i true) (log s) -> In i (received_ids (log s)) \/ is_open s = false) -> inv [] s.
Proof.
  intros [H1 H2 H3 H4 H5 H6 H7 H8 H9] HS HR. constructor; try assumption.
  - cbn [app] in H6. now inversion H6.
  - intros j m HI _. destruct (Nat.eq_dec j i) as [->|N]; [destruct (HS m HI); auto|]. apply (H7 j m HI). intros [E|[]]; congruence.
  - intros j HI _. destruct (Nat.eq_dec j i) as [->|N]; [destruct (HR HI); auto|]. apply (H8 j HI). intros [E|[]]; congruence.
Qed.

Lemma inv_pop_write w q s : inv [] s -> write_queue s = w :: q -> inv [wid w] (with_write s q) /\ wq_ok (log s) w /\ wid w < next_op s.
Proof.
  intros [H1 H2 H3 H4 H5 H6 H7 H8 H9] E. rewrite E in *. inversion H4 as [|? ? HW HQ]; subst. split; [|split; [assumption|]].
  - constructor; try assumption.
    + intros i m HI HX. cbn [with_write write_queue log is_open service_alive]. destruct (H7 i m HI (fun f => f)) as [?|[[?|?]|[?|?]]]; auto. elim HX. now left.
    + intros i HI _. now apply H8.
  - destruct w as [j m b t|j]; cbn [wq_ok wid] in *; [destruct HW as ((full & HW & _) & _)|destruct HW as (HW & _)]; eapply H3; try eassumption; reflexivity.
Qed.
Lemma inv_pop_read r q s : inv [] s -> read_queue s = r :: q -> inv [rid r] (with_read s q) /\ rq_ok (log s) r /\ rid r < next_op s.
Proof.
  intros [H1 H2 H3 H4 H5 H6 H7 H8 H9] E. rewrite E in *. inversion H5 as [|? ? HW HQ]; subst. split; [|split; [assumption|]].
  - constructor; try assumption.
    { cbn [with_read write_queue read_queue app map] in *. apply NoDup_remove in H6 as (H6 & N). constructor; assumption. }
    { intros i m HI _. now apply (H7 i m). }
    intros i HI HX. cbn [with_read read_queue log is_open service_alive]. destruct (H8 i HI (fun f => f)) as [?|[[?|?]|[?|?]]]; auto. elim HX. now left.
  - destruct r as [j b]; cbn [rq_ok rid] in *. destruct HW as ((HW & _) & _). eapply H3; try eassumption; reflexivity.
Qed.
Lemma ok_unique pr l i x m y n : ok_log pr l -> In (ESend i x m) l -> In (ESend i y n) l -> x = y /\ m = n.
Proof.
  intros HL H1 H2. apply in_split in H1 as (a & b & ->). apply in_app_or in H2 as [H2|[H2|H2]].
  - specialize (HL a _ b eq_refl). cbn [ok_event] in HL. now apply HL in H2.
  - injection H2 as -> ->. auto.
  - apply in_split in H2 as (b1 & b2 & ->). assert (E : a ++ ESend i x m :: b1 ++ ESend i y n :: b2 = (a ++ ESend i x m :: b1) ++ ESend i y n :: b2) by now rewrite <- app_assoc.
    specialize (HL _ _ _ E). cbn [ok_event] in HL. exfalso. apply (HL (ESend i x m)); [apply in_or_app; right; now left|reflexivity].
Qed.
(** An operation has one kind. *)
Definition first_event (e : event) : bool := match e with ESend _ _ _ | EReceive _ _ | EConnect _ _ => true | _ => false end.
Lemma ok_kind pr l i e f : ok_log pr l -> In e l -> In f l -> first_event e = true -> first_event f = true -> ev_id e = Some i -> ev_id f = Some i -> e = f.
Proof.
  intros HL H1 H2 F1 F2 E1 E2. apply in_split in H1 as (a & b & ->). apply in_app_or in H2 as [H2|[H2|H2]].
  - specialize (HL a _ b eq_refl). exfalso. assert (HU : unused i a) by (destruct e; try discriminate F1; injection E1 as ->; [exact HL|exact HL|apply HL]). now apply HU in H2.
  - assumption.
  - apply in_split in H2 as (b1 & b2 & ->). assert (E : a ++ e :: b1 ++ f :: b2 = (a ++ e :: b1) ++ f :: b2) by now rewrite <- app_assoc.
    specialize (HL _ _ _ E). exfalso. assert (HU : unused i (a ++ e :: b1)) by (destruct f; try discriminate F2; injection E2 as ->; [exact HL|exact HL|apply HL]).
    apply (HU e); [apply in_or_app; right; now left|assumption].
Qed.

Lemma inv_push_write i w s : inv [i] s -> wid w = i -> wq_ok (log s) w -> inv [] (with_write s (write_queue s ++ [w])).
Proof.
  intros HI EW HW. pose proof HI as [H1 H2 H3 H4 H5 H6 H7 H8 H9].
  constructor; try assumption; cbn [with_write write_queue read_queue log is_open service_alive].
  - apply Forall_app. split; [assumption|]. constructor; [assumption|constructor].
  - rewrite map_app. cbn [map app] in *. rewrite <- app_assoc. cbn [app]. rewrite EW. apply NoDup_Add with (a := i) (l := map wid (write_queue s) ++ map rid (read_queue s)); [apply Add_app|].
    inversion H6; subst. now split.
  - intros j m HJ _. rewrite map_app. destruct (Nat.eq_dec j i) as [->|N].
    + right; left. apply in_or_app. right. left. exact EW.
    + destruct (H7 j m HJ) as [?|[?|[?|?]]]; [intros [E|[]]; congruence|auto|right; left; apply in_or_app; now left|auto..].
  - intros j HJ _. destruct (Nat.eq_dec j i) as [->|N]; [|apply (H8 j HJ); intros [E|[]]; congruence].
    exfalso. destruct w as [k m b t|k]; cbn [wid wq_ok] in *; subst k.
    + destruct HW as ((full & HW & _) & _). now pose proof (ok_kind _ _ i _ _ H1 HJ HW eq_refl eq_refl eq_refl eq_refl).
    + destruct HW as (HW & _). now pose proof (ok_kind _ _ i _ _ H1 HJ HW eq_refl eq_refl eq_refl eq_refl).
Qed.
Lemma inv_push_read i r s : inv [i] s -> rid r = i -> rq_ok (log s) r -> inv [] (with_read s (read_queue s ++ [r])).
Proof.
  intros HI EW HW. pose proof HI as [H1 H2 H3 H4 H5 H6 H7 H8 H9].
  constructor; try assumption; cbn [with_read write_queue read_queue log is_open service_alive].
  - apply Forall_app. split; [assumption|]. constructor; [assumption|constructor].
  - rewrite map_app. cbn [map app] in *. rewrite app_assoc, EW. apply NoDup_Add with (a := i) (l := map wid (write_queue s) ++ map rid (read_queue s)); [|inversion H6; subst; now split].
    pose proof (Add_app i (map wid (write_queue s) ++ map rid (read_queue s)) []) as A. now rewrite app_nil_r in A.
  - intros j m HJ _. destruct (Nat.eq_dec j i) as [->|N]; [|apply (H7 j m HJ); intros [E|[]]; congruence].
    exfalso. destruct r as [k b]; cbn [rid rq_ok] in *; subst k. destruct HW as ((HW & _) & _). now pose proof (ok_kind _ _ i _ _ H1 HJ HW eq_refl eq_refl eq_refl eq_refl).
  - intros j HJ _. rewrite map_app. destruct (Nat.eq_dec j i) as [->|N].
    + right; left. apply in_or_app. right. left. exact EW.
    + destruct (H8 j HJ) as [?|[?|[?|?]]]; [intros [E|[]]; congruence|auto|right; left; apply in_or_app; now left|auto..].
Qed.

Fixpoint cut_ok (k : nat) (cs : list (list Z)) (m : list Z) : Prop :=
  match cs with [] => True | c :: cs' => length c = Nat.min k (length (c ++ concat cs' ++ m)) /\ cut_ok k cs' m end.
Lemma send_loop_spec p packet open : forall answers m n blocked cs, send_loop p packet open answers m = Some (n, blocked, cs) ->
  n = length (concat cs) /\ (exists r, m = concat cs ++ r /\ (p = Udp -> cut_ok packet cs r)) /\ Forall (fun c => c <> []) cs /\ (open = false -> cs = [] /\ blocked = false).
Proof.
  induction answers as [|a rest IH]; intros m n blocked cs H; (destruct m as [|x m]; cbn [send_loop] in H; [|]); try discriminate H.
  - injection H as <- <- <-. split; [reflexivity|]. split; [exists []; split; [reflexivity|intros; exact I]|]. split; [constructor|auto].
  - set (mm := x :: m) in *. assert (LM : 1 <= length mm) by (cbn; lia). clearbody mm. destruct a as [k|b].
    + destruct open; [|discriminate H]. cbn [andb] in H. destruct (1 <=? k) eqn:E1; cbn [andb] in H; [|discriminate H]. apply Nat.leb_le in E1.
      destruct (match p with Tcp => _ | Udp => _ end) eqn:E2; [|discriminate H].
      assert (HK : k <= length mm) by (destruct p; [now apply Nat.leb_le in E2|apply Nat.eqb_eq in E2; lia]).
      destruct (send_loop p packet true rest (skipn k mm)) as [[[n' b'] cs']|] eqn:EL; [|discriminate H]. injection H as <- <- <-.
      destruct (IH _ _ _ _ EL) as (-> & (r & ER & HC) & HF & _). split; [|split; [|split; [|discriminate]]].
      * cbn [concat]. rewrite app_length, firstn_length. lia.
      * exists r. cbn [concat cut_ok]. rewrite <- app_assoc, <- ER. split; [symmetry; apply firstn_skipn|]. intros EP. split; [|now apply HC].
        rewrite firstn_skipn, firstn_length. rewrite EP in E2. apply Nat.eqb_eq in E2. lia.
      * constructor; [|assumption]. intros E. apply (f_equal (@length Z)) in E. rewrite firstn_length in E. cbn [length] in E. lia.
    + destruct rest; [|discriminate H]. destruct open; injection H as <- <- <-; (split; [reflexivity|split; [exists mm; split; [reflexivity|intros; exact I]|split; [constructor|]]]); [discriminate|auto].
Qed.

(** The chunks the operating system takes. *)
Lemma inv_took i x : forall cs s m, inv [i] s -> i < next_op s -> sending (log s) i x (concat cs ++ m) -> Forall (fun c => c <> []) cs -> (cs <> [] -> is_open s = true) -> (protocol s = Udp -> cut_ok (packet_size s) cs m) ->
  inv [i] (with_log s (took i cs)) /\ sending (log s ++ took i cs) i x m /\ took_from i (log s ++ took i cs) = took_from i (log s) ++ concat cs.
Proof.
  induction cs as [|c cs IH]; intros s m HI HL HS HF HO HK.
  - cbn [took map concat app] in *. rewrite !app_nil_r. split; [|auto]. destruct s. unfold with_log. cbn. now rewrite app_nil_r.
  - inversion HF as [|? ? HC HF']; subst. destruct HS as (full & S1 & S2 & S3). cbn [concat] in S3.
    assert (H1 : inv [i] (with_log s [ETook i c])).
    { apply inv_more; try easy. cbn [ok_event]. split; [apply (i_open _ _ HI), HO; discriminate|]. split; [assumption|]. split; [assumption|]. exists x, full, (concat cs ++ m). split; [assumption|]. split; [rewrite S3; now rewrite <- !app_assoc|]. intros EP. rewrite <- (i_packet _ _ HI). now apply (HK EP). }
    assert (T1 : took_from i (log s ++ [ETook i c]) = took_from i (log s) ++ c).
    { rewrite took_app. f_equal. unfold took_from. cbn [datagrams_of flat_map]. rewrite Nat.eqb_refl. cbn. apply app_nil_r. }
    destruct (IH (with_log s [ETook i c]) m H1) as (A & B & C); try assumption.
    + cbn [with_log log]. exists full. split; [apply in_or_app; now left|]. split; [rewrite sent_app; cbn [sent_ids flat_map app]; now rewrite app_nil_r|]. rewrite T1, S3. now rewrite <- !app_assoc.
    + intros _. cbn. apply HO. discriminate.
    + intros EP. now apply (HK EP).
    + cbn [with_log log] in A, B, C. rewrite <- app_assoc in B, C. cbn [took map] in *. change ([ETook i c] ++ map (ETook i) cs) with (ETook i c :: map (ETook i) cs) in B, C.
      split; [|split; [assumption|]].
      * unfold with_log in *. cbn in *. rewrite <- app_assoc in A. exact A.
      * etransitivity; [exact C|]. rewrite T1. cbn [concat]. now rewrite <- app_assoc.
Qed.
(** ... and the report. *)
Lemma inv_sent i x s m : inv [i] s -> i < next_op s -> sending (log s) i x m ->
  (x = true -> m <> [] -> In EClosed (log s)) -> (x = false -> took_from i (log s) = [] -> In EClosed (log s)) -> inv [] (with_log s [ESent i (length (took_from i (log s)))]).
Proof.
  intros HI HL (full & S1 & S2 & S3) C1 C2. apply inv_done with i.
  - apply inv_more; try easy. cbn [ok_event]. split; [reflexivity|]. split; [assumption|]. exists x, full, m. repeat (split; [assumption|]). intros EX E0. apply C2; [assumption|]. now apply length_zero_iff_nil in E0.
  - intros m' _. left. cbn [with_log log]. rewrite sent_app. apply in_or_app. right. now left.
  - intros HR. exfalso. cbn [with_log log] in HR. apply in_app_or in HR as [HR|[HR|[]]]; [|discriminate HR]. now pose proof (ok_kind _ _ i _ _ (i_ok _ _ HI) HR S1 eq_refl eq_refl eq_refl eq_refl).
Qed.
Lemma sending_close s i x m : sending (log s) i x m -> sending (log (close s)) i x m.
Proof.
  intros H. unfold close. destruct (is_open s); [|assumption]. cbn [log]. apply sending_ext; [assumption|]. apply unused_none. intros e [<- | []]. reflexivity.
Qed.
Lemma took_close i s : took_from i (log (close s)) = took_from i (log s).
Proof. unfold close. destruct (is_open s); [|reflexivity]. cbn [log]. rewrite took_app. apply app_nil_r. Qed.
Lemma close_closed X s : inv X s -> In EClosed (log (close s)).
Proof. intros H. unfold close. destruct (is_open s) eqn:E; [|now apply (not_open X)]. cbn [log]. apply in_or_app. right. now left. Qed.
Lemma close_packet s : packet_size (close s) = packet_size s.
Proof. unfold close. now destruct (is_open s). Qed.
Lemma close_next s : next_op (close s) = next_op s.
Proof. unfold close. now destruct (is_open s). Qed.

Lemma inv_send s m a s' : inv [] s -> send s m a = Some s' -> inv [] s'.
Proof.
  intros HI H. unfold send in H. destruct (send_loop _ _ _ a m) as [[[n b] cs]|] eqn:EL; [|discriminate H]. injection H as <-.
  destruct (send_loop_spec _ _ _ _ _ _ _ _ EL) as (EN & (r & ER & HK) & HF & HO). set (i := next_op s) in *.
  assert (HU : unused i (log s)) by (intros e HE EI; specialize (i_fresh _ _ HI _ _ HE EI); unfold i; lia).
  assert (H1 : inv [i] (with_log (numbered s) [ESend i false m])) by (apply inv_start; [assumption|reflexivity|exact HU]).
  assert (T0 : took_from i (log s ++ [ESend i false m]) = []) by (rewrite took_app, (unused_took i _ HU); reflexivity).
  destruct (inv_took i false cs _ r H1) as (A & B & C); try assumption.
  - cbn. lia.
  - exists m. cbn [with_log numbered log]. split; [apply in_or_app; right; now left|]. rewrite sent_app, T0. cbn [sent_ids flat_map]. rewrite app_nil_r. split; [now apply unused_sent|assumption].
  - cbn. intros N. destruct (is_open s); [reflexivity|]. destruct (HO eq_refl); contradiction.
  - set (s1 := with_log (numbered s) (ESend i false m :: took i cs)).
    assert (E1 : with_log (with_log (numbered s) [ESend i false m]) (took i cs) = s1) by (unfold with_log, s1; cbn; now rewrite <- app_assoc).
    rewrite E1 in A. cbn [with_log numbered log] in B, C. change (log (with_log (numbered s) [ESend i false m]) ++ took i cs) with ((log s ++ [ESend i false m]) ++ took i cs) in *.
    rewrite <- app_assoc in B, C. change ([ESend i false m] ++ took i cs) with (ESend i false m :: took i cs) in B, C. change (log s ++ ESend i false m :: took i cs) with (log s1) in B, C.
    rewrite T0 in C. cbn [app] in C. rewrite <- C in EN. destruct (Nat.eqb_spec n 0) as [E0|N0].
    + rewrite EN, <- (took_close i s1). apply (inv_sent i false _ r); [now apply inv_close|rewrite close_next; cbn; lia|now apply sending_close|discriminate|]. intros _ _. now apply (close_closed [i]).
    + rewrite EN. apply (inv_sent i false _ r); [assumption|cbn; lia|assumption|discriminate|]. intros _ E. rewrite E in EN. now cbn in EN.
Qed.
Lemma inv_send_async s m : inv [] s -> service_alive s = true -> inv [] (send_async s m).
Proof.
  intros HI HA. unfold send_async. set (i := next_op s).
  assert (HU : unused i (log s)) by (intros e HE EI; specialize (i_fresh _ _ HI _ _ HE EI); unfold i; lia).
  assert (H1 : inv [i] (with_log (numbered s) [ESend i true m])) by (apply inv_start; [assumption|reflexivity|exact HU]).
  assert (T0 : took_from i (log s ++ [ESend i true m]) = []) by (rewrite took_app, (unused_took i _ HU); reflexivity).
  destruct (is_open (with_log (numbered s) [ESend i true m])) eqn:EO.
  - apply inv_push_write with i; [assumption|reflexivity|]. cbn [wq_ok with_log numbered log]. rewrite T0. split; [|reflexivity]. exists m.
    split; [apply in_or_app; right; now left|]. rewrite sent_app, T0. cbn [sent_ids flat_map]. rewrite app_nil_r. split; [now apply unused_sent|reflexivity].
  - assert (HX : inv [] (with_log (numbered s) [ESend i true m])). { apply inv_done with i; [assumption|auto|auto]. }
    destruct HX. constructor; assumption.
Qed.
Lemma inv_ready_send s q i m b t a s' : inv [] s -> write_queue s = WSend i m b t :: q -> ready_to_send s q i m b t a = Some s' -> inv [] s'.
Proof.
  intros HI EQ H. destruct (inv_pop_write _ _ _ HI EQ) as (H1 & (HS & EB) & HL). cbn [wid] in *. unfold ready_to_send in H.
  destruct (send_loop _ _ _ a m) as [[[n bl] cs]|] eqn:EL; [|discriminate H]. destruct (send_loop_spec _ _ _ _ _ _ _ _ EL) as (EN & (r & ER & HK) & HF & HO).
  destruct (inv_took i true cs (with_write s q) r H1) as (A & B & C); [assumption|now rewrite <- ER|assumption| |exact HK|].
  { intros N. cbn. destruct (is_open s); [reflexivity|]. destruct (HO eq_refl); contradiction. }
  set (s1 := with_log (with_write s q) (took i cs)) in *. change (log (with_write s q) ++ took i cs) with (log s1) in *. change (log (with_write s q)) with (log s) in *.
  assert (LB : b + n = length (took_from i (log s1))) by (rewrite C, app_length; lia).
  destruct (Nat.eqb_spec n (length m)) as [EM|NM].
  - injection H as <-. rewrite LB. apply (inv_sent i true _ r); [assumption|exact HL|assumption| |discriminate].
    intros _ N. elim N. apply length_zero_iff_nil. rewrite ER, app_length in EM. lia.
  - destruct bl; injection H as <-.
    + change q with (write_queue s1) at 1. apply inv_push_write with i; [assumption|reflexivity|]. cbn [wq_ok]. split; [|assumption].
      replace (skipn n m) with r; [assumption|]. rewrite ER, EN, skipn_app, skipn_all, Nat.sub_diag. reflexivity.
    + rewrite LB, <- (took_close i s1). apply (inv_sent i true _ r); [now apply inv_close|rewrite close_next; exact HL|now apply sending_close| |discriminate]. intros _ _. now apply (close_closed [i]).
Qed.

Lemma recv_model_spec p packet open answer arrived bs blocked rest : recv_model p packet open answer arrived = Some (bs, blocked, rest) ->
  (blocked = true -> bs = []) /\ (bs <> [] -> open = true) /\ length bs <= packet.
Proof.
  unfold recv_model. destruct answer as [n|b].
  - destruct open; [|discriminate]. destruct p.
    + destruct (Nat.leb_spec n (Nat.min packet (length (concat arrived)))); [|discriminate]. injection 1 as <- <- <-. split; [discriminate|]. split; [auto|]. rewrite firstn_length. lia.
    + destruct arrived as [|d r]; [discriminate|]. destruct (Nat.eqb_spec n (Nat.min packet (length d))); [|discriminate]. injection 1 as <- <- <-. split; [discriminate|]. split; [auto|]. rewrite firstn_length. lia.
  - injection 1 as <- <- <-. split; [auto|]. split; [congruence|cbn; lia].
Qed.
Lemma inv_incoming X s l : inv X s -> inv X (with_incoming s l).
Proof. intros []. constructor; assumption. Qed.
Lemma receiving_close s i x : receiving (log s) i x -> receiving (log (close s)) i x.
Proof.
  intros (H1 & H2). unfold close. destruct (is_open s); [|now split]. cbn [log]. split; [apply in_or_app; now left|]. rewrite recvd_app. cbn [received_ids flat_map]. now rewrite app_nil_r.
Qed.
Lemma inv_received i x s b : inv [i] s -> i < next_op s -> receiving (log s) i x -> (b = [] -> In EClosed (log s)) -> length b <= packet_size s -> inv [] (with_log s [EReceived i b]).
Proof.
  intros HI HL (R1 & R2) HB HP. apply inv_done with i.
  - apply inv_more; try easy. cbn [ok_event]. rewrite <- (i_packet _ _ HI). repeat split; [assumption|now exists x|assumption|assumption].
  - intros m HS. exfalso. cbn [with_log log] in HS. apply in_app_or in HS as [HS|[HS|[]]]; [|discriminate HS]. now pose proof (ok_kind _ _ i _ _ (i_ok _ _ HI) HS R1 eq_refl eq_refl eq_refl eq_refl).
  - intros _. left. cbn [with_log log]. rewrite recvd_app. apply in_or_app. right. now left.
Qed.
Lemma inv_receive s a s' : inv [] s -> receive s a = Some s' -> inv [] s'.
Proof.
  intros HI H. unfold receive in H. destruct (recv_model _ _ _ a _) as [[[b bl] rest]|] eqn:EL; [|discriminate H]. injection H as <-. set (i := next_op s) in *.
  assert (HU : unused i (log s)) by (intros e HE EI; specialize (i_fresh _ _ HI _ _ HE EI); unfold i; lia).
  assert (H1 : inv [i] (with_log (with_incoming (numbered s) rest) [EReceive i false])).
  { change (with_log (with_incoming (numbered s) rest) [EReceive i false]) with (with_incoming (with_log (numbered s) [EReceive i false]) rest). apply inv_incoming, inv_start; [assumption|reflexivity|exact HU]. }
  assert (HR : receiving (log (with_log (with_incoming (numbered s) rest) [EReceive i false])) i false).
  { split; [cbn; apply in_or_app; right; now left|]. cbn [with_log log with_incoming numbered]. rewrite recvd_app. cbn [received_ids flat_map]. rewrite app_nil_r. now apply unused_recvd. }
  destruct (recv_model_spec _ _ _ _ _ _ _ _ EL) as (_ & _ & HB). destruct (Nat.eqb_spec (length b) 0) as [E|N].
  - apply inv_received with false; [now apply inv_close|rewrite close_next; cbn; lia|now apply receiving_close| |rewrite close_packet; exact HB]. intros _. now apply (close_closed [i]).
  - apply inv_received with false; [assumption|cbn; lia|assumption| |exact HB]. intros ->. now elim N.
Qed.
Lemma inv_receive_async s : inv [] s -> inv [] (receive_async s).
Proof.
  intros HI. unfold receive_async. set (i := next_op s).
  assert (HU : unused i (log s)) by (intros e HE EI; specialize (i_fresh _ _ HI _ _ HE EI); unfold i; lia).
  assert (H1 : inv [i] (with_log (numbered s) [EReceive i true])) by (apply inv_start; [assumption|reflexivity|exact HU]).
  destruct (is_open (with_log (numbered s) [EReceive i true])) eqn:EO.
  - apply inv_push_read with i; [assumption|reflexivity|]. cbn [rq_ok]. split; [|reflexivity]. split; [cbn; apply in_or_app; right; now left|]. cbn [with_log log numbered]. rewrite recvd_app. cbn [received_ids flat_map]. rewrite app_nil_r. now apply unused_recvd.
  - assert (HX : inv [] (with_log (numbered s) [EReceive i true])). { apply inv_done with i; [assumption|auto|auto]. } destruct HX. constructor; assumption.
Qed.
Lemma inv_ready_receive s q i r a s' : inv [] s -> read_queue s = RReceive i r :: q -> ready_to_receive s q i r a = Some s' -> inv [] s'.
Proof.
  intros HI EQ H. destruct (inv_pop_read _ _ _ HI EQ) as (H1 & (HR & ->) & HL). cbn [rid] in *. unfold ready_to_receive in H.
  destruct (recv_model _ _ _ a _) as [[[b bl] rest]|] eqn:EL; [|discriminate H]. cbn [app] in H. apply (inv_incoming _ _ rest) in H1. destruct (recv_model_spec _ _ _ _ _ _ _ _ EL) as (_ & _ & HB). destruct b as [|z b].
  - destruct bl; injection H as <-.
    + change q with (read_queue (with_incoming (with_read s q) rest)) at 2. now apply inv_push_read with i.
    + apply inv_received with true; [now apply inv_close|rewrite close_next; exact HL|now apply receiving_close| |cbn; lia]. intros _. now apply (close_closed [i]).
  - injection H as <-. apply inv_received with true; [assumption|exact HL|assumption|discriminate|exact HB].
Qed.

Lemma inv_conn X s c : inv X s -> inv X (with_conn s c).
Proof. intros []. constructor; assumption. Qed.
Lemma inv_connect_event s st : inv [] s -> match st with Disconnected => true | _ => is_open s end = true ->
  inv [next_op s] (with_log (with_conn (match st with Disconnected => close (numbered s) | _ => numbered s end) st) [EConnect (next_op s) st]).
Proof.
  intros HI HO. set (i := next_op s).
  assert (HU : unused i (log s)) by (intros e HE EI; specialize (i_fresh _ _ HI _ _ HE EI); unfold i; lia).
  assert (HG : forall s0, inv [] s0 -> next_op s0 = i -> (st = Disconnected <-> In EClosed (log s0)) -> unused i (log s0) -> inv [i] (with_log (with_conn (numbered s0) st) [EConnect i st])).
  { intros s0 H0 E0 H3 H4. change (with_log (with_conn (numbered s0) st) [EConnect i st]) with (with_conn (with_log (numbered s0) [EConnect i st]) st). apply inv_conn. rewrite <- E0. apply inv_start; [assumption|reflexivity|]. cbn [ok_event]. split; [now rewrite E0|assumption]. }
  destruct st.
  - assert (EC : close (numbered s) = numbered (close s)) by (unfold close; cbn; now destruct (is_open s)). rewrite EC. apply HG; [now apply inv_close|apply close_next| |].
    + split; [intros _; now apply (close_closed [])|reflexivity].
    + unfold close. destruct (is_open s); [|assumption]. cbn [log]. apply unused_app. split; [assumption|]. intros e [<- | []]. discriminate.
  - apply HG; try easy. split; [discriminate|]. intros HC. now apply (i_open _ _ HI) in HO.
  - apply HG; try easy. split; [discriminate|]. intros HC. now apply (i_open _ _ HI) in HO.
Qed.
Lemma connect_done s i st : inv [i] s -> In (EConnect i st) (log s) -> inv [] s.
Proof.
  intros HI HC. apply inv_done with i; [assumption| |].
  - intros m HS. exfalso. now pose proof (ok_kind _ _ i _ _ (i_ok _ _ HI) HS HC eq_refl eq_refl eq_refl eq_refl).
  - intros HS. exfalso. now pose proof (ok_kind _ _ i _ _ (i_ok _ _ HI) HS HC eq_refl eq_refl eq_refl eq_refl).
Qed.
Lemma inv_connect s st s' : inv [] s -> connect (numbered s) st = Some s' -> inv [] (with_log s' [EConnect (next_op s) st]).
Proof.
  intros HI H. unfold connect in H. change (is_open (numbered s)) with (is_open s) in H. destruct (match st with Disconnected => true | _ => is_open s end) eqn:EO; [|discriminate H]. injection H as <-.
  pose proof (inv_connect_event s st HI EO) as H1. eapply connect_done; [exact H1|]. cbn. apply in_or_app. right. now left.
Qed.
Lemma inv_connect_async s st s' : inv [] s -> connect_async s st = Some s' -> inv [] s'.
Proof.
  intros HI H. unfold connect_async in H. destruct (connect (numbered s) st) as [s1|] eqn:EC; [|discriminate H].
  pose proof (inv_connect s st s1 HI EC) as H0. injection H as <-. destruct st; try assumption.
  unfold connect in EC. change (is_open (numbered s)) with (is_open s) in EC. destruct (is_open s) eqn:EO; [|discriminate EC]. injection EC as <-.
  pose proof (inv_connect_event s Connecting HI EO) as H1. cbv iota in H1. refine (inv_push_write (next_op s) (WConnect (next_op s)) _ H1 eq_refl _).
  cbn [wq_ok]. split; [cbn; apply in_or_app; right; now left|]. cbn [with_log with_conn numbered log]. rewrite fin_app. cbn [finished_ids flat_map]. rewrite app_nil_r.
  apply unused_fin. intros e HE EI. specialize (i_fresh _ _ HI _ _ HE EI). lia.
Qed.
Lemma inv_finish X s e s' st : inv X s -> finish_connect s e = (s', st) -> inv X s' /\ next_op s' = next_op s /\
  ((st = Connected /\ ~ In EClosed (log s')) \/ (st = Disconnected /\ In EClosed (log s'))) /\ (s' = with_conn s st \/ s' = with_conn (close s) st).
Proof.
  intros HI H. unfold finish_connect in H. destruct (is_open s && _ && e) eqn:EC; injection H as <- <-.
  - apply andb_prop in EC as (EC & _). apply andb_prop in EC as (EC & _). split; [now apply inv_conn|]. split; [reflexivity|]. split; [|auto]. left. split; [reflexivity|]. cbn. now apply (i_open _ _ HI).
  - split; [now apply inv_conn, inv_close|]. split; [cbn; apply close_next|]. split; [|auto]. right. split; [reflexivity|]. cbn. now apply (close_closed X).
Qed.
Lemma inv_connectable s i q e s' st : inv [] s -> write_queue s = WConnect i :: q -> finish_connect (with_write s q) e = (s', st) -> inv [] (with_log s' [EFinished i st]).
Proof.
  intros HI EQ H. destruct (inv_pop_write _ _ _ HI EQ) as (H1 & HC & HL). cbn [wid wq_ok] in *. destruct (inv_finish _ _ _ _ _ H1 H) as (H2 & EN & HST & HS').
  assert (HC' : connecting (log s') i).
  { destruct HC as (C1 & C2). assert (E : log s' = log s \/ log s' = log s ++ [EClosed]) by (destruct HS' as [-> | ->]; cbn; [now left|]; unfold close; cbn; destruct (is_open s); auto).
    destruct E as [-> | ->]; [now split|]. split; [apply in_or_app; now left|]. rewrite fin_app. cbn. now rewrite app_nil_r. }
  destruct HC' as (C1 & C2). apply connect_done with i Connecting; [|cbn; apply in_or_app; now left].
  apply inv_more; try easy. now rewrite EN.
Qed.

Lemma inv_step s s' : inv [] s -> step s s' -> inv [] s'.
Proof.
  intros HI H. destruct H as [s m a s' H|s m H|s i m b t q a s' H0 H|s a s' H|s H|s i r q a s' H0 H|s st s' H0 H|s st s' H0 H1 H|s i q e s' st H0 H|s e s' st H0 H|s|s H|s b|s n|s].
  - now apply inv_send with s m a.
  - now apply inv_send_async.
  - now apply inv_ready_send with s q i m b t a.
  - now apply inv_receive with s a.
  - now apply inv_receive_async.
  - now apply inv_ready_receive with s q i r a.
  - now apply inv_connect.
  - now apply inv_connect_async with s st.
  - now apply inv_connectable with s q e.
  - now destruct (inv_finish _ _ _ _ _ HI H).
  - now apply inv_close.
  - destruct HI. constructor; cbn [with_read with_write log is_open next_op write_queue read_queue service_alive packet_size]; try assumption; [constructor|constructor|constructor|intros; right; right; now left..].
  - apply (inv_plain [] (with_incoming s (incoming s ++ [b]))); try easy. now apply inv_incoming.
  - now apply inv_config.
  - destruct HI. constructor; cbn [without_service log is_open next_op write_queue read_queue service_alive packet_size]; try assumption; [constructor|constructor|constructor|intros; right; right; now right..].
Qed.
Theorem reaches_inv s : reaches s -> inv [] s.
Proof.
  induction 1 as [s (E1 & E2 & E3 & E4 & E5 & E6 & E7 & E8)|s s' _ IH _ H]; [|now apply inv_step with s].
  constructor; rewrite ?E3, ?E4, ?E8.
  - intros a e b E. destruct a as [|x a]; [injection E as <- <-; exact I|]. injection E as <- E. destruct a; discriminate E.
  - split; [|intros _; assumption]. intros _ [HI|[]]. discriminate HI.
  - intros e i [<- | []]. discriminate.
  - constructor.
  - constructor.
  - constructor.
  - intros i m [HI|[]]. discriminate HI.
  - intros i [HI|[]]. discriminate HI.
  - reflexivity.
Qed.

(** Consequences on the log. *)
Lemma prefix_of_message pr l : ok_log pr l -> forall i x m, In (ESend i x m) l -> exists r, m = took_from i l ++ r.
Proof.
  induction l as [|e l IH] using rev_ind; intros HL i x m HI; [easy|]. pose proof (HL l e [] eq_refl) as HE. apply ok_prefix in HL as HL'. rewrite took_app. apply in_app_or in HI as [HI|[HI|[]]].
  - destruct (IH HL' i x m HI) as (r & ER). destruct e as [j y n|j c|j n|j y|b|j b|j st|j st| |n]; cbn [took_from datagrams_of flat_map concat app]; try (exists r; now rewrite app_nil_r).
    destruct (Nat.eqb_spec j i) as [->|N]; cbn [app concat]; [|exists r; now rewrite app_nil_r]. cbn [ok_event] in HE. destruct HE as (_ & _ & _ & y & n & r' & H1 & H2 & _).
    destruct (ok_unique _ _ _ _ _ _ _ HL' HI H1) as (_ & ->). exists r'. now rewrite app_nil_r, <- app_assoc.
  - subst e. cbn [ok_event] in HE. rewrite (unused_took i l HE). cbn. now exists m.
Qed.
Lemma sends_in l i m : In (i, m) (sends l) <-> exists x, In (ESend i x m) l.
Proof.
  unfold sends. rewrite in_flat_map. split.
  - intros (e & HE & HI). destruct e; cbn [In] in HI; try easy. destruct HI as [HI|[]]. injection HI as -> ->. eauto.
  - intros (x & H). exists (ESend i x m). split; [assumption|now left].
Qed.
Lemma after_sent pr l a i n b : ok_log pr l -> l = a ++ ESent i n :: b -> datagrams_of i b = [] /\ ~ In i (sent_ids b).
Proof.
  intros HL ->. assert (HN : forall e, In e b -> match e with ETook j _ | ESent j _ => j <> i | _ => True end).
  { intros e HE. apply in_split in HE as (b1 & b2 & ->). assert (E : a ++ ESent i n :: b1 ++ e :: b2 = (a ++ ESent i n :: b1) ++ e :: b2) by now rewrite <- app_assoc.
    specialize (HL _ _ _ E). destruct e; try exact I; cbn [ok_event] in HL; intros ->; [destruct HL as (_ & _ & HL & _)|destruct HL as (_ & HL & _)]; apply HL; rewrite sent_app; apply in_or_app; right; now left. }
  split.
  - clear HL. induction b as [|e b IH]; [reflexivity|]. cbn [datagrams_of flat_map]. fold (datagrams_of i b). rewrite IH by (intros; apply HN; now right). specialize (HN e (or_introl eq_refl)).
    destruct e; try reflexivity. now destruct (Nat.eqb_spec i0 i).
  - intros HI. apply in_sent in HI as (k & HI). now apply HN in HI.
Qed.
Lemma sends_cut : forall l A i m B, sends l = A ++ (i, m) :: B -> exists a x b, l = a ++ ESend i x m :: b /\ sends a = A /\ sends b = B.
Proof.
  induction l as [|e l IH]; intros A i m B E; [destruct A; discriminate E|]. assert (HG : sends [e] = [] -> exists a x b, e :: l = a ++ ESend i x m :: b /\ sends a = A /\ sends b = B).
  { intros E0. change (e :: l) with ([e] ++ l) in E. rewrite sends_app, E0 in E. destruct (IH _ _ _ _ E) as (a & x & b & -> & H1 & H2). exists (e :: a), x, b. split; [reflexivity|]. split; [|assumption].
    change (e :: a) with ([e] ++ a). now rewrite sends_app, E0. }
  destruct e as [j y n|j c|j n|j y|b|j b|j st|j st| |n]; try (now apply HG). cbn [sends flat_map app] in E. destruct A as [|p A].
  - injection E as -> -> E. exists [], y, l. repeat split. assumption.
  - injection E as <- E. destruct (IH _ _ _ _ E) as (a & x & b & -> & H1 & H2). exists (ESend j y n :: a), x, b. split; [reflexivity|]. split; [|assumption]. cbn. now f_equal.
Qed.
Lemma sends_nodup pr l : ok_log pr l -> NoDup (map fst (sends l)).
Proof.
  induction l as [|e l IH] using rev_ind; intros HL; [constructor|]. pose proof (HL l e [] eq_refl) as HE. apply ok_prefix in HL. specialize (IH HL). rewrite sends_app, map_app.
  destruct e as [j y n|j c|j n|j y|b|j b|j st|j st| |n]; cbn [sends flat_map map app]; rewrite ?app_nil_r; try assumption.
  apply NoDup_Add with (a := j) (l := map fst (sends l)); [|split; [assumption|]].
  - pose proof (Add_app j (map fst (sends l)) []) as A. now rewrite app_nil_r in A.
  - intros HI. apply in_map_iff in HI as ((k & m) & EK & HI). cbn [fst] in EK. subst k. apply sends_in in HI as (x & HI). cbn [ok_event] in HE. now apply HE in HI.
Qed.
Lemma no_overlap_prefix a b : no_overlap (a ++ b) -> no_overlap a.
Proof. intros H x i y m z j w n -> HI. apply (H x i y m (z ++ b) j w n); [now rewrite <- app_assoc|assumption]. Qed.
Lemma took_one i j c : took_from i [ETook j c] = if j =? i then c else [].
Proof. unfold took_from. cbn [datagrams_of flat_map]. destruct (j =? i); cbn; [apply app_nil_r|reflexivity]. Qed.
Lemma wire_by_sends pr l : ok_log pr l -> no_overlap l -> wire l = concat (map (fun im => took_from (fst im) l) (sends l)).
Proof.
  induction l as [|e l IH] using rev_ind; intros HL HO; [reflexivity|]. pose proof (HL l e [] eq_refl) as HE. apply ok_prefix in HL as HL'. specialize (IH HL' (no_overlap_prefix _ _ HO)). rewrite wire_app, sends_app.
  assert (HG : (forall i, took_from i [e] = []) -> sends [e] = [] -> wire [e] = [] -> wire l ++ wire [e] = concat (map (fun im => took_from (fst im) (l ++ [e])) (sends l ++ sends [e]))).
  { intros H1 -> ->. rewrite !app_nil_r, IH. f_equal. apply map_ext. intros im. now rewrite took_app, H1, app_nil_r. }
  destruct e as [j y n|j c|j n|j y|b|j b|j st|j st| |n]; try (now apply HG).
  - cbn [sends flat_map wire datagrams concat app]. rewrite app_nil_r, map_app, concat_app, IH. cbn [map fst concat]. cbn [ok_event] in HE. rewrite (took_app j), (unused_took j l HE).
    cbn. rewrite app_nil_r. f_equal. apply map_ext. intros im. rewrite took_app. cbn. now rewrite app_nil_r.
  - cbn [ok_event] in HE. destruct HE as (_ & _ & HN & x & m & r & H1 & H2 & _). cbn [sends flat_map app]. rewrite app_nil_r. unfold wire at 2. cbn [datagrams flat_map app concat]. rewrite app_nil_r.
    assert (H1' : In (j, m) (sends l)) by (apply sends_in; eauto). apply in_split in H1' as (A & B & EA). destruct B as [|(k & n) B].
    + rewrite IH, EA, !map_app, !concat_app. cbn [map concat fst]. rewrite !app_nil_r. rewrite (took_app j), took_one, Nat.eqb_refl, <- app_assoc. f_equal. f_equal.
      apply map_ext_in. intros (k & n) HK. cbn [fst]. rewrite took_app, took_one. destruct (Nat.eqb_spec j k) as [<-|]; [|now rewrite app_nil_r].
      exfalso. pose proof (sends_nodup _ _ HL') as ND. rewrite EA, map_app in ND. cbn [map fst] in ND. apply NoDup_remove_2 in ND. apply ND. rewrite app_nil_r. apply in_map_iff. now exists (j, n).
    + exfalso. change (A ++ (j, m) :: (k, n) :: B) with (A ++ [(j, m)] ++ (k, n) :: B) in EA. rewrite app_assoc in EA. destruct (sends_cut _ _ _ _ _ EA) as (a & x' & b & EL & E1 & _).
      assert (HJ : exists y', In (ESend j y' m) a) by (apply sends_in; rewrite E1; apply in_or_app; right; now left). destruct HJ as (y' & HJ).
      apply HN. rewrite EL, sent_app. apply in_or_app. left. apply (HO a k x' n (b ++ [ETook j c]) j y' m); [|assumption]. rewrite EL. now rewrite <- app_assoc.
Qed.
