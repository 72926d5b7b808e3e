(** C43-C45: sending, receiving and connecting, for every history of one socket. *)
From Coq Require Import Permutation.
From Verif Require Import Common Socket_Model Socket_Spec Socket_Proofs.
Open Scope nat_scope.

(** ** More about the steps *)
Definition quiet (l : list event) : Prop := arrivals l = [] /\ deliveries l = [].
Definition io_step (s s' : state) (l : list event) : Prop :=
  (quiet l /\ incoming s' = incoming s) \/
  (exists b, l = [EArrived b] /\ incoming s' = incoming s ++ [b]) \/
  (exists a bs bl rest, recv_model (protocol s) (packet_size s) (is_open s) a (incoming s) = Some (bs, bl, rest) /\ incoming s' = rest /\ arrivals l = [] /\
     ((deliveries l = [] /\ bs = []) \/ exists i c, l = c ++ [EReceived i bs] /\ deliveries c = [] /\ (In EClosed c -> bs = []))).

Lemma took_quiet i cs : quiet (took i cs).
Proof. unfold quiet, took. induction cs as [|c cs (H1 & H2)]; [now split|]. now split. Qed.
Lemma close_log s : exists l, log (close s) = log s ++ l /\ quiet l /\ incoming (close s) = incoming s /\ protocol (close s) = protocol s.
Proof. unfold close. destruct (is_open s); [exists [EClosed]|exists []]; cbn; rewrite ?app_nil_r; repeat split. Qed.
Lemma quiet_app a b : quiet a -> quiet b -> quiet (a ++ b).
Proof. intros (H1 & H2) (H3 & H4). unfold quiet. rewrite arrivals_app, deliveries_app, H1, H2, H3, H4. now split. Qed.

Lemma step_io s s' : inv [] s -> step s s' -> exists l, log s' = log s ++ l /\ protocol s' = protocol s /\ io_step s s' l.
Proof.
  intros HI H. destruct H as [s m a s' H|s m H|s i m b t q a s' H0 H|s a s' H|s H|s i r q a s' H0 H|s st s' H0 H|s st s' H0 H1 H|s i q e s' st H0 H|s e s' st H0 H|s|s H|s b|s n|s].
  - unfold send in H. destruct (send_loop _ _ _ a m) as [[[k bl] cs]|]; [|discriminate H]. injection H as <-.
    set (s1 := with_log (numbered s) (ESend (next_op s) false m :: took (next_op s) cs)).
    assert (Q : quiet (ESend (next_op s) false m :: took (next_op s) cs)) by exact (took_quiet (next_op s) cs).
    destruct (k =? 0).
    + destruct (close_log s1) as (l & E1 & Q1 & E2 & E3). eexists. split; [cbn [with_log log]; rewrite E1; unfold s1; cbn [with_log log numbered]; rewrite <- !app_assoc; reflexivity|]. split; [exact E3|]. left.
      split; [|exact E2]. apply quiet_app; [exact Q|]. apply quiet_app; [exact Q1|]. now split.
    + eexists. split; [cbn [with_log log]; unfold s1; cbn [with_log log numbered]; rewrite <- !app_assoc; reflexivity|]. split; [reflexivity|]. left. split; [|reflexivity]. apply quiet_app; [exact Q|]. now split.
  - exists [ESend (next_op s) true m]. unfold send_async. destruct (is_open _); (split; [reflexivity|]; split; [reflexivity|]; left; repeat split).
  - unfold ready_to_send in H. destruct (send_loop _ _ _ a m) as [[[k bl] cs]|]; [|discriminate H]. set (s1 := with_log (with_write s q) (took i cs)) in *.
    pose proof (took_quiet i cs) as Q. destruct (k =? length m); [|destruct bl]; injection H as <-.
    + eexists. split; [unfold s1; cbn [with_log log with_write]; rewrite <- app_assoc; reflexivity|]. split; [reflexivity|]. left. split; [apply quiet_app; [exact Q|now split]|reflexivity].
    + exists (took i cs). split; [reflexivity|]. split; [reflexivity|]. left. now split.
    + destruct (close_log s1) as (l & E1 & Q1 & E2 & E3). eexists. split; [cbn [with_log log]; rewrite E1; unfold s1; cbn [with_log log with_write]; rewrite <- !app_assoc; reflexivity|]. split; [exact E3|]. left.
      split; [|exact E2]. apply quiet_app; [exact Q|]. apply quiet_app; [exact Q1|]. now split.
  - unfold receive in H. destruct (recv_model _ _ _ a _) as [[[bs bl] rest]|] eqn:ER; [|discriminate H]. injection H as <-.
    set (s1 := with_log (with_incoming (numbered s) rest) [EReceive (next_op s) false]).
    assert (HG : exists l, log (if length bs =? 0 then close s1 else s1) = log s1 ++ l /\ quiet l /\ incoming (if length bs =? 0 then close s1 else s1) = rest /\ protocol (if length bs =? 0 then close s1 else s1) = protocol s /\ (In EClosed l -> bs = [])).
    { destruct bs as [|z bs]; cbn [length Nat.eqb]; [destruct (close_log s1) as (l & C1 & C2 & C3 & C4); exists l; auto|]. exists []. rewrite app_nil_r. repeat split. intros []. }
    destruct HG as (l & E1 & (Q1 & Q2) & E2 & E3 & HB). exists ((EReceive (next_op s) false :: l) ++ [EReceived (next_op s) bs]). split; [cbn [with_log log]; rewrite E1; unfold s1; cbn [with_log log with_incoming numbered]; now rewrite <- !app_assoc|].
    split; [exact E3|]. right. right. exists a, bs, bl, rest. split; [exact ER|]. split; [exact E2|]. split; [rewrite arrivals_app; cbn; fold (arrivals l); now rewrite Q1|]. right. eexists _, _. split; [reflexivity|]. split; [exact Q2|]. intros [HX|HX]; [discriminate HX|auto].
  - exists [EReceive (next_op s) true]. unfold receive_async. destruct (is_open _); (split; [reflexivity|]; split; [reflexivity|]; left; repeat split).
  - destruct (inv_pop_read _ _ _ HI H0) as (_ & (_ & ->) & _). unfold ready_to_receive in H. destruct (recv_model _ _ _ a _) as [[[bs bl] rest]|] eqn:ER; [|discriminate H].
    set (s1 := with_incoming (with_read s q) rest) in *. cbn [app] in H. destruct bs as [|z bs]; [destruct bl|]; injection H as <-.
    + exists []. split; [cbn; now rewrite app_nil_r|]. split; [reflexivity|]. right. right. exists a, [], true, rest. repeat split; auto.
    + destruct (close_log s1) as (l & E1 & (Q1 & Q2) & E2 & E3). exists (l ++ [EReceived i []]). split; [cbn [with_log log]; rewrite E1; now rewrite <- app_assoc|]. split; [exact E3|]. right. right.
      exists a, [], false, rest. split; [exact ER|]. split; [exact E2|]. split; [now rewrite arrivals_app, Q1|]. right. eauto 6.
    + exists [EReceived i (z :: bs)]. split; [reflexivity|]. split; [reflexivity|]. right. right. exists a, (z :: bs), bl, rest. repeat split; auto. right. exists i, []. repeat split. intros [].
  - unfold connect in H. destruct (match st with Disconnected => true | _ => is_open (numbered s) end); [|discriminate H]. injection H as <-. destruct (close_log (numbered s)) as (l & E1 & Q & E2 & E3).
    destruct st; [exists (l ++ [EConnect (next_op s) Disconnected]); cbn [with_log with_conn log protocol]; rewrite E1|exists [EConnect (next_op s) Connecting]|exists [EConnect (next_op s) Connected]];
      (split; [try reflexivity; now rewrite <- app_assoc|]); (split; [try reflexivity; exact E3|]); left; (split; [|try reflexivity; exact E2]); try now split. apply quiet_app; [assumption|now split].
  - unfold connect_async, connect in H. destruct (match st with Disconnected => true | _ => is_open (numbered s) end); [|discriminate H]. injection H as <-. destruct (close_log (numbered s)) as (l & E1 & Q & E2 & E3).
    destruct st; [exists (l ++ [EConnect (next_op s) Disconnected]); cbn [with_log with_conn log protocol]; rewrite E1|exists [EConnect (next_op s) Connecting]|exists [EConnect (next_op s) Connected]];
      (split; [try reflexivity; now rewrite <- app_assoc|]); (split; [try reflexivity; exact E3|]); left; (split; [|try reflexivity; exact E2]); try now split. apply quiet_app; [assumption|now split].
  - unfold finish_connect in H. destruct (_ && _); injection H as <- <-.
    + exists [EFinished i Connected]. repeat split. left. now split.
    + destruct (close_log (with_write s q)) as (l & E1 & Q & E2 & E3). exists (l ++ [EFinished i Disconnected]). cbn [with_log with_conn log protocol]. rewrite E1, E3, <- app_assoc. repeat split. left. split; [apply quiet_app; [assumption|now split]|exact E2].
  - unfold finish_connect in H. destruct (_ && _); injection H as <- <-.
    + exists []. rewrite app_nil_r. repeat split. left. now split.
    + destruct (close_log s) as (l & E1 & Q & E2 & E3). exists l. repeat split; try assumption. left. now split.
  - destruct (close_log s) as (l & E1 & Q & E2 & E3). exists l. repeat split; try assumption. left. now split.
  - exists []. rewrite app_nil_r. repeat split. left. now split.
  - exists [EArrived b]. repeat split. right. left. now exists b.
  - exists [EConfig n]. repeat split. left. now split.
  - exists []. rewrite app_nil_r. repeat split. left. now split.
Qed.

Lemma recv_tcp packet open a inc bs bl rest : recv_model Tcp packet open a inc = Some (bs, bl, rest) -> concat inc = bs ++ concat rest.
Proof.
  unfold recv_model. destruct a as [n|b]; [|now injection 1 as <- <- <-]. destruct open; [|discriminate]. destruct (n <=? _); [|discriminate]. injection 1 as <- <- <-. cbn. rewrite app_nil_r. symmetry. apply firstn_skipn.
Qed.
Lemma recv_udp packet open a inc bs bl rest : recv_model Udp packet open a inc = Some (bs, bl, rest) -> (bs = [] /\ rest = inc) \/ exists d, inc = d :: rest /\ bs = firstn packet d.
Proof.
  unfold recv_model. destruct a as [n|b]; [|injection 1 as <- <- <-; auto]. destruct open; [|discriminate]. destruct inc as [|d inc]; [discriminate|]. destruct (Nat.eqb_spec n (Nat.min packet (length d))) as [->|]; [|discriminate].
  injection 1 as <- <- <-. right. exists d. split; [reflexivity|]. destruct (Nat.le_ge_cases packet (length d)) as [L|L]; [now rewrite Nat.min_l|]. rewrite Nat.min_r by assumption. now rewrite firstn_all, firstn_all2.
Qed.
Lemma recv_closed p packet a inc bs bl rest : recv_model p packet false a inc = Some (bs, bl, rest) -> bs = [].
Proof. unfold recv_model. destruct a as [n|b]; [discriminate|]. now injection 1 as <- <- <-. Qed.

(** ** C43: sending *)
(** The number given to the user (as the result of send, or to the callback of send_async) is the number of bytes that
    the operating system has taken from the message, which are its first bytes; nothing of the message is sent afterwards.
    send_async reports less than the whole message only when the socket was closed, and send reports 0 only
    together with closing it. *)
Theorem send_reports s a i n b : reaches s -> log s = a ++ ESent i n :: b -> exists x m, In (ESend i x m) a /\ n <= length m /\ took_from i (log s) = firstn n m /\
  (x = true -> n < length m -> In EClosed a) /\ (x = false -> n = 0 -> In EClosed a).
Proof.
  intros HR E. apply reaches_inv in HR. destruct (i_ok _ _ HR _ _ _ E) as (H1 & H2 & x & m & r & H3 & H4 & H5 & H6). destruct (after_sent _ _ _ _ _ _ (i_ok _ _ HR) E) as (H7 & _).
  exists x, m. split; [assumption|]. split; [rewrite H4, app_length; lia|]. split; [|split; [|assumption]].
  - rewrite E, took_app. unfold took_from at 2. cbn [datagrams_of flat_map app]. fold (datagrams_of i b). rewrite H7. cbn [concat]. rewrite app_nil_r, H1, H4, firstn_app, Nat.sub_diag, firstn_all. cbn. now rewrite app_nil_r.
  - intros EX L. apply H5; [assumption|]. intros ->. rewrite app_nil_r in H4. rewrite H4 in L. lia.
Qed.
(** Every send completes at most once, *)
Theorem send_once s : reaches s -> NoDup (sent_ids (log s)).
Proof.
  intros HR. apply reaches_inv, i_ok in HR. revert HR. generalize (protocol s), (log s). intros pr l. induction l as [|e l IH] using rev_ind; intros HL; [constructor|]. pose proof (HL l e [] eq_refl) as HE. apply ok_prefix in HL. specialize (IH HL). rewrite sent_app.
  destruct e as [j y n|j c|j n|j y|b|j b|j st|j st| |n]; cbn [sent_ids flat_map app]; rewrite ?app_nil_r; try assumption. cbn [ok_event] in HE. destruct HE as (_ & HE & _).
  apply NoDup_Add with (a := j) (l := sent_ids l); [|now split]. pose proof (Add_app j (sent_ids l) []) as A. now rewrite app_nil_r in A.
Qed.
(** send_async is not forgotten: while the socket is open and its service exists, it has completed or its request is
    with the service, *)
Theorem send_not_lost s i m : reaches s -> is_open s = true -> service_alive s = true -> In (ESend i true m) (log s) ->
  In i (sent_ids (log s)) \/ exists r b t, In (WSend i r b t) (write_queue s) /\ m = took_from i (log s) ++ r.
Proof.
  intros HR HO HS HI. apply reaches_inv in HR. destruct (i_sends _ _ HR i m HI (fun f => f)) as [H|[H|[H|H]]]; [now left| |congruence..]. right.
  apply in_map_iff in H as (w & EW & HW). pose proof (i_write _ _ HR) as HF. rewrite Forall_forall in HF. specialize (HF w HW). destruct w as [j r b t|j]; cbn [wid] in EW; subst j; cbn [wq_ok] in HF.
  - destruct HF as ((full & F1 & F2 & F3) & _). destruct (ok_unique _ _ _ _ _ _ _ (i_ok _ _ HR) HI F1) as (_ & ->). eauto 6.
  - destruct HF as (HF & _). now pose proof (ok_kind _ _ i _ _ (i_ok _ _ HR) HI HF eq_refl eq_refl eq_refl eq_refl).
Qed.

(** All bytes on the wire come from the messages: with sends that do not overlap, the stream is made of a prefix of each message, in
    the order of the calls; of those that have completed, as many bytes as were reported. *)
Theorem stream_in_order s : reaches s -> no_overlap (log s) -> exists ps, wire (log s) = concat ps /\
  Forall2 (fun im p => exists rest, snd im = p ++ rest /\ forall n, In (ESent (fst im) n) (log s) -> n = length p) (sends (log s)) ps.
Proof.
  intros HR HO. exists (map (fun im => took_from (fst im) (log s)) (sends (log s))). split; [apply (wire_by_sends (protocol s)); [apply i_ok with [], reaches_inv, HR|assumption]|].
  assert (HG : forall l, incl l (sends (log s)) -> Forall2 (fun im p => exists rest, snd im = p ++ rest /\ forall n, In (ESent (fst im) n) (log s) -> n = length p) l (map (fun im => took_from (fst im) (log s)) l)).
  { induction l as [|(i & m) l IH]; intros HL; [constructor|]. constructor; [|apply IH; intros x HX; apply HL; now right]. cbn [fst snd]. assert (HI : In (i, m) (sends (log s))) by (apply HL; now left).
    apply sends_in in HI as (x & HI). destruct (prefix_of_message (protocol s) (log s) (i_ok _ _ (reaches_inv _ HR)) _ _ _ HI) as (r & ER). exists r. split; [assumption|]. intros n HN.
    apply in_split in HN as (a & b & EN). destruct (send_reports s a i n b HR EN) as (x' & m' & F1 & F2 & F3 & _). rewrite F3, firstn_length. destruct (ok_unique _ _ i x m x' m' (i_ok _ _ (reaches_inv _ HR)) HI) as (_ & <-); [rewrite EN; apply in_or_app; now left|]. lia. }
  apply HG. intros x HX. exact HX.
Qed.
(** In particular, when each send was called after the previous one had reported its whole message, what is on
    the wire is the concatenation of the messages, up to what the last send has not sent yet. *)
Theorem stream_complete s : reaches s -> no_overlap (log s) -> (forall i m n, In (i, m) (sends (log s)) -> In (ESent i n) (log s) -> n = length m) ->
  exists rest, concat (map snd (sends (log s))) = wire (log s) ++ rest /\
    ((forall i m, In (i, m) (sends (log s)) -> In i (sent_ids (log s))) -> rest = []).
Proof.
  intros HR HO HF. destruct (stream_in_order s HR HO) as (ps & -> & H2).
  assert (HG : forall l qs, Forall2 (fun im p => exists rest, snd im = p ++ rest /\ forall n, In (ESent (fst im) n) (log s) -> n = length p) l qs -> incl l (sends (log s)) ->
    (forall A x B, l = A ++ x :: B -> B <> [] -> In (fst x) (sent_ids (log s))) -> exists rest, concat (map snd l) = concat qs ++ rest /\ ((forall i m, In (i, m) l -> In i (sent_ids (log s))) -> rest = [])).
  { intros l qs HL. induction HL as [|(i & m) p l qs (rest & ER & HN) HL IH]; intros HI HB; [exists []; now split|]. cbn [fst snd] in *. subst m.
    assert (HC : In i (sent_ids (log s)) -> rest = []).
    { intros H. apply in_sent in H as (n & H). pose proof (HF i (p ++ rest) n (HI _ (or_introl eq_refl)) H) as F. rewrite (HN n H), app_length in F. destruct rest; [reflexivity|cbn in F; lia]. }
    destruct IH as (r & ER & HRR); [intros x HX; apply HI; now right|intros A x B -> NB; now apply (HB ((i, p ++ rest) :: A) x B)|].
    destruct l as [|y l].
    - inversion HL; subst. cbn [map snd concat]. rewrite !app_nil_r. exists rest. split; [reflexivity|]. intros H. apply HC, (H i (p ++ rest)). now left.
    - exists r. cbn [map snd concat] in *. rewrite ER, HC by (apply (HB [] (i, p ++ rest) (y :: l)); easy). rewrite app_nil_r, <- app_assoc. split; [reflexivity|]. intros H. apply HRR. intros j n HJ. apply (H j n). now right. }
  apply HG; [assumption|intros x; auto|]. intros A (i & m) B E NB. cbn [fst]. destruct B as [|(j & n) B]; [easy|].
  change (A ++ (i, m) :: (j, n) :: B) with (A ++ [(i, m)] ++ (j, n) :: B) in E. rewrite app_assoc in E. destruct (sends_cut _ _ _ _ _ E) as (a & x & b & EL & E1 & _).
  assert (HI : In (i, m) (sends a)) by (rewrite E1; apply in_or_app; right; now left). apply sends_in in HI as (y & HI). rewrite EL, sent_app. apply in_or_app. left. exact (HO a j x n b i y m EL HI).
Qed.

(** A datagram socket cuts every message into pieces of packet_size bytes, the last one shorter. *)
Lemma pieces_snoc p ds c : Forall (fun d => length d = p) ds -> c <> [] -> length c <= p -> pieces p (concat ds ++ c) (ds ++ [c]).
Proof.
  intros H HC HL. induction H as [|d ds HD H IH]; cbn [concat app]; [now constructor|]. rewrite <- app_assoc. apply pieces_more; [assumption| |assumption]. intros E. apply app_eq_nil in E as (_ & E). contradiction.
Qed.
Lemma pieces_full p ds : 0 < p -> Forall (fun d => length d = p) ds -> pieces p (concat ds) ds.
Proof.
  intros HP. destruct ds as [|c ds] using rev_ind; [constructor|]. clear IHds. intros H. apply Forall_app in H as (H & HC). inversion HC as [|x y HC' _]; subst x y. rewrite concat_app. cbn [concat]. rewrite app_nil_r. apply pieces_snoc; [assumption| |lia]. intros ->. cbn in HC'. lia.
Qed.
Lemma packet_constant p l : l <> [] -> constant_packet p l -> forall a e b, l = a ++ e :: b -> packet_after a = p \/ (packet_after a = 0 /\ ~ exists n, In (EConfig n) a).
Proof.
  intros _ HC a e b ->. assert (HC' : constant_packet p a) by (intros n H; apply HC, in_or_app; now left). clear HC. induction a as [|x a IH] using rev_ind; [right; split; [reflexivity|intros (n & [])]|].
  assert (HA : constant_packet p a) by (intros n H; apply HC', in_or_app; now left). specialize (IH HA). rewrite packet_after_app. cbn [fold_left].
  assert (HG : (forall n, x <> EConfig n) -> packet_after a = p \/ packet_after a = 0 /\ ~ (exists n, In (EConfig n) (a ++ [x]))).
  { intros N. destruct IH as [IH|(IH & IN)]; [now left|right; split; [assumption|]]. intros (n & H). apply in_app_or in H as [H|[H|[]]]; [apply IN; eauto|now apply (N n)]. }
  destruct x; try (apply HG; discriminate). left. apply HC'. apply in_or_app. right. now left.
Qed.
Lemma reaches_config s : reaches s -> exists n l, log s = EConfig n :: l.
Proof.
  induction 1 as [s (E1 & E2 & E3 & E4 & E5 & E6 & E7 & E8)|s s' HR (n & l & E) _ H]; [eauto|]. destruct (step_io _ _ (reaches_inv _ HR) H) as (k & -> & _). rewrite E. cbn. eauto.
Qed.
Theorem datagram_pieces s p i m x : reaches s -> protocol s = Udp -> constant_packet p (log s) -> 0 < p -> In (ESend i x m) (log s) -> In (ESent i (length m)) (log s) -> pieces p m (datagrams_of i (log s)).
Proof.
  intros HR HP HC H0 HS HD. assert (HA : forall a e b, log s = a ++ e :: b -> a <> [] -> packet_after a = p).
  { intros a e b E NA. destruct (packet_constant p (log s)) with (a := a) (e := e) (b := b) as [H|(_ & H)]; [rewrite E; now destruct a|assumption|assumption|assumption|].
    exfalso. apply H. destruct (reaches_config s HR) as (n & l & E'). rewrite E' in E. destruct a as [|y a]; [easy|]. injection E as <- _. exists n. now left. }
  pose proof (i_ok _ _ (reaches_inv _ HR)) as HL. rewrite HP in HL.
  assert (HG : forall l, (exists b, log s = l ++ b) -> In (ESend i x m) l -> exists r, m = concat (datagrams_of i l) ++ r /\ (Forall (fun d => length d = p) (datagrams_of i l) \/ (r = [] /\ pieces p m (datagrams_of i l)))).
  { induction l as [|e l IH] using rev_ind; intros (b & EB) HI; [easy|]. rewrite <- app_assoc in EB. cbn [app] in EB. pose proof (HL _ _ _ EB) as HE. rewrite dgo_app. apply in_app_or in HI as [HI|[HI|[]]].
    - destruct IH as (r & ER & HF); [eauto|assumption|]. destruct e as [j y n|j c|j n|j y|b0|j b0|j st|j st| |n]; cbn [datagrams_of flat_map app]; rewrite ?app_nil_r; eauto.
      destruct (Nat.eqb_spec j i) as [->|]; cbn [app]; rewrite ?app_nil_r; eauto. cbn [ok_event] in HE. destruct HE as (_ & NC & _ & y & n & r' & H1 & H2 & H3).
      assert (HLl : ok_log Udp l) by (apply (ok_prefix _ l (ETook i c :: b)); rewrite <- EB; exact HL). destruct (ok_unique _ _ _ _ _ _ _ HLl HI H1) as (_ & <-). specialize (H3 eq_refl).
      rewrite (HA _ _ _ EB) in H3 by (intros ->; easy). rewrite app_length in H3. exists r'. rewrite concat_app. cbn [concat]. rewrite app_nil_r, <- app_assoc. split; [exact H2|].
      destruct HF as [HF|(-> & HF)].
      + destruct r' as [|z r'].
        * right. split; [reflexivity|]. rewrite app_nil_r in H2. rewrite H2. apply pieces_snoc; [assumption|assumption|]. cbn in H3. lia.
        * left. apply Forall_app. split; [assumption|]. constructor; [|constructor]. cbn [length] in H3. lia.
      + exfalso. rewrite app_nil_r in ER. unfold took_from in H2. rewrite <- ER in H2. apply (f_equal (@length Z)) in H2. rewrite !app_length in H2. destruct c; [easy|]. cbn in H2. lia.
    - subst e. cbn [ok_event] in HE. pose proof (unused_took i l HE) as HU. assert (HN : datagrams_of i l = []).
      { clear -HE. induction l as [|e l IH]; [reflexivity|]. cbn [datagrams_of flat_map]. fold (datagrams_of i l). rewrite IH by (intros f HF; apply HE; now right). specialize (HE e (or_introl eq_refl)). destruct e; try reflexivity. cbn [ev_id] in HE. destruct (Nat.eqb_spec i0 i); [congruence|reflexivity]. }
      rewrite HN. cbn. exists m. split; [reflexivity|]. left. constructor. }
  destruct (HG (log s)) as (r & ER & HF); [exists []; now rewrite app_nil_r|assumption|]. apply in_split in HD as (a & b & ED). destruct (send_reports s a i (length m) b HR ED) as (x' & m' & F1 & F2 & F3 & _).
  destruct (ok_unique _ _ i x m x' m' HL HS) as (_ & <-); [rewrite ED; apply in_or_app; now left|]. rewrite firstn_all in F3. unfold took_from in F3. rewrite F3 in ER. rewrite <- (app_nil_r m) in ER at 1. apply app_inv_head in ER. subst r.
  destruct HF as [HF|(_ & HF)]; [|assumption]. rewrite <- F3 at 1. now apply pieces_full.
Qed.

(** send_async can complete: whatever was sent of it before, there is a continuation in which the operating system
    takes the rest and the whole message is reported, as long as the socket is open and nobody waits for a
    connection. *)
Fixpoint answers_for (p : proto) (packet : nat) (fuel : nat) (m : list Z) : list send_answer :=
  match fuel, m with
  | S fuel, _ :: _ => let n := match p with Tcp => length m | Udp => Nat.min packet (length m) end in Took n :: answers_for p packet fuel (skipn n m)
  | _, _ => []
  end.
Lemma send_loop_took p packet open n rest m : m <> [] -> send_loop p packet open (Took n :: rest) m =
  if open && (1 <=? n) && match p with Tcp => n <=? match p with Tcp => length m | Udp => Nat.min packet (length m) end | Udp => n =? match p with Tcp => length m | Udp => Nat.min packet (length m) end end then
    match send_loop p packet open rest (skipn n m) with Some (bytes, blocked, chunks) => Some (n + bytes, blocked, firstn n m :: chunks) | None => None end
  else None.
Proof. intros H. destruct m; [easy|reflexivity]. Qed.
Lemma send_all p packet : (p = Udp -> 0 < packet) -> forall fuel m, length m <= fuel -> exists cs, send_loop p packet true (answers_for p packet fuel m) m = Some (length m, false, cs).
Proof.
  intros HP. induction fuel as [|fuel IH]; intros m HL; (destruct m as [|z m]; [exists []; reflexivity|]); [cbn in HL; lia|].
  assert (H1 : 1 <= length (z :: m)) by (cbn; lia). assert (NN : z :: m <> []) by discriminate. revert HL H1 NN. generalize (z :: m) as mm. clear z m. intros mm HL H1 NN.
  set (n := match p with Tcp => length mm | Udp => Nat.min packet (length mm) end).
  assert (HN : 1 <= n <= length mm) by (unfold n; destruct p; [lia|specialize (HP eq_refl); lia]).
  assert (HS : length (skipn n mm) <= fuel) by (rewrite skipn_length; lia). destruct (IH _ HS) as (cs & E). exists (firstn n mm :: cs).
  assert (EA : answers_for p packet (S fuel) mm = Took n :: answers_for p packet fuel (skipn n mm)) by (destruct mm; [easy|reflexivity]).
  assert (ES : send_loop p packet true (Took n :: answers_for p packet fuel (skipn n mm)) mm = match send_loop p packet true (answers_for p packet fuel (skipn n mm)) (skipn n mm) with Some (bytes, blocked, chunks) => Some (n + bytes, blocked, firstn n mm :: chunks) | None => None end).
  { rewrite send_loop_took by assumption. cbn [andb]. replace (1 <=? n) with true by (symmetry; now apply Nat.leb_le). cbn [andb].
    replace (match p with Tcp => _ | Udp => _ end) with true; [reflexivity|]. symmetry. unfold n. destruct p; [apply Nat.leb_refl|apply Nat.eqb_refl]. }
  rewrite EA, ES, E. f_equal. f_equal. f_equal. rewrite skipn_length. lia.
Qed.
Definition is_send (w : write_request) : Prop := match w with WSend _ _ _ _ => True | WConnect _ => False end.
Inductive steps : state -> state -> Prop :=
| steps_refl s : steps s s
| steps_next s s1 s2 : undefined s = false -> step s s1 -> steps s1 s2 -> steps s s2.
Lemma steps_reach s s' : reaches s -> steps s s' -> reaches s'.
Proof. intros HR H. induction H as [|s s1 s2 HU H _ IH]; [assumption|]. apply IH. now apply reaches_step with s. Qed.
Theorem send_can_complete s i x m : reaches s -> undefined s = false -> is_open s = true -> service_alive s = true -> (protocol s = Udp -> 0 < packet_size s) -> Forall is_send (write_queue s) ->
  In (ESend i x m) (log s) -> x = true -> exists s', steps s s' /\ is_open s' = true /\
    (In (ESent i (length m)) (log s') \/ exists n, In (ESent i n) (log s)).
Proof.
  intros HR HU HO HS HP HF HI ->. destruct (send_not_lost s i m HR HO HS HI) as [H|(r & b & t & HW & _)].
  { exists s. split; [constructor|]. split; [assumption|]. right. now apply in_sent. }
  revert s HR HU HO HS HP HF HI r b t HW. assert (HG : forall k s, length (write_queue s) = k -> reaches s -> undefined s = false -> is_open s = true -> service_alive s = true -> (protocol s = Udp -> 0 < packet_size s) -> Forall is_send (write_queue s) -> In (ESend i true m) (log s) ->
    forall r b t, In (WSend i r b t) (write_queue s) -> exists s', steps s s' /\ is_open s' = true /\ In (ESent i (length m)) (log s')).
  { induction k as [|k IH]; intros s HK HR HU HO HS HP HF HI r b t HW; destruct (write_queue s) as [|w q] eqn:EQ; try easy. inversion HF as [|w' q' HF1 HF2]; subst w' q'. destruct w as [j r0 b0 t0|j]; [|easy].
    destruct (send_all (protocol s) (packet_size s) HP (length r0) r0 (le_n _)) as (cs & EL). set (an := answers_for (protocol s) (packet_size s) (length r0) r0) in *.
    set (s1 := with_log (with_log (with_write s q) (took j cs)) [ESent j (b0 + length r0)]).
    assert (HST : step s s1). { apply (SWritable s j r0 b0 t0 q an); [assumption|]. unfold ready_to_send. rewrite HO, EL, Nat.eqb_refl. reflexivity. }
    assert (HR1 : reaches s1) by now apply reaches_step with s.
    assert (HI1 : In (ESend i true m) (log s1)) by (cbn; rewrite <- app_assoc; apply in_or_app; now left).
    destruct HW as [HW|HW].
    - injection HW as -> -> -> ->. exists s1. split; [now apply steps_next with s1; [| |constructor]|]. split; [assumption|].
      assert (EN : log s1 = (log s ++ took i cs) ++ ESent i (b + length r) :: []) by reflexivity. destruct (send_reports s1 _ _ _ _ HR1 EN) as (x' & m' & F1 & F2 & F3 & F4 & _).
      destruct (ok_unique _ _ i true m x' m' (i_ok _ _ (reaches_inv _ HR1)) HI1) as (<- & <-); [rewrite EN; apply in_or_app; now left|].
      destruct (Nat.eq_dec (b + length r) (length m)) as [E|N]; [rewrite <- E, EN; apply in_or_app; right; now left|]. exfalso.
      assert (HC : In EClosed (log s1)) by (rewrite EN; apply in_or_app; left; apply F4; [reflexivity|lia]). pose proof (proj1 (i_open _ _ (reaches_inv _ HR1)) HO). contradiction.
    - destruct (IH s1) with (r := r) (b := b) (t := t) as (s' & S1 & S2 & S3); try assumption. { cbn in HK |- *. now injection HK. } exists s'. split; [now apply steps_next with s1|]. now split. }
  intros s HR HU HO HS HP HF HI r b t HW. destruct (HG _ s eq_refl HR HU HO HS HP HF HI r b t HW) as (s' & S1 & S2 & S3). exists s'. auto.
Qed.

(** ** C44: receiving *)
(** A stream socket gives its user the bytes that have arrived, in order, none twice, none left out. *)
Theorem receive_stream s : reaches s -> protocol s = Tcp -> concat (arrivals (log s)) = concat (deliveries (log s)) ++ concat (incoming s).
Proof.
  induction 1 as [s (E1 & E2 & E3 & E4 & E5 & E6 & E7 & E8)|s s' HR IH _ H]; intros HP; [rewrite E5, E8; reflexivity|].
  destruct (step_io _ _ (reaches_inv _ HR) H) as (l & -> & EP & HIO). rewrite HP in EP. symmetry in EP. specialize (IH EP). rewrite arrivals_app, deliveries_app, !concat_app, IH. destruct HIO as [((Q1 & Q2) & ->)|[(b & -> & ->)|(a & bs & bl & rest & ER & -> & Q1 & HD)]].
  - rewrite Q1, Q2. cbn. now rewrite !app_nil_r.
  - cbn. rewrite concat_app. cbn. now rewrite !app_nil_r, app_assoc.
  - rewrite EP in ER. apply recv_tcp in ER. rewrite Q1, ER. cbn. rewrite app_nil_r. destruct HD as [(-> & ->)|(i & c & -> & HD & _)]; [cbn; now rewrite app_nil_r|].
    rewrite deliveries_app, HD. cbn. now rewrite app_nil_r, <- app_assoc.
Qed.
(** A datagram socket gives its user the datagrams that have arrived, in order, none twice, each whole if it is not larger than packet_size and cut to it otherwise; only
    empty ones cannot be told from an error. *)
Theorem receive_datagrams s p : reaches s -> protocol s = Udp -> constant_packet p (log s) -> exists k, incoming s = skipn k (arrivals (log s)) /\
  filter nonempty (deliveries (log s)) = filter nonempty (map (firstn p) (firstn k (arrivals (log s)))).
Proof.
  induction 1 as [s (E1 & E2 & E3 & E4 & E5 & E6 & E7 & E8)|s s' HR IH _ H]; intros HP HC; [rewrite E5, E8; now exists 0|].
  destruct (step_io _ _ (reaches_inv _ HR) H) as (l & EL & EP & HIO). rewrite HP in EP. symmetry in EP. rewrite EL in *.
  assert (HC' : constant_packet p (log s)) by (intros n HN; apply HC, in_or_app; now left). destruct (IH EP HC') as (k0 & EI & EF).
  assert (EK : exists k, k <= length (arrivals (log s)) /\ incoming s = skipn k (arrivals (log s)) /\ filter nonempty (deliveries (log s)) = filter nonempty (map (firstn p) (firstn k (arrivals (log s))))).
  { destruct (Nat.le_ge_cases k0 (length (arrivals (log s)))) as [L|L]; [eauto|]. exists (length (arrivals (log s))). split; [lia|]. rewrite EI, EF. rewrite skipn_all, skipn_all2, firstn_all, firstn_all2 by assumption. now split. }
  clear k0 EI EF. destruct EK as (k & LK & EI & EF). rewrite arrivals_app, deliveries_app, !filter_app, EF. destruct HIO as [((Q1 & Q2) & ->)|[(b & -> & ->)|(a & bs & bl & rest & ER & -> & Q1 & HD)]].
  - exists k. rewrite Q1, Q2. cbn. now rewrite !app_nil_r.
  - exists k. cbn. rewrite EI, skipn_app, firstn_app, app_nil_r. replace (k - length (arrivals (log s))) with 0 by lia. cbn. now rewrite app_nil_r.
  - assert (EPK : packet_size s = p). { rewrite (i_packet _ _ (reaches_inv _ HR)). destruct (reaches_config s HR) as (n & l' & E). destruct (packet_constant p (log s ++ [EClosed])) with (a := log s) (e := EClosed) (b := @nil event) as [X|(_ & X)]; [now destruct (log s)|intros q HQ; apply in_app_or in HQ as [HQ|[HQ|[]]]; [now apply HC'|discriminate HQ]|reflexivity|assumption|].
      elim X. exists n. rewrite E. now left. }
    rewrite EP, EPK in ER. apply recv_udp in ER. rewrite Q1, app_nil_r.
    assert (ED : filter nonempty (deliveries l) = filter nonempty [bs]) by (destruct HD as [(-> & ->)|(i & c & -> & HD & _)]; [reflexivity|rewrite deliveries_app, HD; reflexivity]). rewrite ED.
    destruct ER as [(-> & ->)|(d & EI' & ->)]; [exists k; cbn; now rewrite app_nil_r|]. rewrite EI in EI'. exists (S k).
    assert (HX : forall (A : list (list Z)) n y z, skipn n A = y :: z -> skipn (S n) A = z /\ firstn (S n) A = firstn n A ++ [y]).
    { clear. induction A as [|u A IH]; intros n y z E; [destruct n; discriminate E|]. destruct n; [cbn in E; injection E as -> ->; now split|]. cbn [skipn] in E. destruct (IH _ _ _ E) as (I1 & I2). split; [exact I1|]. change (firstn (S (S n)) (u :: A)) with (u :: firstn (S n) A). now rewrite I2. }
    destruct (HX _ _ _ _ EI') as (X1 & X2). rewrite X1, X2, map_app, filter_app. now split.
Qed.
(** A receive completes at most once, with at most packet_size bytes. *)
Theorem receive_once s : reaches s -> NoDup (received_ids (log s)).
Proof.
  intros HR. apply reaches_inv, i_ok in HR. revert HR. generalize (protocol s), (log s). intros pr l. induction l as [|e l IH] using rev_ind; intros HL; [constructor|]. pose proof (HL l e [] eq_refl) as HE. apply ok_prefix in HL. specialize (IH HL). rewrite recvd_app.
  destruct e as [j y n|j c|j n|j y|b|j b|j st|j st| |n]; cbn [received_ids flat_map app]; rewrite ?app_nil_r; try assumption. cbn [ok_event] in HE. destruct HE as (HE & _).
  apply NoDup_Add with (a := j) (l := received_ids l); [|now split]. pose proof (Add_app j (received_ids l) []) as A. now rewrite app_nil_r in A.
Qed.
Lemma received_closed s : reaches s -> forall a i b c, log s = a ++ EReceived i b :: c -> In EClosed a -> b = [].
Proof.
  induction 1 as [s (E1 & E2 & E3 & E4 & E5 & E6 & E7 & E8)|s s' HR IH HU H]; intros a i b c E HC.
  - rewrite E8 in E. destruct a as [|x a]; [discriminate E|]. injection E as <- E. destruct a; discriminate E.
  - destruct (step_io _ _ (reaches_inv _ HR) H) as (l & EL & EP & HIO). rewrite EL in E.
    assert (HS : (exists c', log s = a ++ EReceived i b :: c') \/ exists a', a = log s ++ a' /\ l = a' ++ EReceived i b :: c).
    { clear -E. revert E. generalize (log s) as k. intros k. revert k. induction a as [|x a IH]; intros k E.
      - destruct k as [|y k]; [right; exists []; now split|]. injection E as -> E. left. now exists k.
      - destruct k as [|y k]; [right; exists (x :: a); now split|]. injection E as -> E. destruct (IH k E) as [(c' & ->)|(a' & -> & ->)]; [left; now exists c'|right; now exists a']. }
    destruct HS as [(c' & ES)|(a' & -> & ->)]; [now apply IH with a i c'|]. destruct HIO as [((_ & Q2) & _)|[(b' & EB & _)|(an & bs & bl & rest & ER & _ & Q1 & HD)]].
    + rewrite deliveries_app in Q2. apply app_eq_nil in Q2 as (_ & Q2). discriminate Q2.
    + destruct a' as [|x [|y a']]; discriminate EB.
    + destruct HD as [(HD & _)|(j & c0 & EC & HD & HCL)]; [rewrite deliveries_app in HD; apply app_eq_nil in HD as (_ & HD); discriminate HD|].
      assert (EB : b = bs /\ a' = c0).
      { destruct c as [|y c] using rev_ind; [|clear IHc]. { apply app_inj_tail in EC as (-> & EC). now injection EC as -> ->. }
        change (EReceived i b :: c ++ [y]) with ((EReceived i b :: c) ++ [y]) in EC. rewrite app_assoc in EC. apply app_inj_tail in EC as (EC & _). rewrite <- EC, deliveries_app in HD. apply app_eq_nil in HD as (_ & HD). discriminate HD. }
      destruct EB as (-> & ->). apply in_app_or in HC as [HC|HC].
      * assert (EO : is_open s = false) by (destruct (is_open s) eqn:EO; [|reflexivity]; apply (i_open _ _ (reaches_inv _ HR)) in EO; contradiction). rewrite EO in ER. now apply recv_closed in ER.
      * now apply HCL.
Qed.
(** An empty result means that the socket is closed (by an error, the end of the stream, or an empty datagram), and only
    then; otherwise there are at most packet_size bytes. *)
Theorem receive_reports s a i b c : reaches s -> log s = a ++ EReceived i b :: c -> (exists x, In (EReceive i x) a) /\ (b = [] <-> In EClosed a) /\ length b <= packet_after a.
Proof.
  intros HR E. destruct (i_ok _ _ (reaches_inv _ HR) _ _ _ E) as (_ & H1 & H2 & H3). split; [assumption|]. split; [|assumption]. split; [assumption|]. now apply (received_closed s HR a i b c).
Qed.
(** receive_async is not forgotten. *)
Theorem receive_not_lost s i : reaches s -> is_open s = true -> service_alive s = true -> In (EReceive i true) (log s) ->
  In i (received_ids (log s)) \/ exists b, In (RReceive i b) (read_queue s).
Proof.
  intros HR HO HS HI. destruct (i_receives _ _ (reaches_inv _ HR) i HI (fun f => f)) as [H|[H|[H|H]]]; [now left| |congruence..]. right.
  apply in_map_iff in H as ((j & b) & EW & HW). cbn [rid] in EW. subst j. eauto.
Qed.

(** From one end of a connection to the other: when what arrives at the receiver is a prefix of what the sender's operating system has taken, the receiver's user gets a
    prefix of the messages, one after the other, if each send was called after the previous one had reported all its bytes. *)
Theorem end_to_end s r pending : reaches s -> reaches r -> protocol r = Tcp ->
  wire (log s) = concat (arrivals (log r)) ++ pending ->
  no_overlap (log s) -> (forall i m n, In (i, m) (sends (log s)) -> In (ESent i n) (log s) -> n = length m) ->
  exists rest, concat (map snd (sends (log s))) = concat (deliveries (log r)) ++ rest.
Proof.
  intros HS HR HP HW HO HF. destruct (stream_complete s HS HO HF) as (rest & E & _). rewrite E, HW, (receive_stream r HR HP). exists (concat (incoming r) ++ pending ++ rest). now rewrite <- !app_assoc.
Qed.

(** ** C45: connecting and closing *)
(** The callback of connect_async is invoked at most once, only if connect_async had returned Connecting, with Connected if the
    socket is open and with Disconnected if it was closed. *)
Theorem connect_reports s a i st b : reaches s -> log s = a ++ EFinished i st :: b -> In (EConnect i Connecting) a /\ ~ In i (finished_ids a) /\
  ((st = Connected /\ ~ In EClosed a) \/ (st = Disconnected /\ In EClosed a)).
Proof. intros HR E. destruct (i_ok _ _ (reaches_inv _ HR) _ _ _ E) as (H1 & H2 & H3). auto. Qed.
Theorem connect_once s : reaches s -> NoDup (finished_ids (log s)).
Proof.
  intros HR. apply reaches_inv, i_ok in HR. revert HR. generalize (protocol s), (log s). intros pr l. induction l as [|e l IH] using rev_ind; intros HL; [constructor|]. pose proof (HL l e [] eq_refl) as HE. apply ok_prefix in HL. specialize (IH HL). rewrite fin_app.
  destruct e as [j y n|j c|j n|j y|b|j b|j st|j st| |n]; cbn [finished_ids flat_map app]; rewrite ?app_nil_r; try assumption. cbn [ok_event] in HE. destruct HE as (HE & _).
  apply NoDup_Add with (a := j) (l := finished_ids l); [|now split]. pose proof (Add_app j (finished_ids l) []) as A. now rewrite app_nil_r in A.
Qed.
(** A connect that returns Disconnected has closed the socket; no other one is possible on a closed socket. *)
Theorem connect_returns s a i st b : reaches s -> log s = a ++ EConnect i st :: b -> (st = Disconnected <-> In EClosed a).
Proof. intros HR E. exact (proj2 (i_ok _ _ (reaches_inv _ HR) _ _ _ E)). Qed.
(** A socket is closed once and stays closed: nothing is sent, and nothing but empty results are delivered afterwards. *)
Theorem closed_for_good s a b : reaches s -> log s = a ++ EClosed :: b -> is_open s = false /\ ~ In EClosed a /\ ~ In EClosed b /\ datagrams b = [] /\ Forall (fun d => d = []) (deliveries b).
Proof.
  intros HR E. pose proof (i_ok _ _ (reaches_inv _ HR)) as HL. split; [|split; [exact (HL _ _ _ E)|]].
  - destruct (is_open s) eqn:EO; [|reflexivity]. apply (i_open _ _ (reaches_inv _ HR)) in EO. elim EO. rewrite E. apply in_or_app. right. now left.
  - assert (HN : forall e, In e b -> match e with ETook _ _ | EClosed => False | EReceived _ d => d = [] | _ => True end).
    { intros e HE. apply in_split in HE as (b1 & b2 & ->). assert (EE : log s = (a ++ EClosed :: b1) ++ e :: b2) by (rewrite E, <- app_assoc; reflexivity).
      assert (HC : In EClosed (a ++ EClosed :: b1)) by (apply in_or_app; right; now left). specialize (HL _ _ _ EE). destruct e; try exact I; cbn [ok_event] in HL; [now destruct HL|now apply (received_closed s HR _ _ _ _ EE)|contradiction]. }
    split; [intros HI; exact (HN _ HI)|]. clear HL E. induction b as [|e b IH]; [split; [reflexivity|constructor]|]. destruct IH as (I1 & I2); [intros x HX; apply HN; now right|]. specialize (HN e (or_introl eq_refl)).
    destruct e; cbn [datagrams deliveries flat_map app] in *; try (now split); try easy. split; [assumption|]. now constructor.
Qed.
(** Undefined behaviour (of the service's ::select) follows only from calling send_async or receive_async on a closed socket. *)
Theorem socket_defined s : reaches s -> undefined s = true -> exists a e, log s = a ++ [e] /\ In EClosed a /\ exists i, (exists m, e = ESend i true m) \/ e = EReceive i true.
Proof.
  intros HR HU. destruct HR as [s (E1 & E2 & E3 & E4 & E5 & E6 & E7 & E8)|s s' HR HD H]; [congruence|].
  assert (HI := reaches_inv _ HR). assert (HC : undefined (close s) = undefined s) by (unfold close; now destruct (is_open s)).
  destruct H as [s m a s' H|s m H|s i m b t q a s' H0 H|s a s' H|s H|s i r q a s' H0 H|s st s' H0 H|s st s' H0 H1 H|s i q e s' st H0 H|s e s' st H0 H|s|s H|s b|s n|s].
  2:{ unfold send_async in *. cbn [is_open with_log numbered] in *. destruct (is_open s) eqn:EO; [cbn in HU; congruence|]. exists (log s), (ESend (next_op s) true m). split; [reflexivity|]. split; [now apply (not_open [])|]. eauto. }
  4:{ unfold receive_async in *. cbn [is_open with_log numbered] in *. destruct (is_open s) eqn:EO; [cbn in HU; congruence|]. exists (log s), (EReceive (next_op s) true). split; [reflexivity|]. split; [now apply (not_open [])|]. eauto. }
  all: exfalso.
  all: assert (HX : forall x, undefined (close x) = undefined x) by (intros x; unfold close; now destruct (is_open x)).
  - unfold send in H. destruct (send_loop _ _ _ a m) as [[[k bl] cs]|]; [|discriminate H]. injection H as <-. cbn [undefined with_log] in HU. destruct (k =? 0); rewrite ?HX in HU; cbn in HU; congruence.
  - unfold ready_to_send in H. destruct (send_loop _ _ _ a m) as [[[k bl] cs]|]; [|discriminate H]. destruct (k =? length m); [|destruct bl]; injection H as <-; cbn [undefined with_log] in HU; rewrite ?HX in HU; cbn in HU; congruence.
  - unfold receive in H. destruct (recv_model _ _ _ a _) as [[[bs bl] rest]|]; [|discriminate H]. injection H as <-. cbn [undefined with_log] in HU. destruct (length bs =? 0); rewrite ?HX in HU; cbn in HU; congruence.
  - unfold ready_to_receive in H. destruct (recv_model _ _ _ a _) as [[[bs bl] rest]|]; [|discriminate H]. destruct bs; [destruct bl|]; injection H as <-; cbn [undefined with_log] in HU; rewrite ?HX in HU; cbn in HU; congruence.
  - unfold connect in H. destruct (match st with Disconnected => true | _ => is_open (numbered s) end); [|discriminate H]. injection H as <-. cbn [undefined with_log with_conn] in HU. destruct st; rewrite ?HX in HU; cbn in HU; congruence.
  - unfold connect_async, connect in H. destruct (match st with Disconnected => true | _ => is_open (numbered s) end); [|discriminate H]. injection H as <-. destruct st; cbn [undefined with_log with_write with_conn] in HU; rewrite ?HX in HU; cbn in HU; congruence.
  - unfold finish_connect in H. destruct (_ && _); injection H as <- <-; cbn [undefined with_log with_conn] in HU; rewrite ?HX in HU; cbn in HU; congruence.
  - unfold finish_connect in H. destruct (_ && _); injection H as <- <-; cbn [undefined with_log with_conn] in HU; rewrite ?HX in HU; cbn in HU; congruence.
  - congruence.
  - cbn in HU. congruence.
  - cbn in HU. congruence.
  - cbn in HU. congruence.
  - cbn in HU. congruence.
Qed.

(** ** Examples and refutations *)
Lemma go s s' (P : Prop) : reaches s -> undefined s = false -> step s s' -> (reaches s' -> P) -> P.
Proof. intros R U H K. exact (K (reaches_step s s' R U H)). Qed.
Tactic Notation "next" ident(R) uconstr(c) := eapply (go _ _ _ R); [reflexivity|eapply c; first [reflexivity|easy]|]; clear R; intro R; cbv in R.
Definition fresh (p : proto) (packet : nat) : state := State p packet true Disconnected [] [] [] true false 0 [EConfig packet].
Lemma fresh_reaches p k : reaches (fresh p k).
Proof. apply reaches_initial. repeat split. now left. Qed.
(** The bytes of two overlapping sends are mixed although both report complete success: "the messages arrive in the order
    of the send_async calls, one after the other" is false without the hypothesis of non-overlapping sends. *)
Theorem async_sends_refuted : exists s, reaches s /\ protocol s = Tcp /\ is_open s = true /\ sends (log s) = [(0, [1; 2]%Z); (1, [3]%Z)] /\
  (forall i m, In (i, m) (sends (log s)) -> In (ESent i (length m)) (log s)) /\ wire (log s) = [1; 3; 2]%Z /\
  forall ms, Permutation ms (map snd (sends (log s))) -> wire (log s) <> concat ms.
Proof.
  pose proof (fresh_reaches Tcp 4096) as R. unfold fresh in R.
  assert (HX : forall s0, reaches s0 -> s0 = fresh Tcp 4096 -> exists s, reaches s /\ protocol s = Tcp /\ is_open s = true /\ log s = [EConfig 4096; ESend 0 true [1; 2]%Z; ESend 1 true [3]%Z; ETook 0 [1]%Z; ETook 1 [3]%Z; ESent 1 1; ETook 0 [2]%Z; ESent 0 2]).
  { clear R. intros s0 R ->. generalize dependent 4096. intros pk R. unfold fresh in R.
    next R (SSendAsync _ [1; 2]%Z). next R (SSendAsync _ [3]%Z). next R (SWritable _ _ _ _ _ _ [Took 1; Refused true]). next R (SWritable _ _ _ _ _ _ [Took 1]). next R (SWritable _ _ _ _ _ _ [Took 1]).
    eexists. split; [exact R|]. repeat split. }
  destruct (HX _ R eq_refl) as (s & HR & HP & HO & HL). exists s. split; [assumption|]. split; [assumption|]. split; [assumption|]. rewrite HL. clear. split; [reflexivity|]. split; [|split; [reflexivity|]].
  - intros i m [H|[H|[]]]; injection H as <- <-; cbn; intuition.
  - intros ms HP. cbn in HP. destruct ms as [|m0 [|m1 [|m2 ms]]]; try (apply Permutation_length in HP; discriminate HP).
    assert (H0 : In m0 [[1; 2]; [3]]%Z) by (eapply Permutation_in; [exact HP|now left]). assert (H1 : In m1 [[1; 2]; [3]]%Z) by (eapply Permutation_in; [exact HP|right; now left]).
    destruct H0 as [<-|[<-|[]]], H1 as [<-|[<-|[]]]; cbn; discriminate.
Qed.
(** is_connected() does not say that the socket can be used: it is still true after close(). *)
Theorem is_connected_refuted : exists s, reaches s /\ connected_state s = Connected /\ is_open s = false.
Proof.
  pose proof (fresh_reaches Tcp 7) as R. unfold fresh in R. next R (SConnect _ Connected). next R SClose. eexists. split; [exact R|]. split; reflexivity.
Qed.
(** send_async on a closed socket leads to undefined behaviour. *)
Theorem async_after_close_refuted : exists s, reaches s /\ undefined s = true.
Proof.
  pose proof (fresh_reaches Tcp 7) as R. unfold fresh in R. next R SClose. next R (SSendAsync _ [1]%Z). eexists. split; [exact R|]. reflexivity.
Qed.
(** An empty datagram, a message of no bytes given to send, or a packet_size of 0 closes the socket. *)
Theorem empty_datagram_refuted : exists s, reaches s /\ protocol s = Udp /\ is_open s = false /\ log s = [EConfig 7; EArrived []; EReceive 0 false; EClosed; EReceived 0 []].
Proof.
  pose proof (fresh_reaches Udp 7) as R. unfold fresh in R. next R (SArrive _ []). next R (SReceive _ (Got 0)). eexists. split; [exact R|]. repeat split.
Qed.
Theorem empty_send_refuted : exists s, reaches s /\ is_open s = false /\ log s = [EConfig 7; ESend 0 false []; EClosed; ESent 0 0].
Proof.
  pose proof (fresh_reaches Tcp 7) as R. unfold fresh in R. next R (SSend _ [] []). eexists. split; [exact R|]. repeat split.
Qed.
(** A connection is made, a message goes out in two parts, another one arrives in two parts and is received in three. *)
Example socket_run : exists s, reaches s /\ protocol s = Tcp /\ is_open s = true /\ no_overlap (log s) /\ sends (log s) = [(1, [1; 2; 3]%Z)] /\ wire (log s) = [1; 2; 3]%Z /\ concat (arrivals (log s)) = [4; 5; 6; 7; 8]%Z /\ deliveries (log s) = [[4; 5]; [6; 7]; [8]]%Z /\
  In (EFinished 0 Connected) (log s) /\ In (ESent 1 3) (log s).
Proof.
  pose proof (fresh_reaches Tcp 2) as R. unfold fresh in R. next R (SConnectAsync _ Connecting). next R (SConnectable _ _ _ true). next R (SSendAsync _ [1; 2; 3]%Z). next R (SWritable _ _ _ _ _ _ [Took 1; Refused true]).
  next R SReceiveAsync. next R (SArrive _ [4; 5; 6]%Z). next R (SWritable _ _ _ _ _ _ [Took 2]). next R (SReadable _ _ _ _ (Got 2)). next R (SArrive _ [7; 8]%Z). next R (SReceive _ (Got 2)). next R (SReceive _ (Got 1)).
  eexists. split; [exact R|]. split; [reflexivity|]. split; [reflexivity|]. split; [|repeat split; cbn; intuition].
  intros a i x m b j y n E HI. assert (HS : sends (a ++ ESend i x m :: b) = [(1, [1; 2; 3]%Z)]) by (rewrite <- E; reflexivity). rewrite sends_app in HS. cbn [sends flat_map app] in HS. fold (sends b) in HS.
  destruct (sends a) as [|p q] eqn:EA; [|cbn in HS; injection HS as _ HS; destruct q; discriminate HS].
  assert (HJ : In (j, n) (sends a)) by (apply sends_in; eauto). rewrite EA in HJ. elim HJ.
Qed.
(** A datagram socket cuts a message of five bytes into three datagrams; one that arrives with three bytes is cut to two. *)
Example udp_run : exists s, reaches s /\ protocol s = Udp /\ constant_packet 2 (log s) /\ In (ESent 0 5) (log s) /\ datagrams_of 0 (log s) = [[1; 2]; [3; 4]; [5]]%Z /\ arrivals (log s) = [[6]; [7; 8; 9]; [10]]%Z /\ deliveries (log s) = [[6]; [7; 8]]%Z.
Proof.
  pose proof (fresh_reaches Udp 2) as R. unfold fresh in R. next R (SSendAsync _ [1; 2; 3; 4; 5]%Z). next R (SWritable _ _ _ _ _ _ [Took 2; Took 2; Took 1]). next R (SArrive _ [6]%Z). next R (SArrive _ [7; 8; 9]%Z). next R (SReceive _ (Got 1)). next R SReceiveAsync. next R (SArrive _ [10]%Z). next R (SReadable _ _ _ _ (Got 2)).
  eexists. split; [exact R|]. repeat split; cbn; intuition. intros n HN. cbn in HN. intuition congruence.
Qed.
