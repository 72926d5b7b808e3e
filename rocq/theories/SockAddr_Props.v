(** C77: sockets pass addresses to and from the operating system unchanged. *)
From Verif Require Import Common Bits BitStream_Model BitStream_Spec Endian_Proofs Endian_Props Lexer_Model Lexer_Spec Lexer_Props
  Format_Model Format_Spec Format_Proofs Format_Props Strings_Model Strings_Spec Net_Model Net_Spec Net_Proofs Net6_Proofs Net_Props
  SockAddr_Model SockAddr_Spec.
Open Scope Z_scope.

(** * Integers in memory *)
Lemma store_load hb n l : bytes n l -> mem_store hb n (mem_load hb l) = l.
Proof.
  intros (L & F). unfold mem_store, mem_load. destruct hb.
  - rewrite <- (rev_length l) in L. rewrite <- L, le_bytes_value by (apply Forall_rev; exact F). apply rev_involutive.
  - now rewrite <- L, le_bytes_value by assumption.
Qed.
Lemma load_store hb n v : 0 <= v < 2 ^ (8 * Z.of_nat n) -> mem_load hb (mem_store hb n v) = v.
Proof. intros H. unfold mem_store, mem_load. destruct hb; rewrite ?rev_involutive; now apply le_value_bytes. Qed.
Lemma load_range hb n l : bytes n l -> 0 <= mem_load hb l < 2 ^ (8 * Z.of_nat n).
Proof.
  intros (L & F). unfold mem_load. destruct hb; [|rewrite <- L; now apply le_value_bounds].
  rewrite <- L, <- (rev_length l). apply le_value_bounds, Forall_rev, F.
Qed.
Lemma store_length hb n v : length (mem_store hb n v) = n.
Proof. unfold mem_store. destruct hb; rewrite ?rev_length; apply le_bytes_length. Qed.
Lemma store4 hb v : 0 <= v < 2 ^ 32 -> mem_store hb 4 v = in_memory hb v.
Proof.
  intros H. assert (E : le_bytes 4 v = rev (octets v)).
  { cbn [le_bytes octets rev app]. change (2 ^ 32) with 4294967296 in H. change (2 ^ 24) with 16777216. change (2 ^ 16) with 65536. change (2 ^ 8) with 256. rewrite !Z.div_div by lia. change (256 * 256) with 65536. change (256 * (65536)) with 16777216. change (65536 * 256) with 16777216. rewrite (Z.mod_small (v / 16777216)) by dlia. reflexivity. }
  unfold mem_store, in_memory. rewrite E. destruct hb; [apply rev_involutive|reflexivity].
Qed.
Lemma port_bytes hb p : a_port p -> mem_store hb 2 (htons hb p) = network_port p.
Proof.
  intros H. unfold htons. rewrite mem_store_big by (unfold swap_size; auto). cbn [le_bytes rev app]. unfold network_port, a_port in *. change (2 ^ 16) with 65536 in H. f_equal. dlia.
Qed.
Lemma port_loaded hb p : a_port p -> ntohs hb (mem_load hb (network_port p)) = p.
Proof.
  intros H. unfold ntohs. rewrite mem_load_big; [|unfold swap_size; auto|reflexivity|].
  - unfold network_port. cbn [rev app le_value]. dlia.
  - unfold network_port, a_port in *. change (2 ^ 16) with 65536 in H. constructor; [dlia|]. constructor; [dlia|]. constructor.
Qed.
Lemma family4 hb : mem_store hb 2 af_inet = family hb 2.
Proof. now destruct hb. Qed.
Lemma family6 hb : mem_store hb 2 af_inet6 = family hb 10.
Proof. now destruct hb. Qed.

(** * What the operating system is told *)
(** An IPv4 endpoint becomes the socket address with the octets of the address, in the order they are written, and the port. *)
Theorem told4 : forall hb a p, 0 <= a < 2 ^ 32 -> a_port p -> to_address4 hb (a, p) = wire4 hb (octets (host_order hb a)) p (repeat 0 8).
Proof.
  intros hb a p HA HP. unfold to_address4, bytes_in, endpoint_to_address4, wire4. cbn [sin_family sin_port s_addr sin_zero fst snd].
  rewrite family4, port_bytes by assumption. rewrite store4 by exact HA. now rewrite ipv4_network_order.
Qed.
(** An IPv6 endpoint becomes the socket address with the bytes of the address and the port; flow information and scope are 0. *)
Theorem told6 : forall hb a p, a_port p -> to_address6 hb (a, p) = wire6 hb (repeat 0 4) a p (repeat 0 4).
Proof.
  intros hb a p HP. unfold to_address6, bytes_in6, endpoint_to_address6, wire6. cbn [sin6_family sin6_port sin6_flowinfo s6_addr sin6_scope_id fst snd].
  rewrite family6, port_bytes by assumption. destruct hb; reflexivity.
Qed.
Lemma dotted_range s h : dotted s h -> 0 <= h < 2 ^ 32.
Proof.
  intros (ps & _ & D & E). apply (inet_small _ _ E). rewrite Forall_map. eapply Forall_impl; [|exact D]. intros p [_ Hd].
  destruct (number_bound 10 p ltac:(lia)) with (a := 0) as [H0 _]; [|lia|exact H0].
  eapply Forall_impl; [|exact Hd]. intros c Hc. unfold ascii_digit in Hc. unfold digit_value. destruct (Z.leb_spec c 57); lia.
Qed.
Lemma number_small sp p : decimal_number sp -> number 10 sp = p -> p < 2 ^ 16 -> port_text sp p.
Proof.
  intros HD E HP. split; [exact HD|]. split; [|exact HP]. rewrite E. symmetry. apply Z.mod_small. split; [|change (2 ^ 16) with 65536 in HP; change (2 ^ 64) with 18446744073709551616; lia].
  rewrite <- E. destruct HD as [_ Hd]. destruct (number_bound 10 sp ltac:(lia)) with (a := 0) as [H0 _]; [|lia|exact H0].
  eapply Forall_impl; [|exact Hd]. intros c Hc. unfold ascii_digit in Hc. unfold digit_value. destruct (Z.leb_spec c 57); lia.
Qed.
Lemma number_port sp : decimal_number sp -> number 10 sp < 2 ^ 16 -> a_port (number 10 sp).
Proof.
  intros [_ Hd] H. split; [|exact H]. destruct (number_bound 10 sp ltac:(lia)) with (a := 0) as [H0 _]; [|lia|exact H0].
  eapply Forall_impl; [|exact Hd]. intros c Hc. unfold ascii_digit in Hc. unfold digit_value. destruct (Z.leb_spec c 57); lia.
Qed.
Lemma address_told hb h p : 0 <= h < 2 ^ 32 -> a_port p -> to_address4 hb (to_big_endian hb 4 h, p) = wire4 hb (octets h) p (repeat 0 8).
Proof.
  intros HH HP. destruct (memory_order hb h HH) as (EM & HR). rewrite told4 by assumption. f_equal. f_equal. now apply ipv4_host_order.
Qed.
(** From the text: what is bound or connected to is the address and the port that the text of the endpoint shows. *)
Theorem told_text4 : forall t hb sa h sp, In t ctypes -> text t (sa ++ [58] ++ sp) -> dotted sa h -> numbers_fit 10 ascii_digit sa ->
  decimal_number sp -> number 10 sp < 2 ^ 16 ->
  exists e, endpoint4_from_string hb (sa ++ [58] ++ sp) = Ok (Some e) /\ to_address4 hb e = wire4 hb (octets h) (number 10 sp) (repeat 0 8).
Proof.
  intros t hb sa h sp Ht HT HD HF HDN HPS. assert (HT' := HT). apply text_app in HT'. destruct HT' as (HTa & _).
  pose proof (dotted_range sa h HD) as HH. destruct (memory_order hb h HH) as (EM & HR).
  assert (EA : ipv4_from_string hb sa = Ok (Some (to_big_endian hb 4 h))) by (apply (ipv4_parse_inet_aton_partial t hb sa _ Ht HTa HR HF); eauto).
  destruct (endpoint4_parse_exact t hb _ Ht HT) as (o & E & HO). exists (to_big_endian hb 4 h, number 10 sp). split.
  - rewrite E. f_equal. apply HO. exists sa, sp. split; [reflexivity|]. split; [exact EA|]. now apply number_small.
  - apply address_told; [exact HH|now apply number_port].
Qed.
Theorem told_text6 : forall t hb sa a sp, In t ctypes -> text t ([91] ++ sa ++ [93; 58] ++ sp) -> rfc4291 sa a ->
  decimal_number sp -> number 10 sp < 2 ^ 16 ->
  exists e, endpoint6_from_string t ([91] ++ sa ++ [93; 58] ++ sp) = Ok (Some e) /\ to_address6 hb e = wire6 hb (repeat 0 4) a (number 10 sp) (repeat 0 4).
Proof.
  intros t hb sa a sp Ht HT HR HDN HPS. destruct (endpoint6_parse_exact t _ Ht HT) as (o & E & HO). exists (a, number 10 sp). split.
  - rewrite E. f_equal. apply HO. exists sa, sp. split; [reflexivity|]. split; [now apply ipv6_parse_rfc_partial|]. now apply number_small.
  - apply told6. now apply number_port.
Qed.

(** * What the operating system reports *)
Lemma family_length hb n : length (family hb n) = 2%nat.
Proof. now destruct hb. Qed.
Lemma slice_app x y z n m : length x = n -> length y = m -> slice (x ++ y ++ z) n m = y.
Proof.
  intros <- <-. unfold slice. rewrite skipn_app, skipn_all, Nat.sub_diag. cbn [app skipn]. rewrite firstn_app, firstn_all, Nat.sub_diag. cbn. now rewrite app_nil_r.
Qed.
(** The endpoint of a socket, of a peer or a sender has the octets and the port of the socket address. *)
Theorem reported4 : forall hb ip p unused, bytes 4 ip -> a_port p -> exists a, to_endpoint4 hb (wire4 hb ip p unused) = (a, p) /\
  0 <= a < 2 ^ 32 /\ octets (host_order hb a) = ip /\ address_of4 hb (wire4 hb ip p unused) = a.
Proof.
  intros hb ip p unused HI HP. exists (mem_load hb ip).
  assert (S1 : slice (wire4 hb ip p unused) 2 2 = network_port p) by (apply slice_app; [apply family_length|reflexivity]).
  assert (S2 : slice (wire4 hb ip p unused) 4 4 = ip).
  { unfold wire4. rewrite app_assoc. apply slice_app; [rewrite app_length, family_length; reflexivity|apply HI]. }
  pose proof (load_range hb 4 ip HI) as HR. change (8 * Z.of_nat 4) with 32 in HR.
  unfold to_endpoint4, address_to_endpoint4, address_of4, create_address4, load_in. cbn [s_addr sin_port]. rewrite S1, S2, port_loaded by assumption.
  split; [reflexivity|]. split; [exact HR|]. split; [|reflexivity]. rewrite <- ipv4_network_order by exact HR. unfold network_order. rewrite <- store4 by exact HR. now apply store_load.
Qed.
Theorem reported6 : forall hb flow a p scope, bytes 4 flow -> length a = 16%nat -> a_port p -> to_endpoint6 hb (wire6 hb flow a p scope) = (a, p) /\ address_of6 hb (wire6 hb flow a p scope) = a.
Proof.
  intros hb flow a p scope HF HA HP.
  assert (S1 : slice (wire6 hb flow a p scope) 2 2 = network_port p) by (apply slice_app; [apply family_length|reflexivity]).
  assert (S2 : slice (wire6 hb flow a p scope) 8 16 = a).
  { unfold wire6. rewrite (app_assoc (network_port p)), (app_assoc (family hb 10)). apply slice_app; [rewrite !app_length, family_length, (proj1 HF); reflexivity|exact HA]. }
  unfold to_endpoint6, address_to_endpoint6, address_of6, create_address6, load_in6. cbn [s6_addr sin6_port]. rewrite S1, S2, port_loaded by assumption. split; reflexivity.
Qed.
Lemma octets_of a : 0 <= a < 2 ^ 32 -> bytes 4 (octets a).
Proof. intros H. split; [reflexivity|]. now apply octets_bytes. Qed.
Lemma host_range hb a : 0 <= a < 2 ^ 32 -> 0 <= host_order hb a < 2 ^ 32.
Proof. intros H. unfold host_order. now apply memory_order. Qed.
(** An endpoint survives the way to the operating system and back; different endpoints are different addresses. *)
Theorem there_and_back : forall hb, (forall a p, 0 <= a < 2 ^ 32 -> a_port p -> to_endpoint4 hb (to_address4 hb (a, p)) = (a, p)) /\
  (forall a p, address_bytes a -> a_port p -> to_endpoint6 hb (to_address6 hb (a, p)) = (a, p)).
Proof.
  intros hb. split; intros a p HA HP.
  - rewrite told4 by assumption. destruct (reported4 hb (octets (host_order hb a)) p (repeat 0 8) (octets_of _ (host_range hb a HA)) HP) as (a' & E & HA' & EO & _).
    rewrite E. f_equal. apply octets_inj in EO; [|now apply host_range..]. unfold host_order in EO. destruct hb; [exact EO|]. unfold to_big_endian in EO.
    rewrite <- (endian_swap_involutive_lemma 4 a'), <- (endian_swap_involutive_lemma 4 a) by (try exact HA; try exact HA'; unfold swap_size; auto). now rewrite EO.
  - rewrite told6 by assumption. apply reported6; [split; [reflexivity|repeat constructor; lia]|apply HA|exact HP].
Qed.
(** Sending to the endpoint from which something came: the address it came from, for IPv4. *)
Theorem answered4 : forall hb ip p unused, bytes 4 ip -> a_port p -> to_address4 hb (to_endpoint4 hb (wire4 hb ip p unused)) = wire4 hb ip p (repeat 0 8).
Proof.
  intros hb ip p unused HI HP. destruct (reported4 hb ip p unused HI HP) as (a & E & HA & EO & _). rewrite E, told4 by assumption. now rewrite EO.
Qed.
(** For IPv6 exactly the addresses without flow information and scope. *)
Theorem answered6 : forall hb flow a p scope, bytes 4 flow -> length a = 16%nat -> a_port p -> length scope = 4%nat ->
  to_address6 hb (to_endpoint6 hb (wire6 hb flow a p scope)) = wire6 hb (repeat 0 4) a p (repeat 0 4) /\
  (to_address6 hb (to_endpoint6 hb (wire6 hb flow a p scope)) = wire6 hb flow a p scope <-> flow = repeat 0 4 /\ scope = repeat 0 4).
Proof.
  intros hb flow a p scope HF HA HP HS. rewrite (proj1 (reported6 hb flow a p scope HF HA HP)), told6 by assumption. split; [reflexivity|]. split.
  - unfold wire6. intros E. apply app_inv_head in E. apply app_inv_head in E. destruct HF as (LF & _).
    assert (EF : repeat 0 4 = flow).
    { apply (f_equal (firstn 4)) in E. change (firstn 4 (repeat 0 4 ++ a ++ repeat 0 4)) with (repeat 0 4) in E. rewrite <- LF in E at 2. rewrite firstn_app, firstn_all, Nat.sub_diag, app_nil_r in E. exact E. }
    subst flow. apply app_inv_head in E. apply app_inv_head in E. auto.
  - intros [-> ->]. reflexivity.
Qed.
(** The link-local peer fe80::1 on the interface with index 2 is not answered there. *)
Theorem scope_refuted : exists from, bytes 28 from /\ firstn 2 from = family false 10 /\ to_address6 false (to_endpoint6 false from) <> from.
Proof.
  exists (wire6 false (repeat 0 4) ([254; 128] ++ repeat 0 13 ++ [1]) 80 [2; 0; 0; 0]). split; [split; [reflexivity|apply Forall_forall; intros b HB; vm_compute in HB; intuition lia]|]. split; [reflexivity|]. vm_compute. discriminate.
Qed.

(** * The operations *)
Section Operations.
Context {A : Type}.
Variables (to_address : A * Z -> list Z) (to_endpoint : list Z -> A * Z) (address_of : list Z -> A).
(** bind: the reuse option is set first, exactly if it was asked for; the address is the endpoint's; true if everything succeeded. *)
Theorem bind_exact : forall e mode reuse_ok bind_ok, exists calls ok, bind to_address e mode reuse_ok bind_ok = (calls, ok) /\
  (ok = true <-> bind_ok = true /\ (mode = AllowReuse -> reuse_ok = true)) /\
  (In CReuse calls <-> mode = AllowReuse) /\
  (forall a, In (CBind a) calls <-> a = to_address e /\ (mode = AllowReuse -> reuse_ok = true)) /\
  (forall x y, calls = x ++ CReuse :: y -> x = []) /\ (length calls <= 2)%nat /\
  (forall c, In c calls -> c = CReuse \/ exists a, c = CBind a).
Proof.
  intros e mode reuse_ok bind_ok. destruct mode; cbn [bind]; [|destruct reuse_ok]; (do 2 eexists; split; [reflexivity|]); cbn [In length];
  (split; [intuition congruence|]); (split; [intuition congruence|]);
  (split; [intros a; split; [intros H; decompose [or] H; try discriminate; try contradiction; try (split; [congruence|intros; congruence])|intros (-> & H); try (specialize (H eq_refl); discriminate); auto]|]);
  (split; [intros [|c [|d [|f x]]] y E; try reflexivity; try discriminate; cbn in E; injection E; intros; subst; try discriminate; try (destruct x; discriminate)|]);
  (split; [lia|]); intros c H; decompose [or] H; subst; try contradiction; eauto.
Qed.
(** connect: one call with the endpoint's address; in progress exactly if the operating system says so. *)
Theorem connect_exact : forall e error, fst (connect to_address e error) = [CConnect (to_address e)] /\
  (snd (connect to_address e error) = Connected <-> error = None) /\
  (snd (connect to_address e error) = Connecting <-> error = Some 4 \/ error = Some 115).
Proof.
  intros e error. split; [reflexivity|]. unfold connect, eintr, einprogress. cbn [snd]. destruct error as [n|]; [|split; split; intros; intuition congruence].
  destruct (Z.eqb_spec n 4) as [->|N4]; [cbn; split; split; intros; intuition congruence|]. destruct (Z.eqb_spec n 115) as [->|N115]; cbn; split; split; intros; intuition congruence.
Qed.
Lemma send_loop_shape packet e os : forall fuel message sent, Forall (fun c => exists m, c = CSendTo m (to_address e) /\ (length m <= packet)%nat) (fst (send_loop to_address fuel packet e os message sent)).
Proof.
  induction fuel as [|fuel IH]; intros message sent; [constructor|]. cbn [send_loop]. destruct message as [|b message]; [constructor|].
  set (all := b :: message). assert (L : (length (firstn (Nat.min packet (length all)) all) <= packet)%nat) by (rewrite firstn_length; lia).
  destruct (os all) as [|n]; [constructor; [eauto|constructor]|]. specialize (IH (skipn (S n) all) (sent + S n)%nat).
  destruct (send_loop to_address fuel packet e os (skipn (S n) all) (sent + S n)) as [cs k]. cbn [fst] in *. constructor; eauto.
Qed.
(** send_to: every datagram goes to the endpoint, none is larger than a packet. *)
Theorem send_to_addressed : forall packet e os message c, In c (fst (send_to to_address packet e os message)) ->
  exists m, c = CSendTo m (to_address e) /\ (length m <= packet)%nat.
Proof. intros packet e os message c H. pose proof (send_loop_shape packet e os (S (length message)) message 0) as F. rewrite Forall_forall in F. now apply F. Qed.
Definition messages (cs : list call) : list (list Z) := flat_map (fun c => match c with CSendTo m _ => [m] | _ => [] end) cs.
(** As long as the operating system takes what it is offered, the datagrams are the message, and everything is sent. *)
Theorem send_to_complete : forall packet e os message, (0 < packet)%nat -> (forall rest, os rest = Nat.min packet (length rest)) ->
  concat (messages (fst (send_to to_address packet e os message))) = message /\ snd (send_to to_address packet e os message) = length message.
Proof.
  intros packet e os message HP HO. unfold send_to.
  assert (G : forall fuel message sent, (length message < fuel)%nat -> concat (messages (fst (send_loop to_address fuel packet e os message sent))) = message /\
    snd (send_loop to_address fuel packet e os message sent) = (sent + length message)%nat).
  { induction fuel as [|fuel IH]; intros m sent HF; [lia|]. cbn [send_loop]. destruct m as [|b m]; [split; [reflexivity|cbn; lia]|].
    set (all := b :: m) in *. assert (LA : (0 < length all)%nat) by (cbn; lia). rewrite HO. destruct (Nat.min packet (length all)) as [|n] eqn:EM; [lia|].
    destruct (IH (skipn (S n) all) (sent + S n)%nat) as (E1 & E2); [rewrite skipn_length; lia|].
    destruct (send_loop to_address fuel packet e os (skipn (S n) all) (sent + S n)) as [cs k]. cbn [fst snd] in *. split.
    - cbn [messages flat_map app concat]. fold (messages cs). rewrite E1. apply firstn_skipn.
    - rewrite E2, skipn_length. lia. }
  apply G. lia.
Qed.
(** Whatever the operating system takes each time, even if it stops taking: one datagram is offered after another, the rest of the message at a time, and the bytes taken are counted. *)
Theorem send_to_history : forall packet e os message, exists ds k, send_to to_address packet e os message = (map (fun d => CSendTo d (to_address e)) ds, k) /\ sending packet os message ds k.
Proof.
  intros packet e os message. unfold send_to.
  assert (G : forall fuel m sent, (length m < fuel)%nat -> exists ds k, send_loop to_address fuel packet e os m sent = (map (fun d => CSendTo d (to_address e)) ds, (sent + k)%nat) /\ sending packet os m ds k).
  { induction fuel as [|fuel IH]; intros m sent HF; [lia|]. cbn [send_loop]. destruct m as [|b m]; [exists [], 0%nat; split; [rewrite Nat.add_0_r; reflexivity|constructor]|].
    set (all := b :: m) in *. assert (NE : all <> []) by discriminate.
    assert (EF : firstn (Nat.min packet (length all)) all = firstn packet all) by (rewrite <- firstn_firstn, firstn_all; reflexivity). rewrite EF.
    destruct (os all) as [|n] eqn:EO; [exists [firstn packet all], 0%nat; split; [rewrite Nat.add_0_r; reflexivity|now constructor]|].
    assert (LA : (0 < length all)%nat) by (cbn; lia).
    destruct (IH (skipn (S n) all) (sent + S n)%nat) as (ds & k & E & S1); [rewrite skipn_length; lia|]. rewrite E.
    exists (firstn packet all :: ds), (S n + k)%nat. split; [cbn [map]; f_equal; lia|]. rewrite <- EO. apply taken; [exact NE|rewrite EO; discriminate|now rewrite EO]. }
  destruct (G (S (length message)) message 0%nat) as (ds & k & E & S1); [lia|]. exists ds, k. split; [exact E|exact S1].
Qed.
(** Addresses come from the operating system's answer; where it gives none, nothing is made up. *)
Theorem reported_exact : (forall answer, local_endpoint to_endpoint answer = option_map to_endpoint answer /\ remote_endpoint to_endpoint answer = option_map to_endpoint answer) /\
  (forall client address e, accept to_endpoint (Some (client, address)) e = (Some client, to_endpoint address)) /\ (forall e, accept to_endpoint None e = (None, e)) /\
  (forall b address e, b <> [] -> recv_from to_endpoint (Some (b, address)) e = (b, to_endpoint address)) /\ (forall e, recv_from to_endpoint None e = ([], e)).
Proof. repeat split. intros [|? ?] address e H; [congruence|reflexivity]. Qed.

(** * Host names *)
Variable resolve : list Z -> option (list Z * list (list Z)).
Definition no_nul (s : list Z) : Prop := ~ In 0 s.
Lemma c_str_whole s : no_nul s -> c_str s = s.
Proof.
  unfold no_nul. induction s as [|c s IH]; intros H; [reflexivity|]. cbn [c_str]. destruct (Z.eqb_spec c 0) as [->|]; [elim H; now left|]. f_equal. apply IH. intros I. apply H. now right.
Qed.
(** With a name, the operations act on the first address it is resolved to; if it is not, nothing is asked for and they fail. *)
Theorem by_name : forall name port, no_nul name ->
  (forall first more mode r b, resolve name = Some (first, more) -> bind_name to_address address_of resolve name port mode r b = bind to_address (address_of first, port) mode r b) /\
  (forall first more error, resolve name = Some (first, more) -> connect_name to_address address_of resolve name port error = connect to_address (address_of first, port) error) /\
  (forall first more packet os message, resolve name = Some (first, more) -> send_name to_address address_of resolve packet name port os message = send_to to_address packet (address_of first, port) os message) /\
  (resolve name = None -> (forall mode r b, bind_name to_address address_of resolve name port mode r b = ([], false)) /\
    (forall error, connect_name to_address address_of resolve name port error = ([], Disconnected)) /\
    (forall packet os message, send_name to_address address_of resolve packet name port os message = ([], 0%nat))).
Proof.
  intros name port HN. unfold bind_name, connect_name, send_name, hostname_to_address. rewrite c_str_whole by assumption.
  split; [intros first more mode r b ->; reflexivity|]. split; [intros first more error ->; reflexivity|]. split; [intros first more packet os message ->; reflexivity|].
  intros ->. repeat split.
Qed.
End Operations.
(** A numeric address as a host name is the same as the endpoint, given that getaddrinfo reads the dotted notation. *)
Theorem numeric_name : forall t hb resolve sa h sp mode r b, In t ctypes -> text t (sa ++ [58] ++ sp) -> dotted sa h -> numbers_fit 10 ascii_digit sa ->
  decimal_number sp -> number 10 sp < 2 ^ 16 -> no_nul sa ->
  (exists p unused more, a_port p /\ resolve sa = Some (wire4 hb (octets h) p unused, more)) ->
  exists e, endpoint4_from_string hb (sa ++ [58] ++ sp) = Ok (Some e) /\
    bind_name (to_address4 hb) (address_of4 hb) resolve sa (number 10 sp) mode r b = bind (to_address4 hb) e mode r b.
Proof.
  intros t hb resolve sa h sp mode r b Ht HT HD HF HDN HPS HN (p & unused & more & HP & HR).
  destruct (told_text4 t hb sa h sp Ht HT HD HF HDN HPS) as (e & E & ET). exists e. split; [exact E|].
  rewrite (proj1 (by_name (to_address4 hb) (address_of4 hb) resolve sa (number 10 sp) HN) _ _ mode r b HR).
  destruct (reported4 hb (octets h) p unused (octets_of h (dotted_range sa h HD)) HP) as (a & _ & HA & EO & EA). rewrite EA.
  unfold bind. rewrite ET, told4 by (assumption || now apply number_port). now rewrite EO.
Qed.
(** A name with a NUL in it is not the name that is resolved. *)
Theorem name_cut_refuted : exists resolve name, resolve name = None /\ bind_name (to_address4 false) (address_of4 false) resolve name 80 SingleUse true true = ([CBind (wire4 false [127; 0; 0; 1] 80 (repeat 0 8))], true).
Proof.
  exists (fun n => match n with [97] => Some (wire4 false [127; 0; 0; 1] 0 (repeat 0 8), []) | _ => None end), [97; 0; 98]. split; reflexivity.
Qed.

(** * Examples *)
Example told_example : to_address4 false (16777343, 8080) = [2; 0; 31; 144; 127; 0; 0; 1; 0; 0; 0; 0; 0; 0; 0; 0] /\ to_address4 true (0x7f000001, 8080) = [0; 2; 31; 144; 127; 0; 0; 1; 0; 0; 0; 0; 0; 0; 0; 0] /\
  dotted [49; 48; 46; 55] (10 * 2 ^ 24 + 7) /\ a_port 65535 /\ bytes 4 [1; 2; 3; 255].
Proof.
  split; [reflexivity|]. split; [reflexivity|]. split; [exists [[49; 48]; [55]]; split; [reflexivity|]; split; [repeat constructor; try discriminate; unfold ascii_digit; lia|reflexivity]|].
  split; [split; [lia|reflexivity]|]. split; [reflexivity|repeat constructor; lia].
Qed.
Example sent_example : send_to (to_address4 false) 2 (16777343, 8080) (fun rest => Nat.min 2 (length rest)) [1; 2; 3] =
  ([CSendTo [1; 2] (to_address4 false (16777343, 8080)); CSendTo [3] (to_address4 false (16777343, 8080))], 3%nat).
Proof. reflexivity. Qed.
Example history_example : send_to (to_address4 false) 2 (16777343, 8080) (fun rest => if (length rest <? 2)%nat then 0 else 2)%nat [1; 2; 3] =
  ([CSendTo [1; 2] (to_address4 false (16777343, 8080)); CSendTo [3] (to_address4 false (16777343, 8080))], 2%nat).
Proof. reflexivity. Qed.
Print Assumptions numeric_name.
