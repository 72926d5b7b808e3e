(** Property C50: the path monitor. *)
From Verif Require Import Common Bits Path_Model Path_Spec Path_Proofs.
Open Scope nat_scope.

(** * Reading inotify's bytes *)
Lemma u32_bytes_length big v : length (u32_bytes big v) = 4.
Proof. now destruct big. Qed.
Lemma u32_at_bytes big v r : (0 <= v < 2 ^ 32)%Z -> u32_at big (u32_bytes big v ++ r) = Some v.
Proof.
  intros H. change (2 ^ 32)%Z with 4294967296%Z in H. unfold u32_bytes. destruct big; cbn [rev app u32_at]; f_equal; dlia.
Qed.
Lemma skipn_app_exact {A} n (a b : list A) : length a = n -> skipn n (a ++ b) = b.
Proof. intros <-. rewrite skipn_app, skipn_all, Nat.sub_diag. reflexivity. Qed.
Lemma c_string_exact n k : ~ In 0%Z n -> 0 < k -> c_string (n ++ repeat 0%Z k) = n.
Proof.
  intros H Hk. induction n as [|c n IH]; cbn.
  - destruct k; [lia|reflexivity].
  - destruct (Z.eqb_spec c 0) as [->|Hc]; [exfalso; apply H; now left|]. rewrite IH; [reflexivity|]. intros K. apply H. now right.
Qed.
Lemma signed_wrap w : (- 2 ^ 31 <= w < 2 ^ 31)%Z -> signed 32 (w mod 2 ^ 32) = w.
Proof.
  unfold signed. change (2 ^ 32)%Z with 4294967296%Z. change (2 ^ 31)%Z with 2147483648%Z. change (2 ^ (32 - 1))%Z with 2147483648%Z. intros H.
  rewrite Z.mod_mod by lia. destruct (Z.ltb_spec (w mod 4294967296) 2147483648); dlia.
Qed.
Lemma raw_step big r rest : raw_ok r ->
  exists hd, raw_bytes big r ++ rest = hd /\ u32_at big hd = Some (r_wd r mod 2 ^ 32)%Z /\ u32_at big (skipn 4 hd) = Some (r_mask r) /\
    u32_at big (skipn 12 hd) = Some (Z.of_nat (length (r_name r) + r_pad r)) /\ skipn 16 hd = r_name r ++ repeat 0%Z (r_pad r) ++ rest.
Proof.
  intros ((H1 & H2 & H3 & H4) & _). eexists. split; [reflexivity|]. unfold raw_bytes. rewrite <- !app_assoc.
  assert (HM : (0 <= r_wd r mod 2 ^ 32 < 2 ^ 32)%Z) by (apply Z.mod_pos_bound; reflexivity).
  split; [now apply u32_at_bytes|]. split; [rewrite skipn_app_exact by apply u32_bytes_length; now apply u32_at_bytes|]. split.
  - rewrite !app_assoc. rewrite <- !app_assoc. rewrite (app_assoc (u32_bytes _ _) (u32_bytes _ _)), (app_assoc (_ ++ _) (u32_bytes _ _)).
    rewrite skipn_app_exact by (rewrite !app_length, !u32_bytes_length; reflexivity). apply u32_at_bytes. lia.
  - rewrite (app_assoc (u32_bytes _ _) (u32_bytes _ _)), (app_assoc (_ ++ _) (u32_bytes _ _)), (app_assoc (_ ++ _) (u32_bytes _ _)).
    now rewrite skipn_app_exact by (rewrite !app_length, !u32_bytes_length; reflexivity).
Qed.
(** The events read are those the kernel wrote, whatever their number and the lengths and padding of their names. *)
Theorem events_read : forall big l fuel, Forall raw_ok l -> length (concat (map (raw_bytes big) l)) <= fuel ->
  parse_events fuel big (concat (map (raw_bytes big) l)) = Ok (raw_events l).
Proof.
  intros big l. induction l as [|r l IH]; intros fuel HR HF; [now destruct fuel|]. inversion_clear HR as [|? ? R RL]. cbn [map concat] in *.
  destruct (raw_step big r (concat (map (raw_bytes big) l)) R) as (hd & E & E1 & E2 & E3 & E4). rewrite E in *.
  assert (HL : 16 + length (concat (map (raw_bytes big) l)) <= length hd).
  { rewrite <- E, app_length. unfold raw_bytes. rewrite !app_length, !u32_bytes_length. lia. }
  destruct fuel as [|fuel]; [destruct hd; cbn in *; lia|]. destruct hd as [|b hd]; [cbn in HL; lia|]. cbn [parse_events].
  rewrite E1, E2, E3, E4. rewrite Nat2Z.id.
  assert (L : length (r_name r ++ repeat 0%Z (r_pad r)) = length (r_name r) + r_pad r) by (rewrite app_length, repeat_length; reflexivity).
  destruct (Z.ltb_spec (Z.of_nat (length (r_name r ++ repeat 0%Z (r_pad r) ++ concat (map (raw_bytes big) l)))) (Z.of_nat (length (r_name r) + r_pad r))) as [X|_].
  { rewrite app_assoc, app_length, L in X. lia. }
  rewrite app_assoc. rewrite skipn_app_exact by exact L. rewrite (IH fuel RL) by (cbn [length] in *; lia). cbn [bind].
  replace (firstn (length (r_name r) + r_pad r) ((r_name r ++ repeat 0%Z (r_pad r)) ++ concat (map (raw_bytes big) l))) with (r_name r ++ repeat 0%Z (r_pad r))
    by (rewrite <- L, firstn_app, firstn_all, Nat.sub_diag, app_nil_r; reflexivity).
  destruct R as ((R1 & _) & R2 & R3 & R4). rewrite signed_wrap by exact R1. destruct (r_name r) as [|c n] eqn:EN.
  - rewrite (R4 eq_refl). cbn. rewrite EN. reflexivity.
  - destruct (Z.ltb_spec 0 (Z.of_nat (length (c :: n) + r_pad r))) as [_|X]; [|cbn in X; lia].
    rewrite c_string_exact by (try assumption; apply R3; discriminate). cbn. rewrite EN. reflexivity.
Qed.
Example events_read_case : exists l, Forall raw_ok l /\ raw_events l = [(1, 256, [97]); (1, 2, [97])]%Z /\ length l = 3.
Proof.
  exists [Raw 1 256 0 [97%Z] 15; Raw 1 32768 0 [] 0; Raw 1 2 0 [97%Z] 15]. split; [|split; reflexivity].
  assert (A : forall m, (0 <= m < 2 ^ 32)%Z -> raw_ok (Raw 1 m 0 [97%Z] 15)).
  { intros m H. unfold raw_ok. cbn [r_wd r_mask r_cookie r_name r_pad length]. repeat split; try lia; try discriminate; try (intros [X|[]]; discriminate). }
  assert (B : raw_ok (Raw 1 32768 0 [] 0)) by (unfold raw_ok; cbn [r_wd r_mask r_cookie r_name r_pad length]; repeat split; try lia; intuition congruence).
  constructor; [apply A; lia|]. constructor; [exact B|]. constructor; [apply A; lia|constructor].
Qed.

(** * Callbacks *)
Lemma mask_converted c f : convert_to_event (mask_of c f) = reported c.
Proof. now destruct c, f. Qed.
Lemma queued s : reaches s -> forall w m n, In (w, m, n) (batch s ++ queue s) -> exists c f, m = mask_of c f.
Proof.
  induction 1 as [r|s s' HR IH HS]; [contradiction|]. destruct HS; cbn [batch queue] in *; try assumption.
  - intros v m k A. rewrite app_assoc in A. apply in_snoc in A. destruct A as [A|A]; [now apply (IH v m k)|]. injection A as _ <- _. eauto.
  - intros v m n. rewrite firstn_skipn. intros A. apply (IH v m n). now rewrite H0.
  - intros v m n A. apply (IH v m n). now rewrite H0.
  - intros v m' n' A. apply (IH v m' n'). rewrite H0. now right.
  - intros v m' n' A. apply (IH v m' n'). rewrite H0. now right.
Qed.
Lemma called_exact c f i n : called_for i n (mask_of c f) = option_map (fun h => (h, reported c)) (callback_for i n).
Proof. unfold called_for. rewrite mask_converted. destruct c; cbn; now destruct (callback_for i n). Qed.
(** Where an event was handled, in a history. *)
Lemma handled_at s : reaches s -> forall a p n m r b, hist s = a ++ EHandled p n m r :: b ->
  exists s0 i, reaches s0 /\ hist s0 = a /\ In (p, i) (infos s0) /\ r = called_for i n m /\ (exists c f, m = mask_of c f).
Proof.
  induction 1 as [r0|s s' HR IH HS]; intros a p n m r b E; [now destruct a|].
  assert (OLD : forall l, hist s' = hist s ++ l -> ~ In (EHandled p n m r) l -> exists s0 i, reaches s0 /\ hist s0 = a /\ In (p, i) (infos s0) /\ r = called_for i n m /\ (exists c f, m = mask_of c f)).
  { intros l HL NI. rewrite HL in E. clear HL. revert l E NI. assert (X : forall (x l : list event), x ++ l = a ++ EHandled p n m r :: b -> ~ In (EHandled p n m r) l -> exists b', x = a ++ EHandled p n m r :: b').
    { clear. intros x. revert a. induction x as [|e x IHx]; intros a l E NI; cbn in E.
      - exfalso. apply NI. rewrite E. apply in_or_app. right. now left.
      - destruct a as [|e' a]; cbn in E; injection E as -> E; [now eexists|]. destruct (IHx a l E NI) as (b' & ->). now eexists. }
    intros l E NI. destruct (X _ _ E NI) as (b' & E'). now apply (IH a p n m r b'). }
  destruct HS; try (apply (OLD []); [now rewrite app_nil_r|intros []]);
    try (match goal with E : hist (State _ _ _ _ _ _ _ _ (_ ++ ?l)) = _ |- _ => apply (OLD l); [reflexivity|cbn; intuition discriminate] end).
  cbn [hist] in E. destruct b as [|x b] using rev_ind.
  - apply app_inj_tail in E. destruct E as (E & E'). injection E' as -> -> -> <-. exists s, i. repeat split; auto. eapply (queued s HR w m n). rewrite H0. now left.
  - change (a ++ EHandled p n m r :: b ++ [x]) with (a ++ (EHandled p n m r :: b) ++ [x]) in E. rewrite app_assoc in E. apply app_inj_tail in E. destruct E as (E & _). now apply (IH a p n m r b).
Qed.

(** Each event handled is a change, and calls exactly the callback registered for the file or, if there is none, the one for the directory, with
    the kind of the change; if none is registered, none. *)
Theorem callbacks_exact : forall s a p n m r b,
  reaches s -> no_race (hist s) -> hist s = a ++ EHandled p n m r :: b ->
  exists c f, m = mask_of c f /\ r = option_map (fun h => (h, reported c)) (expected a p n).
Proof.
  intros s a p n m r b HR HN E. destruct (handled_at s HR a p n m r b E) as (s0 & i & R0 & <- & HI & -> & c & f & ->). exists c, f. split; [reflexivity|].
  rewrite called_exact. f_equal. rewrite E in HN. apply no_race_before in HN. destruct (exact_reaches s0 R0 HN) as [X1 _ _ _].
  apply (find_unique _ _ _ (y_nodup _ (keys_reaches _ R0))) in HI. destruct (X1 p i HI) as (A & B). unfold callback_for, expected. now rewrite A, B.
Qed.
(** Whatever flags the kernel sets in an event (32 bits): the callback called, and what it is told, in terms of the bits of the mask
    (inotify.h: bit 8 created, 7 moved to, 9 deleted, 6 moved from, 1 modified). No other flag leads to a call. *)
Lemma test_bit m k : (0 <= k)%Z -> test m (2 ^ k) = Z.testbit m k.
Proof.
  intros HK. unfold test. destruct (Z.eqb_spec (Z.land m (2 ^ k)) 0) as [E|E]; cbn.
  - symmetry. assert (T : Z.testbit (Z.land m (2 ^ k)) k = false) by (rewrite E; apply Z.bits_0). rewrite Z.land_spec, Z.pow2_bits_true in T by assumption. now rewrite Bool.andb_true_r in T.
  - symmetry. destruct (Z.testbit m k) eqn:T; [reflexivity|]. exfalso. apply E. apply Z.bits_inj'. intros j HJ. rewrite Z.land_spec, Z.bits_0.
    destruct (Z.eq_dec k j) as [<-|N]; [now rewrite T|]. rewrite Z.pow2_bits_false by assumption. apply Bool.andb_false_r.
Qed.
Theorem flags_reported : forall i n m,
  let b := Z.testbit m in
  (b 8%Z = true \/ b 7%Z = true -> called_for i n m = option_map (fun h => (h, PCreated)) (callback_for i n)) /\
  (b 8%Z = false -> b 7%Z = false -> b 9%Z = true \/ b 6%Z = true -> called_for i n m = option_map (fun h => (h, PDeleted)) (callback_for i n)) /\
  (b 8%Z = false -> b 7%Z = false -> b 9%Z = false -> b 6%Z = false -> b 1%Z = true -> called_for i n m = option_map (fun h => (h, PChanged)) (callback_for i n)) /\
  (b 8%Z = false -> b 7%Z = false -> b 9%Z = false -> b 6%Z = false -> b 1%Z = false -> called_for i n m = None).
Proof.
  intros i n m b. unfold called_for, convert_to_event.
  change IN_CREATE with (2 ^ 8)%Z. change IN_MOVED_TO with (2 ^ 7)%Z. change IN_DELETE with (2 ^ 9)%Z. change IN_MOVED_FROM with (2 ^ 6)%Z. change IN_MODIFY with (2 ^ 1)%Z.
  rewrite !test_bit by lia. fold b. destruct (callback_for i n) as [h|]; cbn [option_map].
  all: destruct (b 8%Z), (b 7%Z), (b 9%Z), (b 6%Z), (b 1%Z); cbn; repeat split; intros; try reflexivity; intuition discriminate.
Qed.

(** Even with races, a callback is called only while it is registered. *)
Theorem callbacks_registered : forall s a p n m h t b,
  reaches s -> hist s = a ++ EHandled p n m (Some (h, t)) :: b -> want a p (Some n) = Some h \/ want a p None = Some h.
Proof.
  intros s a p n m h t b HR E. destruct (handled_at s HR a p n m _ b E) as (s0 & i & R0 & <- & HI & ER & c & f & ->).
  rewrite called_exact in ER. destruct (sound_reaches s0 R0 p i HI) as (A & B). unfold callback_for in ER. destruct (find_file n (i_files i)) as [h'|] eqn:EF; cbn in ER.
  - left. injection ER as -> _. now apply B.
  - right. destruct (i_path i) as [h'|] eqn:EP; [|discriminate]. cbn in ER. injection ER as -> _. now apply A.
Qed.

(** While a callback stays registered in a directory, every change of the directory since it began to be watched has been handled, once and in
    order, or is waiting to be; only a change equal to the one before it may have been merged with it. *)
Theorem changes_handled : forall s a p t h d b,
  reaches s -> hist s = a ++ EAdd p t h (Created d) :: b -> no_race (hist s) -> no_alias (hist s) -> ~ In EOverflow b -> ~ In (EDirectoryGone d) b ->
  stays_wanted (a ++ [EAdd p t h (Created d)]) p b ->
  exists w, find_watch d (watches s) = Some w /\ merges (changes d b) (handled p b ++ waiting s w).
Proof.
  intros s a p t h d b HR HH HN HA HO HG HW. destruct (entry_reaches s HR a p t h d b HH HN HA HO HG HW) as (i & _ & E2 & E3). eauto.
Qed.

(** Where a call was made, in a history. *)
Definition is_call (e : event) : bool := match e with ERemovePath _ _ | ERemoveFile _ _ _ _ => true | _ => false end.
Lemma call_at s : reaches s -> forall a e b, hist s = a ++ e :: b -> is_call e = true ->
  exists s0 s1, reaches s0 /\ hist s0 = a /\ step s0 s1 /\ hist s1 = a ++ [e].
Proof.
  induction 1 as [r0|s s' HR IH HS]; intros a e b E HE; [now destruct a|].
  assert (X : forall (x l : list event) a, x ++ l = a ++ e :: b -> ~ In e l -> exists b', x = a ++ e :: b').
  { clear. intros x. induction x as [|e' x IHx]; intros l a E NI; cbn in E.
    - exfalso. apply NI. rewrite E. apply in_or_app. right. now left.
    - destruct a as [|e'' a]; cbn in E; injection E as -> E; [now eexists|]. destruct (IHx l a E NI) as (b' & ->). now eexists. }
  assert (OLD : forall l, hist s' = hist s ++ l -> ~ In e l -> exists s0 s1, reaches s0 /\ hist s0 = a /\ step s0 s1 /\ hist s1 = a ++ [e]).
  { intros l HL NI. rewrite HL in E. destruct (X _ _ _ E NI) as (b' & E'). now apply (IH a e b'). }
  assert (ONE : forall e', hist s' = hist s ++ [e'] -> exists s0 s1, reaches s0 /\ hist s0 = a /\ step s0 s1 /\ hist s1 = a ++ [e]).
  { intros e' HL. destruct b as [|x b] using rev_ind.
    - rewrite HL in E. apply app_inj_tail in E. destruct E as (E & ->). exists s, s'. now rewrite HL, <- E.
    - change (a ++ e :: b ++ [x]) with (a ++ (e :: b) ++ [x]) in E. rewrite HL, app_assoc in E. apply app_inj_tail in E. destruct E as (E & _). now apply (IH a e b). }
  pose proof HS as HS0. destruct HS0; try (eapply ONE; reflexivity); try (apply (OLD []); [cbn; now rewrite app_nil_r|intros []]).
  apply (OLD [EChange d c f n; EOverflow]); [reflexivity|]. intros [K|[K|[]]]; subst e; discriminate HE.
Qed.
Lemma empty_pruned s : reaches s -> forall p i, find p (infos s) = Some i -> empty_info i = true -> In p (pruning s).
Proof.
  assert (ST : forall i t h, empty_info (store i t h) = false) by (intros i [n|] h; unfold empty_info; cbn; [reflexivity|now destruct (i_files i)]).
  induction 1 as [r|s s' HR IH HS]; intros q k; [discriminate|]. pose proof (keys_reaches s HR) as [HK]. destruct HS; cbn [infos pruning]; try (apply IH).
  - rewrite find_update. destruct (Nat.eqb_spec q p) as [->|N]; [|apply IH]. rewrite H0. intros E. injection E as <-. now rewrite ST.
  - cbn [find]. destruct (Nat.eqb_spec p q) as [->|N]; [|apply IH]. intros E. injection E as <-. now rewrite ST.
  - rewrite find_erase. destruct (Nat.eqb_spec q p); [discriminate|apply IH].
  - discriminate.
  - subst j. rewrite find_update. destruct (Nat.eqb_spec q p) as [->|N].
    + rewrite H0. intros E. injection E as <-. intros EE. rewrite EE. now left.
    + intros E1 E2. specialize (IH q k E1 E2). match goal with |- In _ (if ?b then _ else _) => destruct b end; [now right|assumption].
  - rewrite find_erase. destruct (Nat.eqb_spec q p) as [->|N]; [discriminate|]. intros E1 E2. specialize (IH q k E1 E2). rewrite H0 in IH.
    apply in_app_or in IH. apply in_or_app. cbn in IH. intuition congruence.
Qed.
(** What the removals return: remove_file, whether a callback was registered for the file; remove_path, whether one was registered for the
    directory or a file in it (or is just being removed with its directory by remove_file). *)
Theorem removal_results : forall s a e b,
  reaches s -> no_race (hist s) -> hist s = a ++ e :: b ->
  match e with
  | ERemoveFile p n found prune => (found = true <-> want a p (Some n) <> None) /\ (prune = true -> forall u, want (a ++ [e]) p u = None)
  | ERemovePath p r => ((exists u, want a p u <> None) -> r = true) /\ (r = true -> (exists u, want a p u <> None) \/ prunes p a < removals p a)
  | _ => True
  end.
Proof.
  intros s a e b HR HN E. destruct (is_call e) eqn:HE; [|now destruct e].
  destruct (call_at s HR a e b E HE) as (s0 & s1 & R0 & <- & ST & E1). rewrite E in HN. pose proof (no_race_before _ _ HN) as HN0.
  destruct (exact_reaches s0 R0 HN0) as [X1 X2 X3 X4].
  assert (HN1 : no_race (hist s1)) by (rewrite E1; apply (no_race_before _ b); now rewrite <- app_assoc).
  destruct (exact_reaches s1 (reaches_step s0 s1 R0 ST) HN1) as [Y1 Y2 Y3 Y4].
  assert (INJ : forall x, hist s0 ++ x = hist s0 ++ [e] -> x = [e]) by (intros x K; now apply app_inv_head in K).
  assert (NE : hist s0 <> hist s0 ++ [e]) by (intros K; apply (f_equal (@length _)) in K; rewrite app_length in K; cbn in K; lia).
  destruct ST; cbn [hist] in E1; try (apply INJ in E1); try congruence; try (injection E1 as <-; discriminate HE); try discriminate E1.
  - injection E1 as <-. split.
    + intros (u & Hu). destruct (find p (infos s0)) eqn:EF; [reflexivity|]. now rewrite (X2 p EF u) in Hu.
    + intros HF. destruct (find p (infos s0)) as [i|] eqn:EF; [|discriminate]. destruct (X1 p i EF) as (A & B). destruct (i_path i) as [h|] eqn:EP.
      { left. exists None. congruence. }
      destruct (i_files i) as [|(n, h) r] eqn:EL.
      * right. assert (HI : In p (pruning s0)) by (apply (empty_pruned s0 R0 p i EF); unfold empty_info; now rewrite EL, EP).
        apply (count_occ_In Nat.eq_dec) in HI. specialize (X4 p). lia.
      * left. exists (Some n). rewrite <- (B n). cbn. unfold name_eqb. destruct (list_eq_dec Z.eq_dec n n); congruence.
  - injection E1 as <-. split; [|discriminate]. split; [discriminate|]. intros HW. exfalso. apply HW. destruct (find p (infos s0)) as [i|] eqn:EF.
    + destruct (X1 p i EF) as (_ & B). rewrite <- (B n). assumption.
    + now apply X2.
  - injection E1 as <-. split.
    + split; [|reflexivity]. intros _. destruct (X1 p i H0) as (_ & B). rewrite <- (B n), H1. discriminate.
    + intros HP. cbn [pruning hist] in Y3. apply Y3. rewrite HP. now left.
Qed.

(** * Progress *)
Definition weight (s : state) : nat :=
  4 * length (queue s) + 3 * length (batch s) + match mode s with Free => match queue s with [] => 0 | _ => 2 end | Polling => 1 | InCallback => 2 | Stuck => 0 end.
Lemma own_weight s s' : own s s' -> weight s' < weight s.
Proof.
  assert (LEN : forall (l : list event) a b, l ++ a = l ++ b -> a = b) by (intros; eapply app_inv_head; eassumption).
  assert (NIL : forall (l : list event) a, l ++ a = l -> a = []) by (intros l a E; apply (LEN l a []); now rewrite app_nil_r).
  intros (HS & HH). destruct HS; cbn [hist] in HH; try (exfalso; destruct HH as [HH|(? & ? & ? & ? & HH)]; [apply NIL in HH; discriminate|apply LEN in HH; discriminate]); unfold weight; cbn [queue batch mode].
  - rewrite H. destruct (queue s); [congruence|cbn; lia].
  - rewrite H, H0, firstn_length, skipn_length. cbn. lia.
  - rewrite H, H0, H1. cbn. lia.
  - rewrite H, H0. cbn [length]. destruct (called_for i n m); lia.
  - rewrite H, H0. cbn [length]. lia.
  - rewrite H. lia.
Qed.
Lemma free_batch s : reaches s -> mode s = Free -> batch s = [].
Proof. induction 1 as [r|s s' HR IH HS]; [reflexivity|]. destruct HS; cbn [mode batch]; try discriminate; intros; auto. destruct (called_for i n m); discriminate. Qed.
(** The polling task cannot go on forever without new changes, and has a next step until every event is handled, unless a callback called back
    into the monitor. *)
Theorem monitor_drains :
  well_founded (fun s' s => own s s') /\
  forall s, reaches s -> mode s <> Stuck -> (exists s', own s s') \/ (mode s = Free /\ batch s = [] /\ queue s = [] /\ forall w, waiting s w = []).
Proof.
  split.
  { intros s. assert (H : forall k s, weight s < k -> Acc (fun s' s => own s s') s). { induction k as [|k IH]; [lia|]. intros x Hx. constructor. intros y Hy. apply IH. apply own_weight in Hy. lia. }
    apply (H (S (weight s))); lia. }
  intros s HR HM. destruct (mode s) eqn:EM; [| | |congruence].
  - pose proof (free_batch s HR EM) as EB. destruct (queue s) as [|x q] eqn:EQ.
    + right. repeat split; auto. intros w. unfold waiting. now rewrite EB, EQ.
    + left. eexists. split; [apply s_poll; [assumption|congruence]|]. now left.
  - left. destruct (batch s) as [|[[w m] n] r] eqn:EB.
    + destruct (queue s) as [|x q] eqn:EQ.
      * eexists. split; [now apply s_read_none|]. now left.
      * eexists. split; [apply (s_read _ 1); [assumption|assumption|rewrite EQ; cbn; lia]|]. now left.
    + destruct (existsb (fun y => i_wd (snd y) =? w) (infos s)) eqn:EX.
      * apply existsb_exists in EX. destruct EX as ([p i] & H1 & H2). apply Nat.eqb_eq in H2. cbn in H2.
        eexists. split; [eapply (s_handle s w m n r p i); eassumption|]. right. cbn. eauto.
      * eexists. split; [eapply (s_drop_event s w m n r); [assumption|assumption|]|now left]. intros p i H1 H2.
        assert (existsb (fun y => i_wd (snd y) =? w) (infos s) = true) by (apply existsb_exists; exists (p, i); split; [assumption|cbn; now apply Nat.eqb_eq]). congruence.
  - left. eexists. split; [now apply s_return|]. now left.
Qed.

(** * Refutations and examples *)
Tactic Notation "next" ident(R) uconstr(c) ident(R') :=
  assert (R' : reaches _) by (refine (reaches_step _ _ R _); eapply c; first [reflexivity|eassumption|discriminate|cbn; lia|(left; reflexivity)|(right; left; reflexivity)|cbn; intuition congruence]); clear R;
  cbn -[mask_of] in R'.
Definition one : nat -> option nat := fun _ => Some 7.
Definition file_a : name := [97%Z].

(** The hypotheses of the theorems are met: a callback for a directory and one for a file in it; two changes, the first handled. *)
Example monitor_run : exists s a b, reaches s /\ hist s = a ++ EAdd 1 None 10 (Created 7) :: b /\ no_race (hist s) /\ no_alias (hist s) /\ ~ In EOverflow b /\
  ~ In (EDirectoryGone 7) b /\ stays_wanted (a ++ [EAdd 1 None 10 (Created 7)]) 1 b /\ changes 7 b = [(256, file_a); (2, [98])]%Z /\ handled 1 b = [(256%Z, file_a)] /\
  In (EHandled 1 file_a 256 (Some (11, PCreated))) b /\ mode s <> Stuck.
Proof.
  pose proof (reaches_initial one) as R. unfold initial in R.
  next R (s_add_created _ 1 None 10 7) R1.
  next R1 (s_add_joined _ 1 (Some file_a) 11) R2.
  next R2 (s_change _ 7 Create false file_a) R3.
  next R3 s_poll R4. next R4 (s_read _ 1) R5. next R5 s_handle R6. next R6 s_return R7.
  next R7 (s_change _ 7 Modify false [98%Z]) R8.
  eexists. exists [], [EAdd 1 (Some file_a) 11 Joined; EChange 7 Create false file_a; EHandled 1 file_a 256 (Some (11, PCreated)); EChange 7 Modify false [98%Z]].
  split; [exact R8|]. cbn [hist app mode]. split; [reflexivity|].
  split; [intros a p t h r b E _; repeat (destruct a as [|? a]; [injection E as <- <- <- <- <- || discriminate; reflexivity|injection E as <- E]); now destruct a|].
  split; [intros p q t u h g d H1 H2; cbn in H1, H2; intuition congruence|].
  split; [cbn; intuition discriminate|]. split; [cbn; intuition discriminate|].
  split.
  - intros b1 b2 E. exists None. repeat (destruct b1 as [|? b1]; [discriminate|injection E as <- E]). destruct b1; [discriminate|discriminate E].
  - repeat split; try reflexivity; try discriminate. cbn. auto.
Qed.

(** "A callback registered and not removed is called for every change": false when the last callback of a directory is removed while another
    thread registers one: the new registration is dropped. *)
Theorem race_refuted : exists s, reaches s /\ want (hist s) 1 (Some file_a) = Some 11 /\ no_alias (hist s) /\
  mode s = Free /\ queue s = [] /\ batch s = [] /\
  exists a b, hist s = a ++ EAdd 1 (Some file_a) 11 Joined :: b /\ In (EChange 7 Create false file_a) b /\ forall p n m r, ~ In (EHandled p n m r) (hist s).
Proof.
  pose proof (reaches_initial one) as R. unfold initial in R.
  next R (s_add_created _ 1 (Some [98%Z]) 10 7) R1.
  next R1 (s_remove_file _ 1 [98%Z]) R2. (* thread 1: the first half of remove_file *)
  next R2 (s_add_joined _ 1 (Some file_a) 11) R3. (* thread 2 *)
  next R3 (s_prune _ [] 1 []) R4. (* thread 1: the second half *)
  next R4 (s_change_unwatched _ 7 Create false file_a) R5.
  eexists. split; [exact R5|]. split; [reflexivity|]. split; [intros p q t u h g d H1 H2; cbn in H1, H2; intuition congruence|]. repeat split.
  exists [EAdd 1 (Some [98%Z]) 10 (Created 7); ERemoveFile 1 [98%Z] true true], [EPrune 1 true; EChange 7 Create false file_a]. split; [reflexivity|]. split; [cbn; auto|].
  intros p n m r K. cbn in K. intuition discriminate.
Qed.

(** ... and when two paths name one directory ("dir" and "dir/", say): removing one stops the other. *)
Theorem alias_refuted : exists s, reaches s /\ want (hist s) 2 (Some file_a) = Some 11 /\ no_race (hist s) /\ mode s = Free /\ queue s = [] /\ batch s = [] /\
  exists a b, hist s = a ++ EAdd 2 (Some file_a) 11 (Created 7) :: b /\ In (EChange 7 Create false file_a) b /\ forall p n m r, ~ In (EHandled p n m r) (hist s).
Proof.
  pose proof (reaches_initial one) as R. unfold initial in R.
  next R (s_add_created _ 1 None 10 7) R1.
  next R1 (s_add_created _ 2 (Some file_a) 11 7) R2.
  next R2 (s_remove_path _ 1) R3.
  next R3 (s_change_unwatched _ 7 Create false file_a) R4.
  eexists. split; [exact R4|]. split; [reflexivity|]. split; [|repeat split].
  - intros a p t h r b E _. repeat (destruct a as [|? a]; [injection E as <- <- <- <- <- || discriminate; reflexivity|injection E as <- E]). now destruct a.
  - exists [EAdd 1 None 10 (Created 7)], [ERemovePath 1 true; EChange 7 Create false file_a]. split; [reflexivity|]. split; [cbn; auto|].
    intros p n m r K. cbn in K. intuition discriminate.
Qed.

(** ... and when the directory was removed and made again: registering succeeds, but the new directory is not watched. *)
Theorem new_directory_refuted : exists s, reaches s /\ want (hist s) 1 (Some file_a) = Some 11 /\ no_race (hist s) /\ no_alias (hist s) /\ mode s = Free /\ queue s = [] /\ batch s = [] /\
  resolve s 1 = Some 8 /\
  exists a b, hist s = a ++ EAdd 1 (Some file_a) 11 Joined :: b /\ In (EChange 8 Create false file_a) b /\ forall p n m r, ~ In (EHandled p n m r) (hist s).
Proof.
  pose proof (reaches_initial one) as R. unfold initial in R.
  next R (s_add_created _ 1 None 10 7) R1.
  next R1 (s_directory_gone _ 7) R2.
  next R2 (s_resolve _ 1 (Some 8)) R3.
  next R3 (s_add_joined _ 1 (Some file_a) 11) R4.
  next R4 (s_change_unwatched _ 8 Create false file_a) R5.
  eexists. split; [exact R5|]. split; [reflexivity|]. split; [|split].
  - intros a p t h r b E _. repeat (destruct a as [|? a]; [injection E as <- <- <- <- <- || discriminate; reflexivity|injection E as <- E]). now destruct a.
  - intros p q t u h g d H1 H2; cbn in H1, H2; intuition congruence.
  - repeat split. exists [EAdd 1 None 10 (Created 7); EDirectoryGone 7; EResolve 1 (Some 8)], [EChange 8 Create false file_a]. split; [reflexivity|]. split; [cbn; auto|].
    intros p n m r K. cbn in K. intuition discriminate.
Qed.

(** "Callbacks may use the monitor": a callback that does so waits for itself; from then on no call returns and no event is handled. *)
Lemma stuck_step s s' : mode s = Stuck -> step s s' -> mode s' = Stuck /\ filter effect (hist s') = filter effect (hist s).
Proof.
  intros HM HS. destruct HS; cbn [mode hist]; rewrite ?filter_app; cbn; try congruence; rewrite ?app_nil_r; auto.
Qed.
Theorem reentry_refuted : (exists s, reaches s /\ mode s = Stuck) /\
  forall s s', mode s = Stuck -> steps s s' -> mode s' = Stuck /\ filter effect (hist s') = filter effect (hist s).
Proof.
  split.
  - pose proof (reaches_initial one) as R. unfold initial in R.
    next R (s_add_created _ 1 None 10 7) R1. next R1 (s_change _ 7 Create false file_a) R2. next R2 s_poll R3. next R3 (s_read _ 1) R4. next R4 s_handle R5. next R5 s_reentry R6.
    eexists. split; [exact R6|reflexivity].
  - intros s s' HM. induction 1 as [|x y HS IH HT]; [auto|]. destruct IH as (I1 & I2). destruct (stuck_step x y I1 HT) as (J1 & J2). split; [assumption|congruence].
Qed.
Print Assumptions changes_handled.
