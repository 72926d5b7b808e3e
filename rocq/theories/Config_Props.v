(** C56: configurations hold what the file says. *)
From Verif Require Import Common Json_Spec Json_Model Json_Token_Proofs Json_String_Proofs JsonApi_Model JsonApi_Spec JsonApi_Proofs JsonApi_Props JsonConv_Model Config_Model Config_Spec.
Open Scope nat_scope.

(** * Lemmas *)
Lemma find_cons i k n l : find i ((k, n) :: l) = if list_eq_dec Z.eq_dec i k then Some n else find i l.
Proof. reflexivity. Qed.
Lemma find_in i n l : find i l = Some n -> In (i, n) l.
Proof. induction l as [|[k m] l IH]; [discriminate|]. rewrite find_cons. destruct (list_eq_dec Z.eq_dec i k) as [->|]; [intros E; injection E as ->; now left|]. intros E. right. now apply IH. Qed.
Lemma find_nodup i n l : NoDup (map fst l) -> In (i, n) l -> find i l = Some n.
Proof.
  induction l as [|[k m] l IH]; intros HN HI; [contradiction|]. cbn [map fst] in HN. inversion_clear HN as [|? ? H1 H2]. rewrite find_cons. destruct HI as [E|HI].
  - injection E as -> ->. now destruct (list_eq_dec Z.eq_dec i i).
  - destruct (list_eq_dec Z.eq_dec i k) as [->|]; [|now apply IH]. exfalso. apply H1. apply in_map_iff. exists (k, n). auto.
Qed.
Definition without (i : ident) (l : list (ident * nat)) := filter (fun e => if list_eq_dec Z.eq_dec i (fst e) then false else true) l.
Lemma in_without i k n l : In (k, n) (without i l) <-> In (k, n) l /\ k <> i.
Proof. unfold without. rewrite filter_In. cbn [fst]. destruct (list_eq_dec Z.eq_dec i k) as [->|NE]; split; intros [A B]; split; auto; congruence. Qed.
Lemma nodup_filter {A B} (f : A * B -> bool) l : NoDup (map fst l) -> NoDup (map fst (filter f l)).
Proof.
  induction l as [|[k m] l IH]; [auto|]. cbn [map fst filter]. intros HN. inversion_clear HN as [|? ? H1 H2]. destruct (f (k, m)); [|auto]. cbn [map fst]. constructor; [|auto].
  intros HI. apply H1. apply in_map_iff in HI. destruct HI as (e & <- & HI). apply filter_In in HI. apply in_map. tauto.
Qed.
Lemma find_without i k l : k <> i -> find k (without i l) = find k l.
Proof.
  intros NE. induction l as [|[k' m] l IH]; [reflexivity|]. unfold without. cbn [filter fst]. rewrite (find_cons k k' m l). destruct (list_eq_dec Z.eq_dec i k') as [->|NE'].
  - destruct (list_eq_dec Z.eq_dec k k'); [congruence|exact IH].
  - rewrite find_cons. destruct (list_eq_dec Z.eq_dec k k'); [reflexivity|exact IH].
Qed.
Lemma nth_set {A} (h : list A) n x m : n < length h -> nth_error (firstn n h ++ x :: skipn (S n) h) m = if m =? n then Some x else nth_error h m.
Proof.
  intros HL. destruct (Nat.eqb_spec m n) as [->|NE].
  - rewrite nth_error_app2; rewrite firstn_length_le by lia; [now rewrite Nat.sub_diag|lia].
  - exact (nth_replaced_other h n x m NE HL).
Qed.
Lemma update_nth h n v m : nth_error (update h n v) m =
  match nth_error h m with Some c => Some (if m =? n then Config (c_ident c) (c_class c) v (c_alive c) else c) | None => None end.
Proof.
  unfold update. destruct (nth_error h n) as [c|] eqn:EN.
  - rewrite nth_set by (apply nth_error_Some; congruence). destruct (Nat.eqb_spec m n) as [->|]; [now rewrite EN|]. now destruct (nth_error h m).
  - destruct (nth_error h m) as [c|] eqn:EM; [|reflexivity]. destruct (Nat.eqb_spec m n) as [->|]; [congruence|reflexivity].
Qed.
Lemma drop_nth h n m : nth_error (drop h n) m =
  match nth_error h m with Some c => Some (if m =? n then Config (c_ident c) (c_class c) (c_values c) false else c) | None => None end.
Proof.
  unfold drop. destruct (nth_error h n) as [c|] eqn:EN.
  - rewrite nth_set by (apply nth_error_Some; congruence). destruct (Nat.eqb_spec m n) as [->|]; [now rewrite EN|]. now destruct (nth_error h m).
  - destruct (nth_error h m) as [c|] eqn:EM; [|reflexivity]. destruct (Nat.eqb_spec m n) as [->|]; [congruence|reflexivity].
Qed.
Lemma update_length h n v : length (update h n v) = length h.
Proof.
  unfold update. destruct (nth_error h n) as [c|] eqn:EN; [|reflexivity]. assert (n < length h) by (apply nth_error_Some; congruence).
  rewrite app_length, firstn_length_le by lia. cbn [length]. rewrite skipn_length. lia.
Qed.
(** What m_values holds for an identifier. *)
Definition lookup (v : json) (i : ident) : json := match v with JObject m => match bound m i with Some x => x | None => JNull end | _ => JNull end.
Definition values_ok (v : json) : Prop := v = JNull \/ exists m, v = JObject m /\ sorted_keys m.
Lemma section_of_spec v i : values_ok v -> let '(v', x) := section_of v i in
  values_ok v' /\ x = lookup v i /\ forall k, lookup v' k = lookup v k.
Proof.
  intros HV. unfold section_of.
  assert (G : forall m, sorted_keys m -> let m' := fst (map_insert i JNull m) in
    sorted_keys m' /\ (match map_find i m' with Some (_, x) => x | None => JNull end) = lookup (JObject m) i /\ forall k, lookup (JObject m') k = lookup (JObject m) k).
  { intros m HS m'. pose proof (map_insert_spec i JNull m HS) as HI. unfold m'. destruct (map_insert i JNull m) as [m1 [p new]]. cbn [fst] in *. destruct HI as (S1 & _ & HI).
    split; [assumption|]. pose proof (map_find_bound i m1 S1) as HF.
    assert (HL : forall k, lookup (JObject m1) k = lookup (JObject m) k).
    { intros k. cbn [lookup]. destruct (bound m i) as [x|] eqn:EB; [destruct HI as (-> & _); reflexivity|]. destruct HI as (_ & _ & B & _). rewrite B. unfold rebind.
      destruct (same_key k i) as [->|]; [now rewrite EB|reflexivity]. }
    split; [|exact HL]. rewrite <- HL. cbn [lookup]. destruct (map_find i m1) as [[q x]|]; cbn in HF; rewrite <- HF; reflexivity. }
  destruct HV as [->|(m & -> & HS)]; cbn [promote_object].
  - destruct (G [] I) as (A & B & C). cbv zeta. split; [right; eauto|]. split; [exact B|]. intros k. rewrite C. reflexivity.
  - destruct (G m HS) as (A & B & C). cbv zeta. split; [right; eauto|]. split; assumption.
Qed.
Lemma lookup_parsed p i : (if is_values (parsed p) then lookup (parsed p) i else JNull) = section p i.
Proof. destruct p as [[]|]; reflexivity. Qed.

(** * The invariant *)
Record invariant (s : state) : Prop := {
  i_values : values_ok (values s);
  i_lookup : forall i, lookup (values s) i = section (latest s) i;
  i_keys : NoDup (map fst (configs s));
  i_owner : forall i n, In (i, n) (configs s) -> exists c, nth_error (heap s) n = Some c /\ c_ident c = i;
  i_live : forall n c, live s n c -> In (c_ident c, n) (configs s);
  i_rest : forall r, updating s = Some r -> NoDup (map fst r) /\ (forall e, In e r -> In e (configs s)) /\ usable (latest s);
  i_current : usable (latest s) -> forall n c, live s n c -> (forall r, updating s = Some r -> ~ In (c_ident c, n) r) -> c_values c = section (latest s) (c_ident c) }.

Lemma invariant_set s s' : invariant s -> values s' = values s -> configs s' = configs s -> heap s' = heap s -> updating s' = updating s -> parses s' = parses s -> invariant s'.
Proof.
  intros [A B C D E F G] E1 E2 E3 E4 E5. assert (EL : latest s' = latest s) by (unfold latest; now rewrite E5).
  split; unfold live in *; rewrite ?E1, ?E2, ?E3, ?E4, ?EL; assumption.
Qed.
Lemma create_invariant s i cls : updating s = None -> invariant s -> invariant (fst (create_config s i cls)).
Proof.
  intros HU HI. pose proof HI as [A B C D E F G]. unfold create_config. pose proof (section_of_spec (values s) i A) as HS. destruct (section_of (values s) i) as [v' x]. destruct HS as (V1 & -> & V2).
  assert (FRESH : (forall n c, live s n c -> c_ident c <> i) ->
    invariant (State v' (assign i (length (heap s)) (configs s)) (heap s ++ [Config i cls (lookup (values s) i) true]) (updating s) (file s) (dirty s) (tasks s) (started s) (parses s))).
  { intros HN. assert (NTH : forall n c, nth_error (heap s ++ [Config i cls (lookup (values s) i) true]) n = Some c -> nth_error (heap s) n = Some c \/ n = length (heap s) /\ c = Config i cls (lookup (values s) i) true).
    { intros n c HN'. destruct (Nat.lt_ge_cases n (length (heap s))); [left; now rewrite nth_error_app1 in HN' by assumption|]. rewrite nth_error_app2 in HN' by assumption.
      destruct (n - length (heap s)) as [|k] eqn:EK; [injection HN' as <-; right; split; [lia|reflexivity]|]. cbn in HN'. destruct k; discriminate. }
    split; cbn [values configs heap updating parses]; unfold latest, live; cbn [parses heap]; fold (latest s).
    - assumption.
    - intros k. rewrite V2. apply B.
    - unfold assign. cbn [map fst]. constructor; [|now apply nodup_filter]. intros HI'. apply in_map_iff in HI'. destruct HI' as ([k n] & <- & HI'). apply in_without in HI'. cbn in HI'. tauto.
    - intros k n [E'|HI']; [injection E' as <- <-; exists (Config i cls (lookup (values s) i) true); rewrite nth_error_app2, Nat.sub_diag by lia; split; reflexivity|].
      apply in_without in HI'. destruct HI' as [HI' _]. destruct (D k n HI') as (c & E1 & E2). exists c. split; [|assumption]. rewrite nth_error_app1; [assumption|]. apply nth_error_Some. congruence.
    - intros n c [H1 H2]. apply NTH in H1. destruct H1 as [H1|[-> ->]]; [|now left]. right. apply in_without. split; [apply E; split; assumption|]. apply (HN n c). split; assumption.
    - intros r HR. congruence.
    - intros HUs n c [H1 H2] HR. apply NTH in H1. destruct H1 as [H1|[-> ->]]; [exact (G HUs n c (conj H1 H2) HR)|]. cbn [c_values c_ident]. apply B. }
  destruct (find i (configs s)) as [n|] eqn:EF.
  - pose proof (find_in _ _ _ EF) as HIn. destruct (D i n HIn) as (c & EN & EI). rewrite EN. destruct (c_alive c) eqn:EA.
    + destruct (c_class c =? cls); [|exact HI]. cbn [fst].
      assert (NTH : forall m d, nth_error (update (heap s) n (lookup (values s) i)) m = Some d -> exists d0, nth_error (heap s) m = Some d0 /\ c_ident d = c_ident d0 /\ c_alive d = c_alive d0 /\
        (m = n /\ c_values d = lookup (values s) i \/ m <> n /\ d = d0)).
      { intros m d Hd. rewrite update_nth in Hd. destruct (nth_error (heap s) m) as [d0|]; [|discriminate]. injection Hd as <-. exists d0. split; [reflexivity|].
        destruct (Nat.eqb_spec m n); cbn; auto. }
      split; cbn [values configs heap updating parses]; unfold latest, live; cbn [parses heap]; fold (latest s).
      * assumption.
      * intros k. rewrite V2. apply B.
      * assumption.
      * intros k m HIm. destruct (D k m HIm) as (d & E1 & E2). rewrite update_nth, E1. eexists. split; [reflexivity|]. destruct (m =? n); assumption.
      * intros m d [H1 H2]. apply NTH in H1. destruct H1 as (d0 & H1 & -> & HA & _). apply E. split; congruence.
      * assumption.
      * intros HUs m d [H1 H2] HR. apply NTH in H1. destruct H1 as (d0 & H1 & EId & HA & [[-> HV]|[NE ->]]).
        -- rewrite HV, EId. rewrite EN in H1. injection H1 as <-. rewrite EI. apply B.
        -- exact (G HUs m d0 (conj H1 H2) HR).
    + apply FRESH. intros m d [H1 H2] EM. pose proof (E m d (conj H1 H2)) as HIm. rewrite EM in HIm. apply (find_nodup i m (configs s) C) in HIm. rewrite EF in HIm. injection HIm as <-. congruence.
  - apply FRESH. intros m d HL EM. pose proof (E m d HL) as HIm. rewrite EM in HIm. apply (find_nodup i m (configs s) C) in HIm. congruence.
Qed.
Lemma filter_invariant s f : (forall n c, live s n c -> forall i, f (i, n) = true) -> updating s = None -> invariant s ->
  invariant (State (values s) (filter f (configs s)) (heap s) (updating s) (file s) (dirty s) (tasks s) (started s) (parses s)).
Proof.
  intros Hf HU [A B C D E F G]. split; cbn [values configs heap updating parses]; unfold latest, live; cbn [parses heap]; fold (latest s); auto.
  - now apply nodup_filter.
  - intros i n HI. apply filter_In in HI. apply D. tauto.
  - intros n c HL. apply filter_In. split; [apply E; exact HL|]. exact (Hf n c HL _).
  - intros r HR. congruence.
Qed.
Lemma step_invariant s s' : map_result (file s) -> invariant s -> step s s' -> invariant s' /\ map_result (file s').
Proof.
  intros HF HI HS. pose proof HI as [A B C D E F G]. destruct HS.
  - split; [now apply create_invariant|]. unfold create_config. destruct (section_of (values s) i). destruct (find i (configs s)) as [n|]; [|assumption]. destruct (nth_error (heap s) n) as [c|]; [|assumption].
    destruct (c_alive c); [|assumption]. now destruct (c_class c =? cls).
  - split; [|assumption]. apply filter_invariant; [|assumption|assumption]. intros n c [H1 H2] i. cbn [snd]. unfold alive. now rewrite H1.
  - split; [|assumption].
    assert (NTH : forall m d, live (State (values s) (configs s) (drop (heap s) n) (updating s) (file s) (dirty s) (tasks s) (started s) (parses s)) m d -> live s m d).
    { intros m d [H1 H2]. cbn [heap] in H1. rewrite drop_nth in H1. destruct (nth_error (heap s) m) as [d0|] eqn:E0; [|discriminate]. injection H1 as <-. destruct (m =? n); [discriminate|]. split; assumption. }
    split; cbn [values configs heap updating parses]; unfold latest; cbn [parses]; fold (latest s); auto.
    + intros i m HIm. destruct (D i m HIm) as (d & E1 & E2). cbn [heap]. rewrite drop_nth, E1. eexists. split; [reflexivity|]. destruct (m =? n); assumption.
    + intros HUs m d HL HR. exact (G HUs m d (NTH m d HL) HR).
  - split; [|assumption]. eapply invariant_set; [exact HI| | | | |]; reflexivity.
  - split; [|assumption]. eapply invariant_set; [exact HI| | | | |]; reflexivity.
  - assert (G2 : forall p d, map_result p -> invariant (begin_update s p d)).
    { intros p d HP. unfold begin_update. destruct (is_values (parsed p)) eqn:EV.
      - split; cbn [values configs heap updating parses]; unfold latest, live; cbn [parses heap]; auto.
        + destruct p as [[]|]; try discriminate; [now left|right; eexists; split; [reflexivity|exact (proj1 HP)]|now left].
        + intros i. rewrite <- (lookup_parsed p i), EV. reflexivity.
        + intros r HR. injection HR as <-. repeat split; auto. destruct p as [[]|]; try discriminate; exact I.
        + intros _ n c HL HR. exfalso. apply (HR _ eq_refl). now apply E.
      - split; cbn [values configs heap updating parses]; unfold latest, live; cbn [parses heap]; auto.
        + now left.
        + intros i. rewrite <- (lookup_parsed p i), EV. reflexivity.
        + intros r HR. discriminate.
        + intros HUs. destruct p as [[]|]; try discriminate; contradiction. }
    split; [now apply G2|]. unfold begin_update. now destruct (is_values _).
  - assert (G2 : forall p d, map_result p -> invariant (begin_update s p d)).
    { intros q d HP. unfold begin_update. destruct (is_values (parsed q)) eqn:EV.
      - split; cbn [values configs heap updating parses]; unfold latest, live; cbn [parses heap]; auto.
        + destruct q as [[]|]; try discriminate; [now left|right; eexists; split; [reflexivity|exact (proj1 HP)]|now left].
        + intros i. rewrite <- (lookup_parsed q i), EV. reflexivity.
        + intros r HR. injection HR as <-. repeat split; auto. destruct q as [[]|]; try discriminate; exact I.
        + intros _ n c HL HR. exfalso. apply (HR _ eq_refl). now apply E.
      - split; cbn [values configs heap updating parses]; unfold latest, live; cbn [parses heap]; auto.
        + now left.
        + intros i. rewrite <- (lookup_parsed q i), EV. reflexivity.
        + intros r HR. discriminate.
        + intros HUs. destruct q as [[]|]; try discriminate; contradiction. }
    split; [now apply G2|]. unfold begin_update. now destruct (is_values _).
  - destruct (F _ H) as (R1 & R2 & R3). cbn [map fst] in R1. inversion_clear R1 as [|? ? R4 R5].
    assert (NI : forall k m, In (k, m) r -> k <> i) by (intros k m Hk ->; apply R4; apply in_map_iff; exists (i, m); auto).
    unfold update_one. pose proof (section_of_spec (values s) i A) as HS. destruct (section_of (values s) i) as [v' x]. destruct HS as (V1 & -> & V2).
    destruct (D i n (R2 _ (or_introl eq_refl))) as (c & EN & EI). destruct (alive (heap s) n) eqn:EA.
    + split; [|assumption].
      assert (NTH : forall m d, nth_error (update (heap s) n (lookup (values s) i)) m = Some d -> exists d0, nth_error (heap s) m = Some d0 /\ c_ident d = c_ident d0 /\ c_alive d = c_alive d0 /\
        (m = n /\ c_values d = lookup (values s) i \/ m <> n /\ d = d0)).
      { intros m d Hd. rewrite update_nth in Hd. destruct (nth_error (heap s) m) as [d0|]; [|discriminate]. injection Hd as <-. exists d0. split; [reflexivity|].
        destruct (Nat.eqb_spec m n); cbn; auto. }
      split; cbn [values configs heap updating parses]; unfold latest, live; cbn [parses heap]; fold (latest s).
      * assumption.
      * intros k. rewrite V2. apply B.
      * assumption.
      * intros k m HIm. destruct (D k m HIm) as (d & E1 & E2). rewrite update_nth, E1. eexists. split; [reflexivity|]. destruct (m =? n); assumption.
      * intros m d [H1 H2]. apply NTH in H1. destruct H1 as (d0 & H1 & -> & HA & _). apply E. split; congruence.
      * intros r' HR. injection HR as <-. split; [assumption|]. split; [intros e He; apply R2; now right|assumption].
      * intros HUs m d [H1 H2] HR. apply NTH in H1. destruct H1 as (d0 & H1 & EId & HA & [[-> HV]|[NE ->]]).
        -- rewrite HV, EId. rewrite EN in H1. injection H1 as <-. rewrite EI. apply B.
        -- apply (G HUs m d0 (conj H1 H2)). intros r' HR'. rewrite H in HR'. injection HR' as <-. intros [E0|HIn]; [injection E0; congruence|]. exact (HR _ eq_refl HIn).
    + split; [|assumption]. fold (without i (configs s)).
      assert (NL : forall m d, live s m d -> c_ident d <> i).
      { intros m d HL EM. pose proof (E m d HL) as HIm. rewrite EM in HIm. apply (find_nodup i m (configs s) C) in HIm.
        rewrite (find_nodup i n (configs s) C (R2 _ (or_introl eq_refl))) in HIm. injection HIm as <-. destruct HL as [H1 H2]. unfold alive in EA. rewrite H1 in EA. congruence. }
      split; cbn [values configs heap updating parses]; unfold latest, live; cbn [parses heap]; fold (latest s); auto.
      * now apply nodup_filter.
      * intros k m HIm. apply in_without in HIm. apply D. tauto.
      * intros m d HL. apply in_without. split; [apply E; exact HL|]. exact (NL m d HL).
      * intros r' HR. injection HR as <-. split; [assumption|]. split; [|assumption]. intros [k m] He. apply in_without. split; [apply R2; now right|]. exact (NI k m He).
      * intros HUs m d HL HR. apply (G HUs m d HL). intros r' HR'. rewrite H in HR'. injection HR' as <-. intros [E0|HIn]; [|exact (HR _ eq_refl HIn)].
        injection E0 as E0 _. symmetry in E0. exact (NL m d HL E0).
  - split; [|assumption]. destruct (F _ H) as (_ & _ & R3).
    split; cbn [values configs heap updating parses]; unfold latest, live; cbn [parses heap]; fold (latest s); auto.
    + intros r HR. discriminate.
    + intros HUs n c HL _. apply (G HUs n c HL). intros r HR. rewrite H in HR. injection HR as <-. intros [].
  - split; [|assumption]. eapply invariant_set; [exact HI| | | | |]; reflexivity.
Qed.
Lemma reachable_invariant f s : map_result f -> reachable f s -> invariant s /\ map_result (file s).
Proof.
  intros HF HR. induction HR as [|s s' HR IH HS].
  - split; [|exact HF]. unfold initial. apply create_invariant; [reflexivity|]. split; cbn; auto.
    + now left.
    + constructor.
    + contradiction.
    + intros n c [H _]. destruct n; discriminate.
    + intros r HR. discriminate.
    + intros _ n c [H _]. destruct n; discriminate.
  - destruct IH as [HI HF']. exact (step_invariant s s' HF' HI HS).
Qed.

(** * What a reader sees *)
(** A config that has owners holds its section of the file parsed last, if that was usable - also while other configs still wait for
    their update. *)
Theorem configs_hold_their_section : forall f s n c, map_result f -> reachable f s -> usable (latest s) -> live s n c ->
  (forall r, updating s = Some r -> ~ In (c_ident c, n) r) -> c_values c = section (latest s) (c_ident c).
Proof. intros f s n c HF HR HU HL HW. destruct (reachable_invariant f s HF HR) as [HI _]. exact (i_current s HI HU n c HL HW). Qed.

Lemma create_other s i cls : let s' := fst (create_config s i cls) in
  file s' = file s /\ dirty s' = dirty s /\ tasks s' = tasks s /\ started s' = started s /\ parses s' = parses s /\ updating s' = updating s.
Proof.
  unfold create_config. destruct (section_of (values s) i) as [v' x]. destruct (find i (configs s)) as [n|]; [|cbn; auto 10]. destruct (nth_error (heap s) n) as [c|]; [|cbn; auto 10].
  destruct (c_alive c); [|cbn; auto 10]. destruct (c_class c =? cls); cbn; auto 10.
Qed.
Lemma begin_other s p d : let s' := begin_update s p d in
  file s' = file s /\ dirty s' = d /\ tasks s' = pred (tasks s) /\ started s' = started s /\ parses s' = p :: parses s /\ heap s' = heap s /\ configs s' = configs s.
Proof. unfold begin_update. destruct (is_values (parsed p)); cbn; auto 10. Qed.
Lemma update_one_other s i n r : let s' := update_one s i n r in
  file s' = file s /\ dirty s' = dirty s /\ tasks s' = tasks s /\ started s' = started s /\ parses s' = parses s /\ updating s' = Some r.
Proof. unfold update_one. destruct (section_of (values s) i). destruct (alive (heap s) n); cbn; auto 10. Qed.

Definition pending (f : option json) (s : state) : Prop := dirty s = true \/ tasks s <> 0 \/ latest s = file s \/ (parses s = [] /\ file s = f).
Lemma reachable_pending f s : reachable f s -> pending f s.
Proof.
  induction 1 as [|s s' HR IH HS].
  - right. right. right. unfold initial. destruct (create_other (State JNull [] [] None f false 0 true []) path_ident 0) as (A & _ & _ & _ & B & _). now rewrite A, B.
  - unfold pending, latest in *. destruct HS; cbn [dirty tasks parses file]; auto.
    + destruct (create_other s i cls) as (A & B & C & D & E & F). now rewrite A, B, C, E.
    + destruct (begin_other s (file s) (dirty s)) as (A & B & C & D & E & F). rewrite A, E. auto.
    + destruct (begin_other s p true) as (A & B & C & D & E & F). rewrite B. auto.
    + destruct (update_one_other s i n r) as (A & B & C & D & E & F). now rewrite A, B, C, E.
Qed.
(** When no update is running or to come, every config that has owners holds its section of the file - provided that the file is
    usable, and was changed at least once after the start (or did not exist then). *)
Theorem quiet_configs_match_the_file : forall f s n c, map_result f -> reachable f s -> quiet s -> usable (file s) -> f = None \/ parses s <> [] ->
  live s n c -> c_values c = section (file s) (c_ident c).
Proof.
  intros f s n c HF HR (Q1 & Q2 & Q3) HU HP HL. destruct (reachable_pending f s HR) as [A|[A|[A|[A B]]]]; [congruence|congruence| |].
  - rewrite <- A. rewrite <- A in HU. apply (configs_hold_their_section f s n c HF HR HU HL). intros r E. congruence.
  - destruct HP as [->|HP]; [|congruence]. rewrite B. assert (EL : latest s = None) by (unfold latest; now rewrite A). rewrite <- EL.
    apply (configs_hold_their_section None s n c HF HR); [rewrite EL; exact I|assumption|]. intros r E. congruence.
Qed.
(** Nothing is invented: what a config holds (with owners or without) is nothing, or its section of a file that was parsed. *)
Definition from_file (s : state) (c : config) : Prop := c_values c = JNull \/ exists p, In p (parses s) /\ c_values c = section p (c_ident c).
Lemma latest_from s i x cls a : invariant s -> x = lookup (values s) i -> from_file s (Config i cls x a).
Proof.
  intros HI ->. unfold from_file. cbn [c_values c_ident]. rewrite (i_lookup s HI). unfold latest. destruct (parses s) as [|p l]; [left; reflexivity|]. right. exists p. split; [now left|reflexivity].
Qed.
Theorem values_come_from_files : forall f s n c, map_result f -> reachable f s -> nth_error (heap s) n = Some c ->
  c_values c = JNull \/ exists p, In p (parses s) /\ c_values c = section p (c_ident c).
Proof.
  intros f s n c HF HR. fold (from_file s c). revert n c. induction HR as [|s s' HR IH HS].
  - intros n c H. left. unfold initial, create_config, find in H. cbn [configs values heap] in H. pose proof (section_of_spec JNull path_ident (or_introl eq_refl)) as HS.
    destruct (section_of JNull path_ident) as [v' x]. destruct HS as (_ & -> & _). cbn in H. destruct n as [|[|n]]; try discriminate. now injection H as <-.
  - destruct (reachable_invariant f s HF HR) as [HI _].
    assert (ADD : forall c p, from_file s c -> c_values c = JNull \/ exists q, In q (p :: parses s) /\ c_values c = section q (c_ident c)).
    { intros c p [E|(q & H1 & H2)]; [now left|]. right. exists q. split; [now right|assumption]. }
    intros n c H. unfold from_file. destruct HS; cbn [heap parses] in *; try exact (IH n c H).
    + destruct (create_other s i cls) as (_ & _ & _ & _ & -> & _). unfold create_config in H. pose proof (section_of_spec (values s) i (i_values s HI)) as HS. destruct (section_of (values s) i) as [v' x].
      destruct HS as (_ & EX & _).
      assert (FRESH : nth_error (heap s ++ [Config i cls x true]) n = Some c -> from_file s c).
      { intros HN'. destruct (Nat.lt_ge_cases n (length (heap s))); [rewrite nth_error_app1 in HN' by assumption; exact (IH n c HN')|]. rewrite nth_error_app2 in HN' by assumption.
        destruct (n - length (heap s)) as [|k] eqn:EK; [injection HN' as <-; now apply latest_from|]. destruct k; discriminate. }
      destruct (find i (configs s)) as [m|] eqn:EF; [|exact (FRESH H)]. destruct (nth_error (heap s) m) as [d|] eqn:EM; [|exact (IH n c H)]. destruct (c_alive d); [|exact (FRESH H)].
      destruct (c_class d =? cls); [|exact (IH n c H)]. cbn [fst heap] in H. rewrite update_nth in H. destruct (nth_error (heap s) n) as [d0|] eqn:E0; [|discriminate]. injection H as <-.
      destruct (Nat.eqb_spec n m) as [->|]; [|exact (IH n d0 E0)]. apply latest_from; [assumption|]. rewrite EX. f_equal.
      destruct (i_owner s HI i m (find_in _ _ _ EF)) as (d1 & E1 & E2). congruence.
    + rewrite drop_nth in H. destruct (nth_error (heap s) n) as [d0|] eqn:E0; [|discriminate]. injection H as <-. specialize (IH n d0 E0). unfold from_file in IH. destruct (n =? n0); exact IH.
    + destruct (begin_other s (file s) (dirty s)) as (_ & _ & _ & _ & -> & EH & _). rewrite EH in H. apply ADD. exact (IH n c H).
    + destruct (begin_other s p true) as (_ & _ & _ & _ & -> & EH & _). rewrite EH in H. apply ADD. exact (IH n c H).
    + destruct (update_one_other s i n0 r) as (_ & _ & _ & _ & -> & _). unfold update_one in H. pose proof (section_of_spec (values s) i (i_values s HI)) as HS. destruct (section_of (values s) i) as [v' x].
      destruct HS as (_ & EX & _). destruct (alive (heap s) n0); cbn [heap] in H; [|exact (IH n c H)]. rewrite update_nth in H. destruct (nth_error (heap s) n) as [d0|] eqn:E0; [|discriminate]. injection H as <-.
      destruct (Nat.eqb_spec n n0) as [->|]; [|exact (IH n d0 E0)]. apply latest_from; [assumption|]. rewrite EX. f_equal.
      match goal with HU : updating s = Some _ |- _ => destruct (i_rest s HI _ HU) as (_ & R & _) end.
      destruct (i_owner s HI i n0 (R _ (or_introl eq_refl))) as (d1 & E1 & E2). congruence.
Qed.

(** * create_config and prune *)
(** An identifier has at most one config with owners. *)
Theorem one_config_per_identifier : forall f s n c m d, map_result f -> reachable f s -> live s n c -> live s m d -> c_ident c = c_ident d -> n = m.
Proof.
  intros f s n c m d HF HR HC HD E. destruct (reachable_invariant f s HF HR) as [HI _]. pose proof (i_live s HI n c HC) as A. pose proof (i_live s HI m d HD) as B. rewrite <- E in B.
  apply (find_nodup _ _ _ (i_keys s HI)) in A. apply (find_nodup _ _ _ (i_keys s HI)) in B. congruence.
Qed.
(** create_config<T>: the config that exists, if it is a T; nullptr, and no effect, if it is not; and otherwise a new one.  What it
    returns holds its section of the file parsed last.  No other config changes. *)
Theorem create_config_result : forall f s i cls, map_result f -> reachable f s -> updating s = None -> let '(s', r) := create_config s i cls in
  (forall n c, live s n c -> c_ident c = i ->
     if c_class c =? cls then r = Some n else r = None /\ s' = s) /\
  ((forall n c, live s n c -> c_ident c <> i) -> exists n, r = Some n /\ nth_error (heap s) n = None) /\
  (forall n, r = Some n -> exists c, live s' n c /\ c_ident c = i /\ c_class c = cls /\ c_values c = section (latest s) i) /\
  (forall n, r <> Some n -> nth_error (heap s') n = nth_error (heap s) n).
Proof.
  intros f s i cls HF HR HU. destruct (reachable_invariant f s HF HR) as [HI _]. unfold create_config. pose proof (section_of_spec (values s) i (i_values s HI)) as HS.
  destruct (section_of (values s) i) as [v' x]. destruct HS as (_ & -> & _). rewrite (i_lookup s HI).
  assert (UNIQ : forall n m c, live s n c -> c_ident c = i -> In (i, m) (configs s) -> n = m).
  { intros n m c HL E HIn. pose proof (i_live s HI n c HL) as A. rewrite E in A. apply (find_nodup _ _ _ (i_keys s HI)) in A. apply (find_nodup _ _ _ (i_keys s HI)) in HIn. congruence. }
  assert (FRESH : (forall n c, live s n c -> c_ident c <> i) -> let c := Config i cls (section (latest s) i) true in let s' := State v' (assign i (length (heap s)) (configs s)) (heap s ++ [c]) (updating s) (file s) (dirty s) (tasks s) (started s) (parses s) in
    (forall n c, live s n c -> c_ident c = i -> if c_class c =? cls then Some (length (heap s)) = Some n else Some (length (heap s)) = None /\ s' = s) /\
    ((forall n c, live s n c -> c_ident c <> i) -> exists n, Some (length (heap s)) = Some n /\ nth_error (heap s) n = None) /\
    (forall n, Some (length (heap s)) = Some n -> exists c, live s' n c /\ c_ident c = i /\ c_class c = cls /\ c_values c = section (latest s) i) /\
    (forall n, Some (length (heap s)) <> Some n -> nth_error (heap s') n = nth_error (heap s) n)).
  { intros HN c s'. split; [intros n d HL E; now apply HN in HL|]. split; [intros _; eexists; split; [reflexivity|]; apply nth_error_None; lia|]. split.
    - intros n E. injection E as <-. exists c. unfold live, s'. cbn [heap]. rewrite nth_error_app2, Nat.sub_diag by lia. repeat split.
    - intros n NE. unfold s'. cbn [heap]. destruct (Nat.lt_ge_cases n (length (heap s))); [now apply nth_error_app1|]. rewrite nth_error_app2 by assumption.
      assert (n <> length (heap s)) by congruence. destruct (n - length (heap s)) as [|k] eqn:EK; [lia|]. cbn. symmetry. destruct k; apply nth_error_None; lia. }
  destruct (find i (configs s)) as [n|] eqn:EF.
  - pose proof (find_in _ _ _ EF) as HIn. destruct (i_owner s HI i n HIn) as (c & EN & EI). rewrite EN. destruct (c_alive c) eqn:EA.
    + assert (HL : live s n c) by (split; assumption). destruct (c_class c =? cls) eqn:EC.
      * split; [|split; [|split]].
        -- intros m d HLd Ed. pose proof (UNIQ m n d HLd Ed HIn) as ->. destruct HLd as [E1 _]. rewrite EN in E1. injection E1 as <-. now rewrite EC.
        -- intros HN. exfalso. exact (HN n c HL EI).
        -- intros m E. injection E as <-. unfold live. cbn [heap]. rewrite update_nth, EN, Nat.eqb_refl. eexists. split; [split; [reflexivity|assumption]|]. cbn. apply Nat.eqb_eq in EC. auto.
        -- intros m NE. cbn [heap]. rewrite update_nth. destruct (nth_error (heap s) m); [|reflexivity]. destruct (Nat.eqb_spec m n); [congruence|reflexivity].
      * split; [|split; [|split]].
        -- intros m d HLd Ed. pose proof (UNIQ m n d HLd Ed HIn) as ->. destruct HLd as [E1 _]. rewrite EN in E1. injection E1 as <-. rewrite EC. auto.
        -- intros HN. exfalso. exact (HN n c HL EI).
        -- discriminate.
        -- reflexivity.
    + apply FRESH. intros m d HL E. pose proof (UNIQ m n d HL E HIn) as ->. destruct HL as [H1 H2]. congruence.
  - apply FRESH. intros m d HL E. pose proof (i_live s HI m d HL) as A. rewrite E in A. apply (find_nodup _ _ _ (i_keys s HI)) in A. congruence.
Qed.
(** prune returns the number of configs that have owners, and changes none of them. *)
Theorem prune_counts : forall f s, map_result f -> reachable f s -> updating s = None -> let '(s', k) := prune s in
  heap s' = heap s /\ exists l, all_numbers s l /\ k = length l.
Proof.
  intros f s HF HR HU. destruct (reachable_invariant f s HF HR) as [HI _]. unfold prune. split; [reflexivity|]. exists (map snd (filter (fun e => alive (heap s) (snd e)) (configs s))).
  split; [|now rewrite map_length]. split.
  - pose proof (i_keys s HI) as HK. pose proof (i_owner s HI) as HO. revert HK HO. generalize (configs s) as l. induction l as [|[i n] l IH]; intros HK HO; [constructor|].
    cbn [map fst] in HK. inversion_clear HK as [|? ? K1 K2]. assert (IH' := IH K2 (fun i n HI => HO i n (or_intror HI))). cbn [filter snd]. destruct (alive (heap s) n); [|assumption].
    cbn [map snd]. constructor; [|assumption]. intros HIn. apply in_map_iff in HIn. destruct HIn as ([j m] & E & HIn). cbn [snd] in E. subst m. apply filter_In in HIn. destruct HIn as [HIn _].
    destruct (HO i n (or_introl eq_refl)) as (c & E1 & E2). destruct (HO j n (or_intror HIn)) as (d & E3 & E4). apply K1. apply in_map_iff. exists (j, n). split; [cbn; congruence|assumption].
  - intros n. rewrite in_map_iff. split.
    + intros ([i m] & <- & H). apply filter_In in H. cbn [snd] in *. destruct H as [_ H]. unfold alive in H. destruct (nth_error (heap s) m) as [c|] eqn:E; [|discriminate]. exists c. split; assumption.
    + intros (c & HL). exists (c_ident c, n). split; [reflexivity|]. apply filter_In. split; [now apply (i_live s HI)|]. destruct HL as [H1 H2]. cbn [snd]. unfold alive. now rewrite H1.
Qed.

(** * get_value *)
Lemma bound_In m k v : bound m k = Some v -> In (k, v) m.
Proof.
  induction m as [|[k' x] m IH]; [discriminate|]. cbn [bound]. destruct (same_key k k') as [->|]; [intros E; injection E as ->; now left|]. intros E. right. now apply IH.
Qed.
Lemma parses_maps f s : map_result f -> reachable f s -> Forall map_result (parses s).
Proof.
  intros HF HR. induction HR as [|s s' HR IH HS].
  - unfold initial. destruct (create_other (State JNull [] [] None f false 0 true []) path_ident 0) as (_ & _ & _ & _ & -> & _). constructor.
  - destruct (reachable_invariant f s HF HR) as [_ HM]. destruct HS; cbn [parses]; try assumption.
    + destruct (create_other s i cls) as (_ & _ & _ & _ & -> & _). assumption.
    + destruct (begin_other s (file s) (dirty s)) as (_ & _ & _ & _ & -> & _). now constructor.
    + destruct (begin_other s p true) as (_ & _ & _ & _ & -> & _). now constructor.
    + destruct (update_one_other s i n r) as (_ & _ & _ & _ & -> & _). assumption.
Qed.
Lemma config_sorted f s n c m : map_result f -> reachable f s -> nth_error (heap s) n = Some c -> c_values c = JObject m -> sorted_keys m.
Proof.
  intros HF HR HN E. destruct (values_come_from_files f s n c HF HR HN) as [E0|(p & HI & E0)]; [congruence|]. rewrite E in E0. pose proof (parses_maps f s HF HR) as HP. rewrite Forall_forall in HP. specialize (HP p HI).
  unfold section in E0. destruct p as [[| |m0| | | | |]|]; try discriminate. destruct (bound m0 (c_ident c)) as [x|] eqn:EB; [|discriminate]. subst x. destruct HP as [_ HP]. eapply HP. apply bound_In. exact EB.
Qed.
(** get_value<T>(name, def): the value that the config binds to the key named [name], converted to T; and [def] if there is none, or
    the conversion is refused. *)
Theorem get_value_result : forall f s n c (A : Type) sg (convert : json -> outcome A) name k def, map_result f -> reachable f s -> nth_error (heap s) n = Some c ->
  Forall byte name -> names name k ->
  get_value sg convert c name def =
  match match c_values c with JObject m => bound m k | _ => None end with
  | Some x => match convert x with Throw _ => Return def | o => o end
  | None => Return def
  end.
Proof.
  intros f s n c A sg convert name k def HF HR HN HB HK. unfold get_value. destruct (c_values c) as [| |m| | | | |] eqn:E; try reflexivity.
  pose proof (key_of_names sg name k HB HK) as EK. unfold key_of in EK. rewrite EK. pose proof (config_sorted f s n c m HF HR HN E) as HS. rewrite <- (map_find_bound k m HS). now destruct (map_find k m) as [[p x]|].
Qed.
(** A name that is not a valid text never has a value. *)
Theorem get_value_bad_name : forall (A : Type) sg (convert : json -> outcome A) c name def, Forall byte name -> names_nothing name -> get_value sg convert c name def = Return def.
Proof.
  intros A sg convert c name def HB HN. unfold get_value. destruct (c_values c); try reflexivity. pose proof (key_of_nothing sg name HB HN) as EK. unfold key_of in EK. now rewrite EK.
Qed.

(** * Updates come to an end *)
(** [s'] differs from [s] only in what the configs hold (and in which configs are still registered). *)
Definition kept (s s' : state) : Prop :=
  file s' = file s /\ started s' = started s /\
  forall n c, live s n c -> exists c', live s' n c' /\ c_ident c' = c_ident c /\ c_class c' = c_class c.
Lemma kept_refl s : kept s s.
Proof. repeat split. intros n c HL. exists c. auto. Qed.
Lemma kept_trans s t u : kept s t -> kept t u -> kept s u.
Proof.
  intros (A1 & A2 & A3) (B1 & B2 & B3). split; [congruence|]. split; [congruence|]. intros n c HL. destruct (A3 n c HL) as (d & HD & E1 & E2). destruct (B3 n d HD) as (e & HE & E3 & E4).
  exists e. split; [assumption|]. split; congruence.
Qed.
Lemma steps_trans s t u : steps s t -> steps t u -> steps s u.
Proof. intros H1 H2. induction H2; [assumption|]. eapply steps_more; [exact (IHsteps H1)|assumption]. Qed.
Lemma steps_reachable f s t : reachable f s -> steps s t -> reachable f t.
Proof. intros HR. induction 1; [assumption|]. eapply r_step; [exact (IHsteps HR)|assumption]. Qed.
Lemma finish_update r : forall s, updating s = Some r -> exists s', steps s s' /\ kept s s' /\ updating s' = None /\ dirty s' = dirty s /\ tasks s' = tasks s.
Proof.
  induction r as [|[i n] r IH]; intros s HU.
  - eexists. split; [eapply steps_more; [apply steps_none|apply s_update_end; exact HU]|]. cbn. repeat split. intros m c HL. exists c. auto.
  - destruct (update_one_other s i n r) as (A & B & C & D & E & F). destruct (IH (update_one s i n r) F) as (s' & S1 & S2 & S3 & S4 & S5).
    exists s'. split; [eapply steps_trans; [eapply steps_more; [apply steps_none|apply s_update_one; exact HU]|exact S1]|].
    split; [|split; [assumption|split; congruence]]. eapply kept_trans; [|exact S2]. split; [exact A|]. split; [exact D|]. intros m c [H1 H2]. unfold live, update_one. destruct (section_of (values s) i) as [v' x].
    destruct (alive (heap s) n); [|exists c; cbn; auto]. cbn [heap]. rewrite update_nth, H1. eexists. split; [split; [reflexivity|]|]; destruct (m =? n); cbn; auto.
Qed.
Lemma run_tasks k : forall s, tasks s = k -> updating s = None -> started s = true -> dirty s = false ->
  exists s', steps s s' /\ kept s s' /\ quiet s'.
Proof.
  induction k as [|k IH]; intros s HT HU HS HD; [exists s; split; [apply steps_none|split; [apply kept_refl|split; [|split]; assumption]]|].
  destruct (begin_other s (file s) (dirty s)) as (A & B & C & D & E & F & _). set (t := begin_update s (file s) (dirty s)) in *.
  assert (ST : steps s t) by (eapply steps_more; [apply steps_none|apply s_update; [assumption|assumption|congruence]]).
  assert (KT : kept s t). { split; [exact A|]. split; [exact D|]. intros n c HL. exists c. unfold live. rewrite F. auto. }
  assert (FIN : exists u, steps t u /\ kept t u /\ updating u = None /\ dirty u = dirty t /\ tasks u = tasks t).
  { destruct (updating t) as [r|] eqn:EU; [exact (finish_update r t EU)|]. exists t. split; [apply steps_none|]. split; [apply kept_refl|]. auto. }
  destruct FIN as (u & U1 & U2 & U3 & U4 & U5). destruct (IH u) as (v & V1 & V2 & V3); [rewrite U5, C, HT; reflexivity|assumption|destruct U2 as (_ & -> & _); congruence|congruence|].
  exists v. split; [eapply steps_trans; [exact ST|]; eapply steps_trans; eassumption|]. split; [eapply kept_trans; [exact KT|]; eapply kept_trans; eassumption|assumption].
Qed.
(** From every state of a running manager, the monitor and the task runner can bring all configs in line with the file: nothing is
    ever in the way of that. *)
Theorem updates_can_complete : forall f s, map_result f -> reachable f s -> started s = true ->
  exists s', steps s s' /\ quiet s' /\ file s' = file s /\
    forall n c, live s n c -> exists c', live s' n c' /\ c_ident c' = c_ident c /\ (usable (file s) -> c_values c' = section (file s) (c_ident c)).
Proof.
  intros f s HF HR HS. assert (FIN : exists u, steps s u /\ kept s u /\ updating u = None).
  { destruct (updating s) as [r|] eqn:EU; [destruct (finish_update r s EU) as (u & U1 & U2 & U3 & _); eauto|]. exists s. split; [apply steps_none|]. split; [apply kept_refl|assumption]. }
  destruct FIN as (u & U1 & U2 & U3). assert (SU : started u = true) by (destruct U2 as (_ & -> & _); assumption).
  set (t := State (values u) (configs u) (heap u) (updating u) (file u) false (S (tasks u)) (started u) (parses u)).
  assert (ST : step u t) by (apply s_notify; [assumption|reflexivity]).
  destruct (begin_other t (file t) (dirty t)) as (A & B & C & D & E & G & _). set (w := begin_update t (file t) (dirty t)) in *.
  assert (SW : step t w) by (apply s_update; [exact U3|exact SU|discriminate]).
  assert (KW : kept u w). { split; [exact A|]. split; [exact D|]. intros n c HL. exists c. unfold live. rewrite G. auto. }
  assert (FIN : exists x, steps w x /\ kept w x /\ updating x = None /\ dirty x = dirty w /\ tasks x = tasks w).
  { destruct (updating w) as [r|] eqn:EU; [exact (finish_update r w EU)|]. exists w. split; [apply steps_none|]. split; [apply kept_refl|]. auto. }
  destruct FIN as (x & X1 & X2 & X3 & X4 & X5).
  destruct (run_tasks (tasks x) x eq_refl X3) as (v & V1 & V2 & V3); [destruct X2 as (_ & -> & _); rewrite D; exact SU|rewrite X4, B; reflexivity|].
  assert (SV : steps s v).
  { eapply steps_trans; [exact U1|]. eapply steps_trans; [|exact V1]. eapply steps_trans; [|exact X1]. eapply steps_more; [|exact SW]. eapply steps_more; [apply steps_none|exact ST]. }
  assert (KV : kept s v) by (eapply kept_trans; [exact U2|]; eapply kept_trans; [exact KW|]; eapply kept_trans; eassumption).
  exists v. split; [exact SV|]. split; [exact V3|]. destruct KV as (K1 & K2 & K3). split; [exact K1|]. intros n c HL. destruct (K3 n c HL) as (c' & L1 & L2 & _). exists c'. split; [assumption|]. split; [assumption|].
  intros HU. rewrite <- L2, <- K1. apply (quiet_configs_match_the_file f v n c' HF (steps_reachable f s v HR SV) V3); [now rewrite K1| |assumption].
  right. intros EP. assert (NE : forall a b, steps a b -> parses a <> [] -> parses b <> []).
  { intros a b. induction 1 as [|a t' u' HST IHs HSt]; [auto|]. intros HA. specialize (IHs HA). destruct HSt; cbn [parses]; try assumption.
    - now destruct (create_other t' i cls) as (_ & _ & _ & _ & -> & _).
    - destruct (begin_other t' (file t') (dirty t')) as (_ & _ & _ & _ & -> & _). discriminate.
    - destruct (begin_other t' p true) as (_ & _ & _ & _ & -> & _). discriminate.
    - now destruct (update_one_other t' i n0 r) as (_ & _ & _ & _ & -> & _). }
  apply (NE w v (steps_trans _ _ _ X1 V1)); [rewrite E; discriminate|assumption].
Qed.

(** * Refutations and examples *)
Definition name_a : ident := [97%Z].
Definition name_x : list Z := [120%Z].
Definition file_1 : option json := Some (JObject [(name_a, JObject [(name_x, JUnsigned 70000)])]).
Lemma file_1_ok : map_result file_1.
Proof. split; [repeat constructor|]. intros i n [E|[]]. injection E as <- <-. repeat constructor. Qed.
Tactic Notation "go" ident(R) uconstr(c) ident(R') :=
  assert (R' : reachable _ _) by (refine (r_step _ _ _ R _); eapply c; first [reflexivity|discriminate|exact file_1_ok|exact I|intros; discriminate|intros; reflexivity]); clear R;
  cbv - [Z.mul] in R'.

(** The file is changed, reported, parsed and handed out while there is a config for "a"; nothing is left to do then. *)
Lemma loaded : exists s c, reachable None s /\ quiet s /\ started s = true /\ file s = file_1 /\ parses s = [file_1] /\ live s 1 c /\ c_ident c = name_a /\ c_class c = 7 /\
  c_values c = JObject [(name_x, JUnsigned 70000)] /\ length (configs s) = 2.
Proof.
  pose proof (r_initial None) as R.
  go R (s_create _ name_a 7) R1. go R1 (s_file _ file_1) R2. go R2 (s_notify _ false) R3. go R3 s_update R4.
  go R4 s_update_one R5. go R5 s_update_one R6. go R6 s_update_end R7.
  eexists. exists (Config name_a 7 (JObject [(name_x, JUnsigned 70000)]) true). split; [exact R7|]. repeat split.
Qed.
Example example_loaded : exists s c, reachable None s /\ map_result None /\ quiet s /\ started s = true /\ usable (file s) /\ usable (latest s) /\ parses s <> [] /\ live s 1 c /\
  c_values c = section (file s) (c_ident c) /\ c_values c <> JNull.
Proof.
  destruct loaded as (s & c & R & Q & S & F & P & L & I1 & I2 & V & _). exists s, c. split; [exact R|]. split; [exact I|]. split; [exact Q|]. split; [exact S|].
  split; [rewrite F; exact I|]. split; [unfold latest; rewrite P; exact I|]. split; [rewrite P; discriminate|]. split; [exact L|]. rewrite V, I1, F. split; [reflexivity|discriminate].
Qed.
(** In the middle of an update, one config holds its section of the new file and another one still waits. *)
Example example_updating : exists s r, reachable None s /\ updating s = Some r /\ r <> [] /\ usable (latest s) /\ exists n c, live s n c /\ ~ In (c_ident c, n) r /\ c_values c <> JNull.
Proof.
  pose proof (r_initial None) as R.
  go R (s_create _ name_a 7) R1. go R1 (s_file _ file_1) R2. go R2 (s_notify _ false) R3. go R3 s_update R4. go R4 s_update_one R5.
  eexists. eexists. split; [exact R5|]. split; [reflexivity|]. split; [discriminate|]. split; [exact I|]. exists 1, (Config name_a 7 (JObject [(name_x, JUnsigned 70000)]) true).
  split; [split; reflexivity|]. split; [|discriminate]. cbn. intuition discriminate.
Qed.
(** create_config: the existing config, nullptr for another type, a new config when the old one has no owners. *)
Example example_create : exists s t, reachable None s /\ reachable None t /\ updating s = None /\ updating t = None /\
  snd (create_config s name_a 7) = Some 1 /\ snd (create_config s name_a 8) = None /\ snd (create_config t name_a 8) = Some 2 /\ snd (prune s) = 2 /\ snd (prune t) = 1.
Proof.
  pose proof (r_initial None) as R. go R (s_create _ name_a 7) R1. pose proof R1 as R2. go R2 (s_drop _ 1) R3. eexists. eexists. split; [exact R1|]. split; [exact R3|]. repeat split.
Qed.

(** "A running manager's configs hold what the file says": not if the file existed at the start and was not changed since. *)
Theorem initial_file_refuted : exists s n c, map_result file_1 /\ reachable file_1 s /\ quiet s /\ usable (file s) /\ live s n c /\ c_values c <> section (file s) (c_ident c).
Proof.
  pose proof (r_initial file_1) as R. go R (s_create _ name_a 7) R1. eexists. exists 1. eexists. split; [exact file_1_ok|]. split; [exact R1|]. split; [repeat split|]. split; [exact I|].
  split; [split; reflexivity|]. discriminate.
Qed.
(** "A file that holds no key-value pairs makes the configs fall back to the defaults": a config that exists keeps its old values - until
    somebody asks for it again: then it loses them. *)
Theorem non_object_file_refuted : exists s c, reachable None s /\ quiet s /\ file s = Some (JArray []) /\ latest s = file s /\ live s 1 c /\ c_values c = JObject [(name_x, JUnsigned 70000)] /\
  exists d, live (fst (create_config s name_a 7)) 1 d /\ c_values d = JNull.
Proof.
  pose proof (r_initial None) as R.
  go R (s_create _ name_a 7) R1. go R1 (s_file _ file_1) R2. go R2 (s_notify _ false) R3. go R3 s_update R4.
  go R4 s_update_one R5. go R5 s_update_one R6. go R6 s_update_end R7.
  go R7 (s_file _ (Some (JArray []))) R8. go R8 (s_notify _ false) R9. go R9 s_update R10.
  eexists. exists (Config name_a 7 (JObject [(name_x, JUnsigned 70000)]) true). split; [exact R10|]. repeat split. eexists. split; [split; reflexivity|reflexivity].
Qed.
(** "get_value returns the default if the value cannot be converted": 70000 as a std::uint16_t is 4464. *)
Theorem get_value_default_refuted : forall sg def, exists s c, reachable None s /\ live s 1 c /\ names name_x name_x /\
  (exists m, c_values c = JObject m /\ bound m name_x = Some (JUnsigned 70000)) /\ get_value sg (to_integer 16 false) c name_x def = Return 4464%Z.
Proof.
  intros sg def. destruct loaded as (s & c & R & Q & S & F & P & L & I1 & I2 & V & _). exists s, c. split; [exact R|]. split; [exact L|].
  assert (HN : names name_x name_x).
  { apply (construct_iff true); [repeat constructor; unfold byte; lia|reflexivity]. }
  split; [exact HN|]. split; [eexists; split; [exact V|reflexivity]|].
  rewrite (get_value_result None s 1 c Z sg (to_integer 16 false) name_x name_x def I R (proj1 L)); [|constructor; [unfold byte; lia|constructor]|exact HN]. rewrite V. reflexivity.
Qed.
Print Assumptions updates_can_complete.
