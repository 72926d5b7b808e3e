(** C57: replies and owners of tasks. *)
From Verif Require Import Common Reply_Model Reply_Spec.
Open Scope nat_scope.

(** * Lemmas *)
Lemma split_app {A} (h n a : list A) x b : h ++ n = a ++ x :: b ->
  (exists b', h = a ++ x :: b' /\ b = b' ++ n) \/ (exists a', a = h ++ a' /\ n = a' ++ x :: b).
Proof.
  revert a. induction h as [|y h IH]; intros a E; [right; exists a; split; [reflexivity|exact E]|]. destruct a as [|z a].
  - injection E as -> <-. left. exists h. auto.
  - injection E as -> E. destruct (IH a E) as [(b' & -> & ->)|(a' & -> & ->)]; [left; exists b'; auto|right; exists a'; auto].
Qed.
Definition always (P : list event -> event -> Prop) (h : list event) : Prop := forall a e b, h = a ++ e :: b -> P a e.
Lemma always_nil P : always P [].
Proof. intros a e b E. destruct a; discriminate. Qed.
Lemma always_snoc P h e : always P h -> P h e -> always P (h ++ [e]).
Proof.
  intros HA HP a x b E. destruct (split_app _ _ _ _ _ E) as [(b' & -> & ->)|(a' & -> & E')]; [exact (HA a x b' eq_refl)|].
  destruct a' as [|y a']; [injection E' as <- <-; now rewrite app_nil_r|]. injection E' as _ E'. destruct a'; discriminate.
Qed.
Lemma always_more P h l : always P h -> (forall a e b, l = a ++ e :: b -> P (h ++ a) e) -> always P (h ++ l).
Proof.
  revert h. induction l as [|e l IH]; intros h HA HP; [now rewrite app_nil_r|]. replace (h ++ e :: l) with ((h ++ [e]) ++ l) by now rewrite <- app_assoc.
  apply IH; [apply always_snoc; [assumption|]; specialize (HP [] e l eq_refl); now rewrite app_nil_r in HP|]. intros a x b ->. rewrite <- app_assoc. apply (HP (e :: a) x b). reflexivity.
Qed.
Lemma existsb_in x l : existsb (Nat.eqb x) l = true <-> In x l.
Proof. rewrite existsb_exists. split; [intros (y & H & E); apply Nat.eqb_eq in E; now subst|intros H; exists x; split; [assumption|apply Nat.eqb_refl]]. Qed.
Lemma existsb_not_in x l : existsb (Nat.eqb x) l = false <-> ~ In x l.
Proof. rewrite <- existsb_in. destruct (existsb (Nat.eqb x) l); intuition congruence. Qed.
Lemma in_died e b a o : In e (died b a o) <-> exists x, o = Some x /\ e = EDead x /\ In x b /\ ~ In x a.
Proof.
  unfold died. destruct o as [x|]; [|split; [intros []|intros (x & E & _); discriminate]].
  destruct (existsb (Nat.eqb x) b) eqn:EB; [apply existsb_in in EB|apply existsb_not_in in EB]; (destruct (existsb (Nat.eqb x) a) eqn:EA; [apply existsb_in in EA|apply existsb_not_in in EA]); cbn; split.
  all: try (intros []; fail). all: try (intros (y & E & _ & H1 & H2); injection E as <-; contradiction).
  - intros [<-|[]]. exists x. auto.
  - intros (y & E & -> & _). injection E as ->. now left.
Qed.
Lemma died_is b a o : died b a o = [] \/ exists x, o = Some x /\ died b a o = [EDead x] /\ In x b /\ ~ In x a.
Proof.
  destruct (died b a o) as [|e l] eqn:E; [now left|]. right. assert (HI : In e (died b a o)) by (rewrite E; now left). apply in_died in HI. destruct HI as (x & -> & -> & H1 & H2). exists x.
  split; [reflexivity|]. split; [|auto]. revert E. unfold died. destruct (_ && _); [|discriminate]. intros E. injection E as <-. reflexivity.
Qed.

(** * Counting the runs *)
Definition f_task (n : nat) (i : item) : bool := (i_task i =? n) && match i_result i with None => true | Some _ => false end.
Definition f_reply (n : nat) (i : item) : bool := (i_task i =? n) && match i_result i with None => false | Some _ => true end.
Definition cnt (f : item -> bool) (l : list item) : nat := length (filter f l).
Lemma cnt_app f a b : cnt f (a ++ b) = cnt f a + cnt f b.
Proof. unfold cnt. now rewrite filter_app, app_length. Qed.
Lemma cnt_cons f x b : cnt f (x :: b) = (if f x then 1 else 0) + cnt f b.
Proof. unfold cnt. cbn [filter]. destruct (f x); reflexivity. Qed.
Lemma cnt_nil f : cnt f [] = 0. Proof. reflexivity. Qed.
Lemma cnt_in f l i : In i l -> f i = true -> 1 <= cnt f l.
Proof. intros HI HF. unfold cnt. destruct (filter f l) eqn:E; [|cbn; lia]. assert (In i (filter f l)) by (apply filter_In; auto). rewrite E in H. contradiction. Qed.
Definition handled (h : list event) : list item := flat_map (fun e => match e with EStart i | ESkip i | EDrop i => [i] | _ => [] end) h.
Definition active (r : list (item * phase)) : list item := flat_map (fun x => match snd x with Posted _ => [] | _ => [fst x] end) r.
Lemma handled_app a b : handled (a ++ b) = handled a ++ handled b. Proof. apply flat_map_app. Qed.
Lemma active_app a b : active (a ++ b) = active a ++ active b. Proof. apply flat_map_app. Qed.
Lemma handled_died b a o : handled (died b a o) = [].
Proof. destruct (died_is b a o) as [->|(x & _ & -> & _)]; reflexivity. Qed.
Definition n_task (s : state) (n : nat) : nat := cnt (f_task n) (delayed s) + cnt (f_task n) (queue s) + cnt (f_task n) (handled (hist s)).
Definition n_reply (s : state) (n : nat) : nat :=
  cnt (f_reply n) (delayed s) + cnt (f_reply n) (queue s) + cnt (f_reply n) (handled (hist s)) + cnt (f_task n) (delayed s) + cnt (f_task n) (queue s) + cnt (f_task n) (active (running s)).
Definition plain (i : item) : Prop := i_result i <> None -> i_reply i = None.
Definition counts (s : state) : Prop :=
  (forall n, n_task s n <= 1 /\ n_reply s n <= 1) /\ (forall n, next s <= n -> n_task s n = 0 /\ n_reply s n = 0) /\
  Forall plain (delayed s) /\ Forall plain (queue s) /\ Forall (fun x => plain (fst x)) (running s).
Lemma f_wrapped_task n m d o c r : f_task n (wrapped m d o c r) = (m =? n). Proof. unfold f_task, wrapped. cbn. apply Bool.andb_true_r. Qed.
Lemma f_wrapped_reply n m d o c r : f_reply n (wrapped m d o c r) = false. Proof. unfold f_reply, wrapped. cbn. apply Bool.andb_false_r. Qed.
Lemma f_reply_of_task n i v : f_task n (reply_of i v) = false. Proof. unfold f_task, reply_of. cbn. apply Bool.andb_false_r. Qed.
Lemma f_reply_of_reply n i v : plain i -> i_reply i <> None -> f_reply n (reply_of i v) = f_task n i.
Proof. intros HP HR. unfold plain in HP. unfold f_reply, f_task, reply_of. cbn. destruct (i_result i); [exfalso; apply HR, HP; discriminate|reflexivity]. Qed.
Lemma step_counts q s s' : counts s -> step q s s' -> counts s'.
Proof.
  intros (C1 & C2 & C3 & C4 & C5) HS. unfold counts, n_task, n_reply in *.
  destruct HS; try match goal with i := _ |- _ => subst i end; repeat match goal with H : delayed s = _ |- _ => rewrite H in * | H : queue s = _ |- _ => rewrite H in * | H : running s = _ |- _ => rewrite H in * end;
    cbn [delayed queue running hist next] in *; rewrite ?Forall_app, ?Forall_cons_iff in *; cbn [fst] in *.
  all: (split; [|split; [|intuition auto]]).
  all: try match goal with |- Forall _ (if _ then _ else _) => destruct delay; rewrite ?Forall_app; intuition auto; constructor; [|constructor]; intros K; now contradiction K end.
  all: try match goal with |- plain (reply_of _ _) => intros _; reflexivity end.
  all: try (constructor; [intros _; reflexivity|constructor]).
  all: intros m; try (intros Hm); specialize (C1 m); pose proof (C2 m) as C2m; try destruct delay;
    repeat rewrite ?handled_app, ?active_app, ?handled_died, ?app_nil_r, ?cnt_app, ?cnt_cons, ?cnt_nil in *;
    cbn [handled active flat_map snd fst app] in *; repeat rewrite ?cnt_app, ?cnt_cons, ?cnt_nil, ?handled_died in *; rewrite ?f_wrapped_task, ?f_wrapped_reply, ?f_reply_of_task in *.
  all: try match goal with H : i_reply ?i = Some _ |- context [f_reply _ (reply_of ?i _)] => rewrite f_reply_of_reply by (tauto || congruence) end.
  all: try (fold (active r) in *).
  all: try (destruct (Nat.eqb_spec (next s) m)); repeat match goal with |- context [if ?f ?m ?x then _ else _] => destruct (f m x) end; try lia.
Qed.
Lemma reachable_counts q os s : reachable q os s -> counts s.
Proof.
  induction 1 as [|s s' HR IH HS]; [|exact (step_counts q s s' IH HS)]. unfold counts, n_task, n_reply. cbn. split; [|split]; auto with arith.
Qed.

(** * What is in the history *)
Definition made (h : list event) (i : item) : Prop :=
  match i_result i with
  | None => In (EPost i) h
  | Some v => exists t, In (EPost t) h /\ In (EReturn t v) h /\ i_result t = None /\ i_reply t <> None /\ i = reply_of t v
  end.
Definition good (q : bool) (os : list nat) (a : list event) (e : event) : Prop :=
  match e with
  | EPost i => is_task i
  | EQueue i => made a i
  | EDrop i => True
  | EStart i => In (EQueue i) a /\ made a i /\ (forall o, i_owner i = Some o -> ~ In (EDead o) a) /\ (q = true -> forall j, In (EStart j) a -> exists v, In (EReturn j v) a)
  | EReturn i v => In (EStart i) a
  | ESkip i => In (EQueue i) a /\ made a i /\ exists o, i_owner i = Some o /\ (In o os -> In (EDead o) a)
  | EDead o => forall i, i_owner i = Some o -> In (EStart i) a -> exists v, In (EReturn i v) a
  end.
Record accounts (q : bool) (os : list nat) (s : state) : Prop := {
  a_good : always (good q os) (hist s);
  a_delayed : forall i, In i (delayed s) -> is_task i /\ In (EPost i) (hist s);
  a_queue : forall i, In i (queue s) -> made (hist s) i /\ In (EQueue i) (hist s);
  a_running : forall i p, In (i, p) (running s) -> made (hist s) i /\ In (EStart i) (hist s) /\ match p with Returned v _ => In (EReturn i v) (hist s) | _ => True end;
  a_dead : forall o, In (EDead o) (hist s) -> ~ In o (strong s);
  a_owner : forall o, In o os -> In o (strong s) \/ In (EDead o) (hist s);
  a_posted : forall i, In (EPost i) (hist s) -> In i (delayed s) \/ In (EQueue i) (hist s) \/ In (EDrop i) (hist s);
  a_queued : undefined s = false -> forall i, In (EQueue i) (hist s) -> In i (queue s) \/ In (EStart i) (hist s) \/ In (ESkip i) (hist s) \/ In (EDrop i) (hist s);
  a_started : forall i, In (EStart i) (hist s) -> In (i, Invoked) (running s) \/ exists v, In (EReturn i v) (hist s);
  a_returned : undefined s = false -> forall i v, In (EReturn i v) (hist s) -> i_reply i <> None ->
    (exists h, In (i, Returned v h) (running s)) \/ In (EQueue (reply_of i v)) (hist s) \/ In (EDrop (reply_of i v)) (hist s);
  a_dropped : forall i, In (EDrop i) (hist s) -> closed s = true;
  a_order : q = true -> closed s = false -> undefined s = false -> handed (hist s) = taken (hist s) ++ queue s;
  a_one : q = true -> length (running s) <= 1;
  a_defined : undefined s = true -> ~ no_references (hist s) }.
Lemma made_more h l i : made h i -> made (h ++ l) i.
Proof.
  unfold made. destruct (i_result i); [intros (t & A & B & C & D & E); exists t; rewrite !in_app_iff; auto|intros H; rewrite in_app_iff; auto].
Qed.
Lemma handed_app a b : handed (a ++ b) = handed a ++ handed b. Proof. apply flat_map_app. Qed.
Lemma taken_app a b : taken (a ++ b) = taken a ++ taken b. Proof. apply flat_map_app. Qed.
Lemma handed_died b a o : handed (died b a o) = []. Proof. destruct (died_is b a o) as [->|(x & _ & -> & _)]; reflexivity. Qed.
Lemma taken_died b a o : taken (died b a o) = []. Proof. destruct (died_is b a o) as [->|(x & _ & -> & _)]; reflexivity. Qed.
Lemma locked_strong s i o : locked s i = true -> i_owner i = Some o -> In o (strong s).
Proof. intros HL E. unfold locked in HL. rewrite E in HL. now apply existsb_in in HL. Qed.
Lemma unlocked_dead q os s i : accounts q os s -> locked s i = false -> exists o, i_owner i = Some o /\ (In o os -> In (EDead o) (hist s)).
Proof.
  intros HA HL. unfold locked in HL. destruct (i_owner i) as [o|]; [|discriminate]. apply existsb_not_in in HL. exists o. split; [reflexivity|]. intros HO. destruct (a_owner q os s HA o HO); [contradiction|assumption].
Qed.
Lemma dangling_reference s i c : dangling s c = true -> (forall h, no_references h -> In (EPost i) h -> c = Value) -> forall h, In (EPost i) h -> ~ no_references h.
Proof. intros HD HV h HI HN. specialize (HV h HN HI). subst c. discriminate. Qed.
Lemma made_references h i : made h i -> no_references h -> i_code i = Value.
Proof. unfold made. destruct (i_result i); [intros (t & _ & _ & _ & _ & ->) _; reflexivity|]. intros H HN. now apply HN in H. Qed.
Lemma made_reply h i c : made h i -> i_reply i = Some c -> no_references h -> c = Value.
Proof. unfold made. destruct (i_result i); [intros (t & _ & _ & _ & _ & ->); discriminate|]. intros H E HN. apply HN in H. now apply H. Qed.
Lemma returned_reply h i v c : made h i -> In (EReturn i v) h -> i_reply i = Some c -> made h (reply_of i v).
Proof.
  unfold made at 1. destruct (i_result i) eqn:E; [intros (t & _ & _ & _ & _ & ->); discriminate|]. intros H1 H2 H3. unfold made. cbn. exists i. repeat split; auto. congruence.
Qed.
Lemma strong_in s o : In o (strong s) <-> In o (refs s) \/ exists i p, In (i, p) (running s) /\ In o (held (i, p)).
Proof.
  unfold strong. rewrite in_app_iff, in_flat_map. split; (intros [H|H]; [now left|right]); [destruct H as ([i p] & H1 & H2); eauto|destruct H as (i & p & H1 & H2); eauto].
Qed.
Ltac inh := rewrite ?in_app_iff; cbn [In]; rewrite ?in_died.
Ltac hin H := rewrite ?in_app_iff in H; cbn [In] in H; rewrite ?in_died in H.

Lemma good_app q os h l : always (good q os) h -> (forall a e b, l = a ++ e :: b -> good q os (h ++ a) e) -> always (good q os) (h ++ l).
Proof. apply always_more. Qed.
Ltac one_event := intros a e b E; destruct a as [|? a]; [injection E as <- <-; rewrite ?app_nil_r|injection E as _ E; destruct a; discriminate].

(** A step that only removes references: owners may die. *)
Lemma good_died q os s h l after o : always (good q os) (h ++ l) ->
  (forall i, In (EStart i) (h ++ l) -> i_owner i = o -> o <> None -> forall x, o = Some x -> ~ In x after -> exists v, In (EReturn i v) (h ++ l)) ->
  always (good q os) ((h ++ l) ++ died (strong s) after o).
Proof.
  intros HA HD. destruct (died_is (strong s) after o) as [->|(x & -> & -> & H1 & H2)]; [now rewrite app_nil_r|]. apply always_snoc; [assumption|]. cbn. intros i EO HS. refine (HD i HS EO _ x eq_refl H2). discriminate.
Qed.

Lemma step_accounts q os s s' : accounts q os s -> step q s s' -> accounts q os s'.
Proof.
  intros HA HS. pose proof HA as [A1 A2 A3 A4 A5 A6 A7 A8 A9 A10 A11 A12 A13 A14]. destruct HS; try match goal with i := _ |- _ => subst i end.
  - (* post *)
    set (i := wrapped (next s) delay owner task reply). set (new := EPost i :: (if delay then [] else [EQueue i])).
    assert (HQ : In (EQueue i) new <-> delay = false) by (unfold new; destruct delay; cbn; intuition congruence).
    assert (HP : In (EPost i) new) by (unfold new; now left).
    assert (HO : forall e, In e new -> e = EPost i \/ (delay = false /\ e = EQueue i)) by (unfold new; destruct delay; cbn; intuition auto).
    split; cbn [delayed queue running hist closed undefined]; unfold strong; cbn [refs running]; fold (strong s).
    + apply good_app; [assumption|]. intros a e b E. unfold new in E. destruct a as [|x a]; [injection E as <- _; reflexivity|]. injection E as <- E. destruct delay; [destruct a; discriminate|].
      destruct a as [|x a]; [injection E as <- _|injection E as _ E; destruct a; discriminate]. cbn. unfold made, i. cbn. rewrite in_app_iff. right. now left.
    + intros j HJ. assert (In j (delayed s) \/ j = i /\ delay = true) as [HJ'|[-> _]] by (destruct delay; [apply in_app_iff in HJ; cbn in HJ; intuition auto|auto]).
      * destruct (A2 j HJ'). inh. auto.
      * split; [reflexivity|]. inh. auto.
    + intros j HJ. assert (In j (queue s) \/ j = i /\ delay = false) as [HJ'|[-> ED]] by (destruct delay; [auto|apply in_app_iff in HJ; cbn in HJ; intuition auto]).
      * destruct (A3 j HJ'). split; [now apply made_more|]. inh. auto.
      * split; [unfold made, i; cbn; inh; auto|]. inh. right. now apply HQ.
    + intros j p HJ. destruct (A4 j p HJ) as (B1 & B2 & B3). split; [now apply made_more|]. split; [inh; auto|]. destruct p; auto. inh. auto.
    + intros o HD. apply in_app_iff in HD. destruct HD as [HD|HD]; [exact (A5 o HD)|]. apply HO in HD. destruct HD as [HD|[_ HD]]; discriminate.
    + intros o HI. inh. destruct (A6 o HI); auto.
    + intros j HJ. apply in_app_iff in HJ. destruct HJ as [HJ|HJ].
      * inh. destruct (A7 j HJ) as [|[|]]; auto. left. destruct delay; inh; auto.
      * apply HO in HJ. destruct HJ as [HJ|[_ HJ]]; [|discriminate]. injection HJ as ->. destruct delay; [left; inh; auto|]. right. left. inh. right. now apply HQ.
    + intros HU j HJ. apply in_app_iff in HJ. destruct HJ as [HJ|HJ].
      * inh. destruct (A8 H j HJ) as [|[|[|]]]; auto. left. destruct delay; inh; auto.
      * apply HO in HJ. destruct HJ as [HJ|[-> HJ]]; [discriminate|]. injection HJ as ->. left. inh. auto.
    + intros j HJ. apply in_app_iff in HJ. destruct HJ as [HJ|HJ]; [|apply HO in HJ; destruct HJ as [HJ|[_ HJ]]; discriminate]. destruct (A9 j HJ) as [|(v & Hv)]; [auto|]. right. exists v. inh. auto.
    + intros HU j v HJ HR. apply in_app_iff in HJ. destruct HJ as [HJ|HJ]; [|apply HO in HJ; destruct HJ as [HJ|[_ HJ]]; discriminate]. inh. destruct (A10 H j v HJ HR) as [|[|]]; auto.
    + intros j HJ. apply in_app_iff in HJ. destruct HJ as [HJ|HJ]; [|apply HO in HJ; destruct HJ as [HJ|[_ HJ]]; discriminate]. eauto.
    + intros Q C U. rewrite handed_app, taken_app, A12 by assumption. unfold new. destruct delay; cbn [handed taken flat_map app]; rewrite ?app_nil_r, ?app_assoc; reflexivity.
    + assumption.
    + discriminate.
  - (* post_closed *)
    set (i := wrapped (next s) delay owner task reply).
    split; cbn [delayed queue running hist closed undefined]; unfold strong; cbn [refs running]; fold (strong s).
    + apply good_app; [assumption|]. intros a e b E. destruct a as [|x a]; [injection E as <- _; reflexivity|]. injection E as <- E. destruct a as [|x a]; [injection E as <- _; exact I|injection E as _ E; destruct a; discriminate].
    + intros j HJ. destruct (A2 j HJ). inh. auto.
    + intros j HJ. destruct (A3 j HJ). split; [now apply made_more|]. inh. auto.
    + intros j p HJ. destruct (A4 j p HJ) as (B1 & B2 & B3). split; [now apply made_more|]. split; [inh; auto|]. destruct p; auto. inh. auto.
    + intros o HD. hin HD. intuition (try discriminate). eauto.
    + intros o HI. inh. destruct (A6 o HI); auto.
    + intros j HJ. hin HJ. inh. destruct HJ as [HJ|[HJ|[HJ|[]]]]; [destruct (A7 j HJ) as [|[|]]; auto| |discriminate]. injection HJ as <-. auto 6.
    + intros HU j HJ. hin HJ. inh. destruct HJ as [HJ|[HJ|[HJ|[]]]]; [destruct (A8 H j HJ) as [|[|[|]]]; auto 6|discriminate|discriminate].
    + intros j HJ. hin HJ. destruct HJ as [HJ|[HJ|[HJ|[]]]]; [|discriminate|discriminate]. destruct (A9 j HJ) as [|(v & Hv)]; [auto|]. right. exists v. inh. auto.
    + intros HU j v HJ HR. hin HJ. destruct HJ as [HJ|[HJ|[HJ|[]]]]; [|discriminate|discriminate]. inh. destruct (A10 H j v HJ HR) as [|[|]]; auto.
    + reflexivity.
    + intros Q C U. discriminate.
    + assumption.
    + discriminate.
  - (* due *)
    split; cbn [delayed queue running hist closed undefined]; unfold strong; cbn [refs running]; fold (strong s).
    all: assert (HI : In i (delayed s)) by (rewrite H0; apply in_elt); destruct (A2 i HI) as [HT HP].
    + apply good_app; [assumption|]. one_event. cbn. unfold made. rewrite HT. exact HP.
    + intros j HJ. assert (HJ' : In j (delayed s)) by (rewrite H0, in_app_iff in *; cbn; intuition auto). destruct (A2 j HJ'). inh. auto.
    + intros j HJ. apply in_app_iff in HJ. destruct HJ as [HJ|[<-|[]]]; [destruct (A3 j HJ); split; [now apply made_more|inh; auto]|]. split; [apply made_more; unfold made; now rewrite HT|inh; auto].
    + intros j p HJ. destruct (A4 j p HJ) as (B1 & B2 & B3). split; [now apply made_more|]. split; [inh; auto|]. destruct p; auto. inh. auto.
    + intros o HD. hin HD. intuition (try discriminate). eauto.
    + intros o HO. inh. destruct (A6 o HO); auto.
    + intros j HJ. hin HJ. inh. destruct HJ as [HJ|[HJ|[]]]; [|discriminate]. destruct (A7 j HJ) as [HD|[|]]; auto. rewrite H0 in HD. apply in_app_iff in HD. destruct HD as [|[<-|]]; auto 8.
    + intros HU j HJ. hin HJ. inh. destruct HJ as [HJ|[HJ|[]]]; [destruct (A8 H j HJ) as [|[|[|]]]; auto|]. injection HJ as <-. auto.
    + intros j HJ. hin HJ. destruct HJ as [HJ|[HJ|[]]]; [|discriminate]. destruct (A9 j HJ) as [|(v & Hv)]; [auto|]. right. exists v. inh. auto.
    + intros HU j v HJ HR. hin HJ. destruct HJ as [HJ|[HJ|[]]]; [|discriminate]. inh. destruct (A10 H j v HJ HR) as [|[|]]; auto.
    + intros j HJ. hin HJ. intuition (try discriminate). eauto.
    + intros Q C U. rewrite handed_app, taken_app, A12 by assumption. cbn [handed taken flat_map app]. now rewrite app_nil_r, app_assoc.
    + assumption.
    + discriminate.
  - (* start *)
    assert (HI : In i (queue s)) by (rewrite H0; apply in_elt). destruct (A3 i HI) as [HM HQ].
    assert (ST : forall o, In o (refs s ++ flat_map held (running s ++ [(i, Invoked)])) <-> In o (strong s)).
    { intros o. rewrite flat_map_app, app_assoc. fold (strong s). cbn [flat_map]. rewrite app_nil_r, in_app_iff. split; [|auto]. intros [|HH]; [assumption|]. unfold held in HH. cbn in HH. destruct (i_owner i) as [o'|] eqn:EO; [|contradiction].
      destruct HH as [<-|[]]. exact (locked_strong s i o' H2 EO). }
    split; cbn [delayed queue running hist closed undefined]; unfold strong; cbn [refs running].
    + apply good_app; [assumption|]. one_event. cbn. split; [assumption|]. split; [assumption|]. split.
      * intros o EO HD. exact (A5 o HD (locked_strong s i o H2 EO)).
      * intros Q j HJ. destruct (H1 Q) as [_ HR]. destruct (A9 j HJ) as [HJ'|]; [rewrite HR in HJ'; contradiction|assumption].
    + intros j HJ. destruct (A2 j HJ). inh. auto.
    + intros j HJ. assert (HJ' : In j (queue s)) by (rewrite H0, in_app_iff in *; cbn; intuition auto). destruct (A3 j HJ'). split; [now apply made_more|]. inh. auto.
    + intros j p HJ. apply in_app_iff in HJ. destruct HJ as [HJ|[HJ|[]]].
      * destruct (A4 j p HJ) as (B1 & B2 & B3). split; [now apply made_more|]. split; [inh; auto|]. destruct p; auto. inh. auto.
      * injection HJ as <- <-. split; [now apply made_more|]. split; [inh; auto|exact I].
    + intros o HD. hin HD. rewrite ST. intuition (try discriminate). eauto.
    + intros o HO. rewrite ST. inh. destruct (A6 o HO); auto.
    + intros j HJ. hin HJ. inh. destruct HJ as [HJ|[HJ|[]]]; [|discriminate]. destruct (A7 j HJ) as [HD|[|]]; auto.
    + intros HU j HJ. hin HJ. inh. destruct HJ as [HJ|[HJ|[]]]; [|discriminate]. destruct (A8 H j HJ) as [HD|[|[|]]]; auto. rewrite H0 in HD. apply in_app_iff in HD. destruct HD as [|[<-|]]; auto 8.
    + intros j HJ. hin HJ. inh. destruct HJ as [HJ|[HJ|[]]]; [|injection HJ as <-; auto]. destruct (A9 j HJ) as [|(v & Hv)]; [auto|]. right. exists v. inh. auto.
    + intros HU j v HJ HR. hin HJ. destruct HJ as [HJ|[HJ|[]]]; [|discriminate]. inh. destruct (A10 H j v HJ HR) as [(h & Hh)|[|]]; auto. left. exists h. inh. auto.
    + intros j HJ. hin HJ. intuition (try discriminate). eauto.
    + intros Q C U. destruct (H1 Q) as [-> _]. rewrite handed_app, taken_app, A12, H0 by assumption. cbn [handed taken flat_map app]. now rewrite app_nil_r, <- app_assoc.
    + intros Q. destruct (H1 Q) as [_ ->]. cbn. lia.
    + discriminate.
  - (* start_dangling *)
    assert (HI : In i (queue s)) by (rewrite H0; apply in_elt). destruct (A3 i HI) as [HM HQ].
    assert (NR : ~ no_references (hist s)) by (intros HN; rewrite (made_references _ i HM HN) in H3; discriminate).
    split; cbn [delayed queue running hist closed undefined]; unfold strong; cbn [refs running]; fold (strong s); auto; try discriminate.
    + intros j HJ. apply A3. rewrite H0, in_app_iff in *. cbn. intuition auto.
  - (* skip *)
    assert (HI : In i (queue s)) by (rewrite H0; apply in_elt). destruct (A3 i HI) as [HM HQ].
    split; cbn [delayed queue running hist closed undefined]; unfold strong; cbn [refs running]; fold (strong s).
    + apply good_app; [assumption|]. one_event. cbn. split; [assumption|]. split; [assumption|]. exact (unlocked_dead q os s i HA H2).
    + intros j HJ. destruct (A2 j HJ). inh. auto.
    + intros j HJ. assert (HJ' : In j (queue s)) by (rewrite H0, in_app_iff in *; cbn; intuition auto). destruct (A3 j HJ'). split; [now apply made_more|]. inh. auto.
    + intros j p HJ. destruct (A4 j p HJ) as (B1 & B2 & B3). split; [now apply made_more|]. split; [inh; auto|]. destruct p; auto. inh. auto.
    + intros o HD. hin HD. intuition (try discriminate). eauto.
    + intros o HO. inh. destruct (A6 o HO); auto.
    + intros j HJ. hin HJ. inh. destruct HJ as [HJ|[HJ|[]]]; [|discriminate]. destruct (A7 j HJ) as [HD|[|]]; auto.
    + intros HU j HJ. hin HJ. inh. destruct HJ as [HJ|[HJ|[]]]; [|discriminate]. destruct (A8 H j HJ) as [HD|[|[|]]]; auto. rewrite H0 in HD. apply in_app_iff in HD. destruct HD as [|[<-|]]; auto 8.
    + intros j HJ. hin HJ. destruct HJ as [HJ|[HJ|[]]]; [|discriminate]. destruct (A9 j HJ) as [|(v & Hv)]; [auto|]. right. exists v. inh. auto.
    + intros HU j v HJ HR. hin HJ. destruct HJ as [HJ|[HJ|[]]]; [|discriminate]. inh. destruct (A10 H j v HJ HR) as [|[|]]; auto.
    + intros j HJ. hin HJ. intuition (try discriminate). eauto.
    + intros Q C U. destruct (H1 Q) as [-> _]. rewrite handed_app, taken_app, A12, H0 by assumption. cbn [handed taken flat_map app]. now rewrite app_nil_r, <- app_assoc.
    + assumption.
    + discriminate.
  - (* drop *)
    split; cbn [delayed queue running hist closed undefined]; unfold strong; cbn [refs running]; fold (strong s).
    + apply good_app; [assumption|]. one_event. exact I.
    + intros j HJ. destruct (A2 j HJ). inh. auto.
    + intros j HJ. assert (HJ' : In j (queue s)) by (rewrite H1, in_app_iff in *; cbn; intuition auto). destruct (A3 j HJ'). split; [now apply made_more|]. inh. auto.
    + intros j p HJ. destruct (A4 j p HJ) as (B1 & B2 & B3). split; [now apply made_more|]. split; [inh; auto|]. destruct p; auto. inh. auto.
    + intros o HD. hin HD. intuition (try discriminate). eauto.
    + intros o HO. inh. destruct (A6 o HO); auto.
    + intros j HJ. hin HJ. inh. destruct HJ as [HJ|[HJ|[]]]; [|discriminate]. destruct (A7 j HJ) as [HD|[|]]; auto.
    + intros HU j HJ. hin HJ. inh. destruct HJ as [HJ|[HJ|[]]]; [|discriminate]. destruct (A8 H j HJ) as [HD|[|[|]]]; auto. rewrite H1 in HD. apply in_app_iff in HD. destruct HD as [|[<-|]]; auto 6.
    + intros j HJ. hin HJ. destruct HJ as [HJ|[HJ|[]]]; [|discriminate]. destruct (A9 j HJ) as [|(v & Hv)]; [auto|]. right. exists v. inh. auto.
    + intros HU j v HJ HR. hin HJ. destruct HJ as [HJ|[HJ|[]]]; [|discriminate]. inh. destruct (A10 H j v HJ HR) as [|[|]]; auto.
    + auto.
    + congruence.
    + assumption.
    + discriminate.
  - (* drop_delayed *)
    split; cbn [delayed queue running hist closed undefined]; unfold strong; cbn [refs running]; fold (strong s).
    + apply good_app; [assumption|]. one_event. exact I.
    + intros j HJ. assert (HJ' : In j (delayed s)) by (rewrite H1, in_app_iff in *; cbn; intuition auto). destruct (A2 j HJ'). inh. auto.
    + intros j HJ. destruct (A3 j HJ). split; [now apply made_more|]. inh. auto.
    + intros j p HJ. destruct (A4 j p HJ) as (B1 & B2 & B3). split; [now apply made_more|]. split; [inh; auto|]. destruct p; auto. inh. auto.
    + intros o HD. hin HD. intuition (try discriminate). eauto.
    + intros o HO. inh. destruct (A6 o HO); auto.
    + intros j HJ. hin HJ. inh. destruct HJ as [HJ|[HJ|[]]]; [|discriminate]. destruct (A7 j HJ) as [HD|[|]]; auto. rewrite H1 in HD. apply in_app_iff in HD. destruct HD as [|[<-|]]; auto 6.
    + intros HU j HJ. hin HJ. inh. destruct HJ as [HJ|[HJ|[]]]; [|discriminate]. destruct (A8 H j HJ) as [HD|[|[|]]]; auto.
    + intros j HJ. hin HJ. destruct HJ as [HJ|[HJ|[]]]; [|discriminate]. destruct (A9 j HJ) as [|(v & Hv)]; [auto|]. right. exists v. inh. auto.
    + intros HU j v HJ HR. hin HJ. destruct HJ as [HJ|[HJ|[]]]; [|discriminate]. inh. destruct (A10 H j v HJ HR) as [|[|]]; auto.
    + auto.
    + congruence.
    + assumption.
    + discriminate.
  - (* return *)
    assert (HI : In (i, Invoked) (running s)) by (rewrite H0; apply in_elt). destruct (A4 i Invoked HI) as (HM & HSt & _).
    set (after := refs s ++ flat_map held (l ++ (i, Returned v h) :: r)). set (dead := died (strong s) after (i_owner i)).
    assert (SUB : forall o, In o after -> In o (strong s)).
    { intros o. unfold after, strong. rewrite H0, !flat_map_app. cbn [flat_map]. rewrite !in_app_iff. intros [|[|[HH|]]]; auto 6. right. right. left. unfold held in *. cbn in *. destruct (i_owner i); [|contradiction]. destruct h; [assumption|contradiction]. }
    assert (SAME : forall o, In o (strong s) -> In o after \/ In (EDead o) dead).
    { intros o HO. destruct (in_dec Nat.eq_dec o after) as [|N]; [auto|]. right. unfold dead. apply in_died. exists o. split; [|auto]. unfold strong in HO. rewrite H0, flat_map_app in HO. cbn [flat_map] in HO.
      unfold after in N. rewrite flat_map_app in N. cbn [flat_map] in N. rewrite !in_app_iff in HO, N. destruct HO as [|[|[HH|]]]; try tauto. unfold held in HH. cbn in HH. destruct (i_owner i); [|contradiction]. destruct HH as [->|[]]. reflexivity. }
    assert (INV : forall j p, In (j, p) (l ++ r) -> In (j, p) (running s)) by (intros j p; rewrite H0, !in_app_iff; cbn; tauto).
    assert (RUN : forall j, In (j, Invoked) (running s) -> j = i \/ In (j, Invoked) (l ++ (i, Returned v h) :: r)).
    { intros j. rewrite H0, !in_app_iff. cbn. intros [|[E|]]; auto 6. injection E as ->. auto. }
    split; cbn [delayed queue running hist closed undefined]; fold after dead; unfold strong; cbn [refs running]; fold after.
    + replace (hist s ++ EReturn i v :: dead) with ((hist s ++ [EReturn i v]) ++ dead) by now rewrite <- app_assoc. unfold dead. apply good_died; [apply always_snoc; [assumption|exact HSt]|].
      intros j HJ EO _ x EX NX. hin HJ. destruct HJ as [HJ|[HJ|[]]]; [|discriminate]. destruct (A9 j HJ) as [HR|(w & Hw)]; [|exists w; inh; auto]. destruct (RUN j HR) as [->|HR']; [exists v; inh; auto|].
      exfalso. apply NX. unfold after. rewrite in_app_iff, in_flat_map. right. exists (j, Invoked). split; [assumption|]. unfold held. cbn. rewrite EO, EX. now left.
    + intros j HJ. destruct (A2 j HJ). inh. auto.
    + intros j HJ. destruct (A3 j HJ). split; [now apply made_more|]. inh. auto.
    + intros j p HJ. apply in_app_iff in HJ. destruct HJ as [HJ|[HJ|HJ]].
      2:{ injection HJ as <- <-. split; [now apply made_more|]. inh. auto. }
      all: destruct (A4 j p) as (B1 & B2 & B3); [apply INV; inh; auto|]; split; [now apply made_more|]; split; [inh; auto|]; destruct p; auto; inh; auto.
    + intros o HD. rewrite in_app_iff in HD. cbn [In] in HD. destruct HD as [HD|[HD|HD]]; [|discriminate|].
      * intros HO. exact (A5 o HD (SUB o HO)).
      * apply in_died in HD. destruct HD as (x & _ & E & _ & N). injection E as ->. exact N.
    + intros o HO. rewrite in_app_iff. cbn [In]. destruct (A6 o HO) as [HS|]; [|auto]. destruct (SAME o HS); auto.
    + intros j HJ. rewrite in_app_iff in HJ. cbn [In] in HJ. destruct HJ as [HJ|[HJ|HJ]]; [|discriminate|apply in_died in HJ; destruct HJ as (x & _ & E & _); discriminate]. destruct (A7 j HJ) as [|[|]]; rewrite !in_app_iff; auto.
    + intros HU j HJ. rewrite in_app_iff in HJ. cbn [In] in HJ. destruct HJ as [HJ|[HJ|HJ]]; [|discriminate|apply in_died in HJ; destruct HJ as (x & _ & E & _); discriminate]. destruct (A8 H j HJ) as [|[|[|]]]; rewrite !in_app_iff; auto 6.
    + intros j HJ. rewrite in_app_iff in HJ. cbn [In] in HJ. destruct HJ as [HJ|[HJ|HJ]]; [|discriminate|apply in_died in HJ; destruct HJ as (x & _ & E & _); discriminate].
      destruct (A9 j HJ) as [HR|(w & Hw)]; [|right; exists w; rewrite in_app_iff; auto]. destruct (RUN j HR) as [->|HR']; [|auto]. right. exists v. rewrite in_app_iff. cbn. auto.
    + intros HU j w HJ HR. rewrite in_app_iff in HJ. cbn [In] in HJ. destruct HJ as [HJ|[HJ|HJ]]; [| |apply in_died in HJ; destruct HJ as (x & _ & E & _); discriminate].
      * destruct (A10 H j w HJ HR) as [(g & Hg)|[|]]; rewrite !in_app_iff; auto. left. exists g. rewrite H0, in_app_iff in Hg. cbn in Hg. rewrite in_app_iff. cbn. intuition discriminate.
      * injection HJ as <- <-. left. exists h. apply in_elt.
    + intros j HJ. rewrite in_app_iff in HJ. cbn [In] in HJ. destruct HJ as [HJ|[HJ|HJ]]; [eauto|discriminate|apply in_died in HJ; destruct HJ as (x & _ & E & _); discriminate].
    + intros Q C U. rewrite handed_app, taken_app, A12 by assumption. cbn [handed taken flat_map app]. fold (handed dead) (taken dead). unfold dead. rewrite handed_died, taken_died, !app_nil_r. reflexivity.
    + intros Q. specialize (A13 Q). rewrite H0, app_length in A13. rewrite app_length. exact A13.
    + discriminate.
  - (* reply *)
    assert (HI : In (i, Returned v h) (running s)) by (rewrite H0; apply in_elt). destruct (A4 _ _ HI) as (HM & HSt & HRt).
    pose proof (returned_reply _ _ _ _ HM HRt H1) as HMR.
    assert (ST : refs s ++ flat_map held (l ++ (i, Posted h) :: r) = strong s) by (unfold strong; rewrite H0, !flat_map_app; reflexivity).
    assert (INV : forall j p, In (j, p) (l ++ r) -> In (j, p) (running s)) by (intros j p; rewrite H0, !in_app_iff; cbn; tauto).
    split; cbn [delayed queue running hist closed undefined]; unfold strong; cbn [refs running]; rewrite ?ST.
    + apply good_app; [assumption|]. one_event. exact HMR.
    + intros j HJ. destruct (A2 j HJ). inh. auto.
    + intros j HJ. apply in_app_iff in HJ. destruct HJ as [HJ|[<-|[]]]; [destruct (A3 j HJ); split; [now apply made_more|inh; auto]|]. split; [now apply made_more|inh; auto].
    + intros j p HJ. apply in_app_iff in HJ. destruct HJ as [HJ|[HJ|HJ]].
      2:{ injection HJ as <- <-. split; [now apply made_more|]. inh. auto. }
      all: destruct (A4 j p) as (B1 & B2 & B3); [apply INV; inh; auto|]; split; [now apply made_more|]; split; [inh; auto|]; destruct p; auto; inh; auto.
    + intros o HD. hin HD. intuition (try discriminate). eauto.
    + intros o HO. inh. destruct (A6 o HO); auto.
    + intros j HJ. hin HJ. inh. destruct HJ as [HJ|[HJ|[]]]; [|discriminate]. destruct (A7 j HJ) as [HD|[|]]; auto.
    + intros HU j HJ. hin HJ. inh. destruct HJ as [HJ|[HJ|[]]]; [destruct (A8 H j HJ) as [|[|[|]]]; auto|]. injection HJ as <-. auto.
    + intros j HJ. hin HJ. destruct HJ as [HJ|[HJ|[]]]; [|discriminate]. destruct (A9 j HJ) as [HR|(w & Hw)]; [|right; exists w; inh; auto]. left. rewrite H0, in_app_iff in HR. cbn in HR. rewrite in_app_iff. cbn. intuition discriminate.
    + intros HU j w HJ HR. hin HJ. destruct HJ as [HJ|[HJ|[]]]; [|discriminate]. inh. destruct (A10 H j w HJ HR) as [(g & Hg)|[|]]; auto. rewrite H0, in_app_iff in Hg. cbn in Hg. destruct Hg as [Hg|[Hg|Hg]].
      * left. exists g. inh. auto.
      * injection Hg as <- <- <-. auto.
      * left. exists g. inh. auto.
    + intros j HJ. hin HJ. intuition (try discriminate). eauto.
    + intros Q C U. rewrite handed_app, taken_app, A12 by assumption. cbn [handed taken flat_map app]. now rewrite app_nil_r, app_assoc.
    + intros Q. specialize (A13 Q). rewrite H0, app_length in A13. rewrite app_length. exact A13.
    + discriminate.
  - (* reply_closed *)
    assert (HI : In (i, Returned v h) (running s)) by (rewrite H0; apply in_elt). destruct (A4 _ _ HI) as (HM & HSt & HRt).
    assert (ST : refs s ++ flat_map held (l ++ (i, Posted h) :: r) = strong s) by (unfold strong; rewrite H0, !flat_map_app; reflexivity).
    assert (INV : forall j p, In (j, p) (l ++ r) -> In (j, p) (running s)) by (intros j p; rewrite H0, !in_app_iff; cbn; tauto).
    split; cbn [delayed queue running hist closed undefined]; unfold strong; cbn [refs running]; rewrite ?ST.
    + apply good_app; [assumption|]. one_event. exact I.
    + intros j HJ. destruct (A2 j HJ). inh. auto.
    + intros j HJ. destruct (A3 j HJ). split; [now apply made_more|]. inh. auto.
    + intros j p HJ. apply in_app_iff in HJ. destruct HJ as [HJ|[HJ|HJ]].
      2:{ injection HJ as <- <-. split; [now apply made_more|]. inh. auto. }
      all: destruct (A4 j p) as (B1 & B2 & B3); [apply INV; inh; auto|]; split; [now apply made_more|]; split; [inh; auto|]; destruct p; auto; inh; auto.
    + intros o HD. hin HD. intuition (try discriminate). eauto.
    + intros o HO. inh. destruct (A6 o HO); auto.
    + intros j HJ. hin HJ. inh. destruct HJ as [HJ|[HJ|[]]]; [|discriminate]. destruct (A7 j HJ) as [HD|[|]]; auto.
    + intros HU j HJ. hin HJ. inh. destruct HJ as [HJ|[HJ|[]]]; [destruct (A8 H j HJ) as [|[|[|]]]; auto|discriminate].
    + intros j HJ. hin HJ. destruct HJ as [HJ|[HJ|[]]]; [|discriminate]. destruct (A9 j HJ) as [HR|(w & Hw)]; [|right; exists w; inh; auto]. left. rewrite H0, in_app_iff in HR. cbn in HR. rewrite in_app_iff. cbn. intuition discriminate.
    + intros HU j w HJ HR. hin HJ. destruct HJ as [HJ|[HJ|[]]]; [|discriminate]. inh. destruct (A10 H j w HJ HR) as [(g & Hg)|[|]]; auto. rewrite H0, in_app_iff in Hg. cbn in Hg. destruct Hg as [Hg|[Hg|Hg]].
      * left. exists g. inh. auto.
      * injection Hg as <- <- <-. auto.
      * left. exists g. inh. auto.
    + auto.
    + congruence.
    + intros Q. specialize (A13 Q). rewrite H0, app_length in A13. rewrite app_length. exact A13.
    + discriminate.
  - (* reply_dangling *)
    assert (HI : In (i, Returned v h) (running s)) by (rewrite H0; apply in_elt). destruct (A4 _ _ HI) as (HM & HSt & HRt).
    assert (NR : ~ no_references (hist s)) by (intros HN; rewrite (made_reply _ i c HM H1 HN) in H2; discriminate).
    assert (ST : refs s ++ flat_map held (l ++ (i, Posted h) :: r) = strong s) by (unfold strong; rewrite H0, !flat_map_app; reflexivity).
    assert (INV : forall j p, In (j, p) (l ++ r) -> In (j, p) (running s)) by (intros j p; rewrite H0, !in_app_iff; cbn; tauto).
    split; cbn [delayed queue running hist closed undefined]; unfold strong; cbn [refs running]; rewrite ?ST; auto; try discriminate.
    + intros j p HJ. apply in_app_iff in HJ. destruct HJ as [HJ|[HJ|HJ]].
      2:{ injection HJ as <- <-. auto. }
      all: apply A4, INV; inh; auto.
    + intros j HJ. destruct (A9 j HJ) as [HR|(w & Hw)]; [|right; exists w; auto]. left. rewrite H0, in_app_iff in HR. cbn in HR. rewrite in_app_iff. cbn. intuition discriminate.
    + intros Q. specialize (A13 Q). rewrite H0, app_length in A13. rewrite app_length. exact A13.
  - (* end *)
    assert (HI : In (i, p) (running s)) by (rewrite H0; apply in_elt).
    set (after := refs s ++ flat_map held (l ++ r)). set (dead := died (strong s) after (i_owner i)).
    assert (SUB : forall o, In o after -> In o (strong s)).
    { intros o. unfold after, strong. rewrite H0, !flat_map_app. cbn [flat_map]. rewrite !in_app_iff. tauto. }
    assert (SAME : forall o, In o (strong s) -> In o after \/ In (EDead o) dead).
    { intros o HO. destruct (in_dec Nat.eq_dec o after) as [|N]; [auto|]. right. unfold dead. apply in_died. exists o. split; [|auto]. unfold strong in HO. rewrite H0, flat_map_app in HO. cbn [flat_map] in HO.
      unfold after in N. rewrite flat_map_app in N. rewrite !in_app_iff in N. rewrite in_app_iff in HO. rewrite in_app_iff in HO. rewrite in_app_iff in HO. destruct HO as [|[|[HH|]]]; try tauto. unfold held in HH. cbn in HH. destruct (i_owner i) as [o'|]; [|contradiction].
      assert (o' = o) by (destruct p as [|w g|g]; try destruct g; cbn in HH; tauto). now subst. }
    assert (INV : forall j p, In (j, p) (l ++ r) -> In (j, p) (running s)) by (intros j p'; rewrite H0, !in_app_iff; cbn; tauto).
    assert (RUN : forall j, In (j, Invoked) (running s) -> In (j, Invoked) (l ++ r)).
    { intros j. rewrite H0, !in_app_iff. cbn. intros [|[E|]]; auto. injection E as _ ->. contradiction. }
    split; cbn [delayed queue running hist closed undefined]; fold after dead; unfold strong; cbn [refs running]; fold after.
    + replace (hist s ++ dead) with ((hist s ++ []) ++ dead) by now rewrite app_nil_r. unfold dead. apply good_died; rewrite app_nil_r; [assumption|].
      intros j HJ EO _ x EX NX. destruct (A9 j HJ) as [HR|(w & Hw)]; [|exists w; auto]. apply RUN in HR.
      exfalso. apply NX. unfold after. rewrite in_app_iff, in_flat_map. right. exists (j, Invoked). split; [assumption|]. unfold held. cbn. rewrite EO, EX. now left.
    + intros j HJ. destruct (A2 j HJ). inh. auto.
    + intros j HJ. destruct (A3 j HJ). split; [now apply made_more|]. inh. auto.
    + intros j p' HJ. destruct (A4 j p' (INV _ _ HJ)) as (B1 & B2 & B3); split; [now apply made_more|]; split; [inh; auto|]; destruct p'; auto; inh; auto.
    + intros o HD. rewrite in_app_iff in HD. destruct HD as [HD|HD].
      * intros HO. exact (A5 o HD (SUB o HO)).
      * apply in_died in HD. destruct HD as (x & _ & E & _ & N). injection E as ->. exact N.
    + intros o HO. rewrite in_app_iff. destruct (A6 o HO) as [HS|]; [|auto]. destruct (SAME o HS); auto.
    + intros j HJ. rewrite in_app_iff in HJ. destruct HJ as [HJ|HJ]; [|apply in_died in HJ; destruct HJ as (x & _ & E & _); discriminate]. destruct (A7 j HJ) as [|[|]]; rewrite !in_app_iff; auto.
    + intros HU j HJ. rewrite in_app_iff in HJ. destruct HJ as [HJ|HJ]; [|apply in_died in HJ; destruct HJ as (x & _ & E & _); discriminate]. destruct (A8 H j HJ) as [|[|[|]]]; rewrite !in_app_iff; auto 6.
    + intros j HJ. rewrite in_app_iff in HJ. destruct HJ as [HJ|HJ]; [|apply in_died in HJ; destruct HJ as (x & _ & E & _); discriminate].
      destruct (A9 j HJ) as [HR|(w & Hw)]; [|right; exists w; rewrite in_app_iff; auto]. left. now apply RUN.
    + intros HU j w HJ HR. rewrite in_app_iff in HJ. destruct HJ as [HJ|HJ]; [|apply in_died in HJ; destruct HJ as (x & _ & E & _); discriminate].
      destruct (A10 H j w HJ HR) as [(g & Hg)|[|]]; rewrite !in_app_iff; auto. rewrite H0, in_app_iff in Hg. cbn in Hg. destruct Hg as [Hg|[Hg|Hg]].
      * left. exists g. inh. auto.
      * injection Hg as -> ->. cbn in H1. contradiction.
      * left. exists g. inh. auto.
    + intros j HJ. rewrite in_app_iff in HJ. destruct HJ as [HJ|HJ]; [eauto|apply in_died in HJ; destruct HJ as (x & _ & E & _); discriminate].
    + intros Q C U. rewrite handed_app, taken_app, A12 by assumption. unfold dead. rewrite handed_died, taken_died, !app_nil_r. reflexivity.
    + intros Q. specialize (A13 Q). rewrite H0, app_length in A13. cbn in A13. rewrite app_length. lia.
    + discriminate.
  - (* acquire *)
    assert (ST : forall x, In x ((o :: refs s) ++ flat_map held (running s)) <-> In x (strong s)) by (intros x; cbn; fold (strong s); split; [intros [->|]; auto|auto]).
    split; cbn [delayed queue running hist closed undefined]; unfold strong; cbn [refs running]; auto.
    + intros x HD. rewrite ST. auto.
    + intros x HO. rewrite ST. auto.
    + discriminate.
  - (* release *)
    set (after := (l ++ r) ++ flat_map held (running s)). set (dead := died (strong s) after (Some o)).
    assert (SUB : forall x, In x after -> In x (strong s)) by (intros x; unfold after, strong; rewrite H0, !in_app_iff; cbn; tauto).
    assert (SAME : forall x, In x (strong s) -> In x after \/ In (EDead x) dead).
    { intros x HO. destruct (in_dec Nat.eq_dec x after) as [|N]; [auto|]. right. unfold dead. apply in_died. exists x. split; [|auto]. unfold strong in HO. rewrite H0 in HO.
      unfold after in N. rewrite !in_app_iff in HO, N. cbn in HO. destruct HO as [[|[->|]]|]; tauto. }
    split; cbn [delayed queue running hist closed undefined]; fold after dead; unfold strong; cbn [refs running]; fold after.
    + replace (hist s ++ dead) with ((hist s ++ []) ++ dead) by now rewrite app_nil_r. unfold dead. apply good_died; rewrite app_nil_r; [assumption|].
      intros j HJ EO _ x EX NX. destruct (A9 j HJ) as [HR|(w & Hw)]; [|exists w; auto].
      exfalso. apply NX. unfold after. rewrite in_app_iff, in_flat_map. right. exists (j, Invoked). split; [assumption|]. unfold held. cbn. rewrite EO. injection EX as ->. now left.
    + intros j HJ. destruct (A2 j HJ). inh. auto.
    + intros j HJ. destruct (A3 j HJ). split; [now apply made_more|]. inh. auto.
    + intros j p' HJ. destruct (A4 j p' HJ) as (B1 & B2 & B3); split; [now apply made_more|]; split; [inh; auto|]; destruct p'; auto; inh; auto.
    + intros x HD. rewrite in_app_iff in HD. destruct HD as [HD|HD].
      * intros HO. exact (A5 x HD (SUB x HO)).
      * apply in_died in HD. destruct HD as (y & _ & E & _ & N). injection E as ->. exact N.
    + intros x HO. rewrite in_app_iff. destruct (A6 x HO) as [HS|]; [|auto]. destruct (SAME x HS); auto.
    + intros j HJ. rewrite in_app_iff in HJ. destruct HJ as [HJ|HJ]; [|apply in_died in HJ; destruct HJ as (x & _ & E & _); discriminate]. destruct (A7 j HJ) as [|[|]]; rewrite !in_app_iff; auto.
    + intros HU j HJ. rewrite in_app_iff in HJ. destruct HJ as [HJ|HJ]; [|apply in_died in HJ; destruct HJ as (x & _ & E & _); discriminate]. destruct (A8 H j HJ) as [|[|[|]]]; rewrite !in_app_iff; auto 6.
    + intros j HJ. rewrite in_app_iff in HJ. destruct HJ as [HJ|HJ]; [|apply in_died in HJ; destruct HJ as (x & _ & E & _); discriminate].
      destruct (A9 j HJ) as [HR|(w & Hw)]; [|right; exists w; rewrite in_app_iff; auto]. now left.
    + intros HU j w HJ HR. rewrite in_app_iff in HJ. destruct HJ as [HJ|HJ]; [|apply in_died in HJ; destruct HJ as (x & _ & E & _); discriminate].
      destruct (A10 H j w HJ HR) as [(g & Hg)|[|]]; rewrite !in_app_iff; auto. left. exists g. auto.
    + intros j HJ. rewrite in_app_iff in HJ. destruct HJ as [HJ|HJ]; [eauto|apply in_died in HJ; destruct HJ as (x & _ & E & _); discriminate].
    + intros Q C U. rewrite handed_app, taken_app, A12 by assumption. unfold dead. rewrite handed_died, taken_died, !app_nil_r. reflexivity.
    + assumption.
    + discriminate.
  - (* scope_end *)
    split; cbn [delayed queue running hist closed undefined]; unfold strong; cbn [refs running]; fold (strong s); auto. discriminate.
  - (* close *)
    split; cbn [delayed queue running hist closed undefined]; unfold strong; cbn [refs running]; fold (strong s); auto; discriminate.
Qed.
Lemma reachable_accounts q os s : reachable q os s -> accounts q os s.
Proof.
  induction 1 as [|s s' HR IH HS]; [|exact (step_accounts q os s s' IH HS)]. split; cbn; try contradiction; try discriminate; auto.
  - apply always_nil.
  - intros o HO. left. unfold strong. cbn. rewrite app_nil_r. assumption.
Qed.

(** * The theorems *)
Section Claims.
Variables (q : bool) (os : list nat) (s : state).
Hypothesis R : reachable q os s.
Lemma good_at a e b : at_ (hist s) a e b -> good q os a e.
Proof. intros E. exact (a_good q os s (reachable_accounts q os s R) a e b E). Qed.
Lemma in_hist e : In e (hist s) -> exists a b, at_ (hist s) a e b.
Proof. apply in_split. Qed.
End Claims.

Lemma made_reply_for h r v : made h r -> i_result r = Some v -> exists t, In (EPost t) h /\ In (EReturn t v) h /\ reply_for t v r.
Proof.
  unfold made. intros HM E. rewrite E in HM. destruct HM as (t & A & B & C & D & ->). exists t. split; [assumption|]. split; [assumption|]. unfold reply_for. cbn. auto.
Qed.
Lemma handled_in h i : In i (handled h) <-> In (EStart i) h \/ In (ESkip i) h \/ In (EDrop i) h.
Proof.
  unfold handled. rewrite in_flat_map. split.
  - intros (e & H1 & H2). destruct e; cbn in H2; intuition (subst; auto).
  - intros [H|[H|H]]; [exists (EStart i)|exists (ESkip i)|exists (EDrop i)]; cbn; auto.
Qed.
Lemma same_run_f i j : same_run i j -> exists f, (f = f_task (i_task i) \/ f = f_reply (i_task i)) /\ f i = true /\ f j = true.
Proof.
  intros [E1 E2]. destruct (i_result i) eqn:Ei.
  - exists (f_reply (i_task i)). split; [auto|]. unfold f_reply. rewrite <- E1, Nat.eqb_refl, Ei. destruct (i_result j); [auto|]. exfalso. destruct E2 as [_ E2]. specialize (E2 eq_refl). discriminate.
  - exists (f_task (i_task i)). split; [auto|]. unfold f_task. rewrite <- E1, Nat.eqb_refl, Ei. destruct (i_result j); [destruct E2 as [E2 _]; specialize (E2 eq_refl); discriminate|auto].
Qed.
Lemma counts_f s i f : counts s -> (f = f_task (i_task i) \/ f = f_reply (i_task i)) -> cnt f (handled (hist s)) <= 1.
Proof. intros [C _] [->| ->]; specialize (C (i_task i)); unfold n_task, n_reply in C; lia. Qed.

(** A task runs at most once, and so does its reply. *)
Theorem runs_at_most_once : forall q os s a b c i j, reachable q os s -> hist s = a ++ EStart i :: b ++ EStart j :: c -> ~ same_run i j.
Proof.
  intros q os s a b c i j R E HS. destruct (same_run_f i j HS) as (f & Hf & F1 & F2). pose proof (counts_f s i f (reachable_counts q os s R) Hf) as HC. rewrite E in HC.
  unfold handled in HC. rewrite flat_map_app in HC. cbn [flat_map] in HC. rewrite flat_map_app in HC. cbn [flat_map app] in HC. repeat rewrite ?cnt_app, ?cnt_cons in HC. rewrite F1, F2 in HC. lia.
Qed.
(** A reply runs only after its task has returned, and with the value that the task returned. *)
Theorem reply_after_task : forall q os s a r b v, reachable q os s -> at_ (hist s) a (EStart r) b -> i_result r = Some v ->
  exists t, In (EPost t) a /\ In (EReturn t v) a /\ reply_for t v r.
Proof. intros q os s a r b v R E EV. destruct (good_at q os s R _ _ _ E) as (_ & HM & _). exact (made_reply_for a r v HM EV). Qed.
(** Every run of a task is a task that was posted. *)
Theorem task_was_posted : forall q os s a i b, reachable q os s -> at_ (hist s) a (EStart i) b -> is_task i -> In (EPost i) a.
Proof. intros q os s a i b R E HT. destruct (good_at q os s R _ _ _ E) as (_ & HM & _). unfold made in HM. now rewrite HT in HM. Qed.
(** A task with an owner, and its reply, only run while the owner exists; the owner exists until they have returned. *)
Theorem owner_exists : forall q os s a o b i, reachable q os s -> at_ (hist s) a (EDead o) b -> i_owner i = Some o ->
  ~ In (EStart i) b /\ (In (EStart i) a -> exists v, In (EReturn i v) a).
Proof.
  intros q os s a o b i R E EO. split.
  - intros HI. apply in_split in HI. destruct HI as (b1 & b2 & ->). unfold at_ in E.
    assert (E' : at_ (hist s) (a ++ EDead o :: b1) (EStart i) b2) by (unfold at_; now rewrite E, <- app_assoc).
    destruct (good_at q os s R _ _ _ E') as (_ & _ & HD & _). apply (HD o EO). apply in_elt.
  - intros HI. exact (good_at q os s R _ _ _ E i EO HI).
Qed.
(** They are skipped only if the owner does not exist any more (or did not exist when the task was posted). *)
Theorem skipped_without_owner : forall q os s a i b, reachable q os s -> at_ (hist s) a (ESkip i) b -> exists o, i_owner i = Some o /\ (In o os -> In (EDead o) a).
Proof. intros q os s a i b R E. exact (proj2 (proj2 (good_at q os s R _ _ _ E))). Qed.
(** A task that was skipped or dropped does not run, neither does its reply; a reply that was skipped or dropped does not run. *)
Theorem skipped_means_never : forall q os s i j, reachable q os s -> In (ESkip i) (hist s) \/ In (EDrop i) (hist s) -> i_task j = i_task i ->
  is_task i \/ i_result j <> None -> ~ In (EStart j) (hist s).
Proof.
  intros q os s i j R HI ET HR HJ. pose proof (reachable_accounts q os s R) as HA. pose proof (reachable_counts q os s R) as HC. destruct (in_split _ _ HJ) as (a & b & E).
  assert (TWO : forall k f, (f = f_task (i_task i) \/ f = f_reply (i_task i)) -> In (EStart k) (hist s) -> f i = true -> f k = true -> False).
  { intros k f Hf Hk F1 F2. pose proof (counts_f s i f HC Hf) as HL. apply in_split in Hk. destruct Hk as (a' & b' & E'). rewrite E' in *. unfold handled in HL. rewrite flat_map_app in HL. cbn [flat_map app] in HL. rewrite cnt_app, cnt_cons, F2 in HL.
    assert (HI' : In i (handled a' ++ handled b')).
    { apply in_app_iff. rewrite !handled_in. destruct HI as [HI|HI]; apply in_app_iff in HI; cbn in HI; destruct HI as [HI|[HI|HI]]; auto; discriminate. }
    pose proof (cnt_in f _ i HI' F1) as HP. rewrite cnt_app in HP. unfold handled in HP. lia. }
  destruct (i_result j) as [v|] eqn:EJ.
  - destruct (i_result i) as [w|] eqn:EI.
    + apply (TWO j (f_reply (i_task i))); [auto|assumption| |]; unfold f_reply; rewrite ?ET, Nat.eqb_refl, ?EI, ?EJ; reflexivity.
    + destruct (reply_after_task q os s a j b v R E EJ) as (t & _ & HRt & HF). destruct HF as (F1 & _ & _ & F2 & _).
      assert (HSt : In (EStart t) (hist s)).
      { apply in_split in HRt. destruct HRt as (a1 & a2 & ->). rewrite <- app_assoc in E. pose proof (good_at q os s R _ _ _ E) as HG. cbn in HG. rewrite E, in_app_iff. auto. }
      apply (TWO t (f_task (i_task i))); [auto|assumption| |]; unfold f_task; [rewrite Nat.eqb_refl, EI; reflexivity|]. rewrite F2. rewrite <- F1, ET, Nat.eqb_refl. reflexivity.
  - destruct HR as [HT|HR]; [|congruence]. apply (TWO j (f_task (i_task i))); [auto|assumption| |]; unfold f_task; rewrite ?ET, Nat.eqb_refl, ?EJ; [rewrite HT; reflexivity|reflexivity].
Qed.
(** What a call asks for is what the runner gets: the task, its owner, and a reply if and only if one was given. *)
Theorem request_kept : forall n delay owner task reply, let i := wrapped n delay owner task reply in
  is_task i /\ i_task i = n /\ i_owner i = owner /\ i_code i = task /\ (i_reply i = None <-> reply = None) /\
  (forall v, let r := reply_of i v in i_task r = n /\ i_result r = Some v /\ i_owner r = owner /\ i_reply r = None).
Proof.
  intros n delay owner task reply i. unfold i, wrapped, is_task. cbn. repeat (split; [reflexivity|]). split; [|auto].
  destruct owner, delay, reply; cbn; split; congruence.
Qed.
Example example_request : i_owner (wrapped 3 true (Some 5) (Reference 1) (Some (Reference 2))) = Some 5 /\ i_reply (wrapped 3 true (Some 5) (Reference 1) (Some (Reference 2))) <> None.
Proof. split; [reflexivity|discriminate]. Qed.
(** On a sequenced runner one task runs at a time, in the order in which tasks and replies were handed to it: a delayed task when its delay
    is over, a reply when its task has returned. *)
Theorem sequenced_one_by_one : forall os s a i b, reachable true os s -> at_ (hist s) a (EStart i) b -> forall j, In (EStart j) a -> exists v, In (EReturn j v) a.
Proof. intros os s a i b R E. exact (proj2 (proj2 (proj2 (good_at true os s R _ _ _ E))) eq_refl). Qed.
Theorem replies_in_order : forall os s, reachable true os s -> closed s = false -> undefined s = false -> handed (hist s) = taken (hist s) ++ queue s.
Proof. intros os s R C U. exact (a_order true os s (reachable_accounts true os s R) eq_refl C U). Qed.
Theorem reply_handed_after_return : forall q os s a r b v, reachable q os s -> at_ (hist s) a (EQueue r) b -> i_result r = Some v ->
  exists t, In (EReturn t v) a /\ reply_for t v r.
Proof. intros q os s a r b v R E EV. destruct (made_reply_for a r v (good_at q os s R _ _ _ E) EV) as (t & _ & A & B). exists t. auto. Qed.

(** * Everything is done in the end *)
Theorem nothing_forgotten : forall q os s t, reachable q os s -> idle s -> closed s = false -> undefined s = false -> In (EPost t) (hist s) ->
  In (ESkip t) (hist s) \/
  exists v, In (EStart t) (hist s) /\ In (EReturn t v) (hist s) /\
    (i_reply t <> None -> exists r, reply_for t v r /\ (In (EStart r) (hist s) \/ In (ESkip r) (hist s))).
Proof.
  intros q os s t R (I1 & I2 & I3) C U HP. pose proof (reachable_accounts q os s R) as HA.
  assert (ND : forall i, ~ In (EDrop i) (hist s)) by (intros i HD; apply (a_dropped q os s HA) in HD; congruence).
  assert (QD : forall i, In (EQueue i) (hist s) -> In (EStart i) (hist s) \/ In (ESkip i) (hist s)).
  { intros i HQ. destruct (a_queued q os s HA U i HQ) as [HI|[|[|HD]]]; auto; [rewrite I2 in HI; contradiction|now apply ND in HD]. }
  destruct (a_posted q os s HA t HP) as [HI|[HQ|HD]]; [rewrite I1 in HI; contradiction| |now apply ND in HD]. destruct (QD t HQ) as [HS|]; [|auto]. right.
  destruct (a_started q os s HA t HS) as [HI|(v & HV)]; [rewrite I3 in HI; contradiction|]. exists v. split; [assumption|]. split; [assumption|]. intros HR. exists (reply_of t v). split.
  - apply in_split in HP. destruct HP as (a & b & E). pose proof (good_at q os s R _ _ _ E) as HT. cbn in HT. unfold reply_for. cbn. auto.
  - destruct (a_returned q os s HA U t v HV HR) as [(h & HI)|[HQ'|HD]]; [rewrite I3 in HI; contradiction|now apply QD|now apply ND in HD].
Qed.
Definition w_item (i : item) : nat := match i_reply i with Some _ => 9 | None => 4 end.
Definition w_phase (x : item * phase) : nat :=
  match snd x, i_reply (fst x) with Posted _, _ => 1 | Returned _ _, Some _ => 6 | Returned _ _, None => 2 | Invoked, Some _ => 7 | Invoked, None => 3 end.
Definition sum {A} (f : A -> nat) (l : list A) : nat := list_sum (map f l).
Lemma sum_app {A} (f : A -> nat) a b : sum f (a ++ b) = sum f a + sum f b.
Proof. unfold sum. now rewrite map_app, list_sum_app. Qed.
Lemma sum_cons {A} (f : A -> nat) x b : sum f (x :: b) = f x + sum f b.
Proof. reflexivity. Qed.
Definition weight (s : state) : nat := sum (fun i => S (w_item i)) (delayed s) + sum w_item (queue s) + sum w_phase (running s).
(** The runner's own steps come to an end, and there is one until nothing is left to do: so every task and reply is run or skipped. *)
Theorem runner_drains : forall q os s, reachable q os s -> undefined s = false ->
  (closed s = false -> forall s', own q s s' -> undefined s' = false -> weight s' < weight s) /\
  (~ idle s -> exists s', own q s s').
Proof.
  intros q os s R U. split.
  - intros C s' HO US'. destruct HO as [HS N1 N2 N3 N4]. unfold weight. destruct HS; cbn [next closed refs gone undefined delayed queue running] in *; try congruence; try lia.
    all: repeat match goal with H : delayed ?s = _ ++ _ |- _ => rewrite H in * | H : queue ?s = _ ++ _ |- _ => rewrite H in * | H : running ?s = _ ++ _ |- _ => rewrite H in * end.
    all: repeat rewrite ?sum_app, ?sum_cons; cbn [sum map list_sum]; unfold w_item, w_phase; cbn [fst snd].
    all: try (destruct (i_reply i) as [d|] eqn:ER; try congruence; cbn; lia).
    + destruct p; [contradiction| |]; rewrite ?H1; cbn; try lia.
    + exfalso. assert (L : length (o :: refs s) = length (refs s)) by now rewrite N3. cbn in L. lia.
    + exfalso. assert (L : length (refs s) = S (length (l ++ r))) by (rewrite H0, !app_length; cbn; lia). rewrite N3 in L. lia.
    + exfalso. assert (L : length (x :: gone s) = length (gone s)) by now rewrite N4. cbn in L. lia.
  - intros NI. pose proof (reachable_accounts q os s R) as HA. destruct (running s) as [|[i p] r] eqn:ER.
    + destruct (queue s) as [|i l] eqn:EQ.
      * destruct (delayed s) as [|i l] eqn:ED; [exfalso; apply NI; repeat split; assumption|]. eexists. split; [apply (s_due q s [] i l U); exact ED| | | |]; reflexivity.
      * destruct (locked s i) eqn:EL.
        -- destruct (dangling s (i_code i)) eqn:EG; eexists; (split; [first [refine (s_start q s [] i l U EQ _ EL EG); auto|refine (s_start_dangling q s [] i l U EQ _ EL EG); auto]| | | |]; reflexivity).
        -- eexists. split; [refine (s_skip q s [] i l U EQ _ EL); auto| | | |]; reflexivity.
    + assert (ER' : running s = [] ++ (i, p) :: r) by exact ER. destruct p as [|v h|h].
      * eexists. split; [apply (s_return q s [] i r 0%Z false U ER')| | | |]; reflexivity.
      * destruct (i_reply i) as [c|] eqn:EP.
        -- destruct (dangling s c) eqn:EG; eexists; (split; [first [exact (s_reply q s [] i r v h c U ER' EP EG)|exact (s_reply_dangling q s [] i r v h c U ER' EP EG)]| | | |]; reflexivity).
        -- eexists. split; [apply (s_end q s [] i r (Returned v h) U ER'); exact EP| | | |]; reflexivity.
      * eexists. split; [apply (s_end q s [] i r (Posted h) U ER'); exact I| | | |]; reflexivity.
Qed.

(** * Callables given as lvalues *)
(** Nothing is undefined as long as every callable is given as an rvalue. *)
Theorem rvalues_never_dangle : forall q os s, reachable q os s -> no_references (hist s) -> undefined s = false.
Proof. intros q os s R HN. destruct (undefined s) eqn:E; [|reflexivity]. exfalso. exact (a_defined q os s (reachable_accounts q os s R) E HN). Qed.

(** * Refutations and examples *)
Tactic Notation "go" ident(R) uconstr(c) ident(R') :=
  assert (R' : reachable _ _ _) by (refine (r_step _ _ _ _ R _); eapply c; first [reflexivity|discriminate|exact I|(intros _; split; reflexivity)|(cbn; tauto)]); clear R; cbn in R'.
(** "The task may be any callable type": if it is given as an lvalue, the runner keeps a reference to the caller's variable, which may
    be gone when the task runs. *)
Theorem lvalue_task_refuted : forall q, exists s i, reachable q [] s /\ hist s = [EPost i; EQueue i] /\ i_owner i = None /\ closed s = false /\ undefined s = true.
Proof.
  intros q. pose proof (r_initial q []) as R. unfold initial in R.
  go R (s_post _ _ false None (Reference 5) None) R1. go R1 (s_scope_end _ _ 5) R2. go R2 (s_start_dangling _ _ [] _ []) R3. eexists. eexists. split; [exact R3|]. repeat split.
Qed.
(** The same for a reply, although its task was given as an rvalue. *)
Theorem lvalue_reply_refuted : forall q, exists s t v, reachable q [] s /\ i_code t = Value /\ In (EReturn t v) (hist s) /\ closed s = false /\ undefined s = true.
Proof.
  intros q. pose proof (r_initial q []) as R. unfold initial in R.
  go R (s_post _ _ false None Value (Some (Reference 5))) R1. go R1 (s_start _ _ [] _ []) R2. go R2 (s_scope_end _ _ 5) R3. go R3 (s_return _ _ [] _ [] 7%Z false) R4.
  go R4 (s_reply_dangling _ _ [] _ [] 7%Z false (Reference 5)) R5. eexists. exists (Item 0 None None Value (Some (Reference 5))), 7%Z. split; [exact R5|]. cbn. auto 10.
Qed.
(** "A reply follows its task": on a sequenced runner too, other tasks may run in between. *)
Theorem reply_not_next_refuted : exists s t u r v, reachable true [] s /\ reply_for t v r /\ i_task u <> i_task t /\
  taken (hist s) = [t; u; r] /\ closed s = false.
Proof.
  pose proof (r_initial true []) as R. unfold initial in R.
  go R (s_post _ _ false None Value (Some Value)) R1. go R1 (s_post _ _ false None Value None) R2. go R2 (s_start _ _ [] (Item 0 None None Value (Some Value)) [Item 1 None None Value None]) R3.
  go R3 (s_return _ _ [] (Item 0 None None Value (Some Value)) [] 7%Z false) R4. go R4 (s_reply _ _ [] (Item 0 None None Value (Some Value)) [] 7%Z false Value) R5.
  go R5 (s_end _ _ [] (Item 0 None None Value (Some Value)) [] (Posted false)) R6.
  go R6 (s_start _ _ [] (Item 1 None None Value None) [Item 0 (Some 7%Z) None Value None]) R7. go R7 (s_return _ _ [] (Item 1 None None Value None) [] 0%Z false) R8.
  go R8 (s_end _ _ [] (Item 1 None None Value None) [] (Returned 0%Z false)) R9. go R9 (s_start _ _ [] (Item 0 (Some 7%Z) None Value None) []) R10.
  eexists. exists (Item 0 None None Value (Some Value)), (Item 1 None None Value None), (Item 0 (Some 7%Z) None Value None), 7%Z. split; [exact R10|].
  split; [unfold reply_for, is_task; cbn; repeat split; discriminate|]. split; [discriminate|]. split; reflexivity.
Qed.
(** A delayed task with a reply and an owner, which goes away while the task runs: the task returns first, the reply is skipped, and
    nothing is left to do. *)
Example example_owner : exists s t r, reachable true [3] s /\ idle s /\ closed s = false /\ undefined s = false /\ no_references (hist s) /\ i_owner t = Some 3 /\ reply_for t 7%Z r /\
  hist s = [EPost t; EQueue t; EStart t; EReturn t 7%Z; EDead 3; EQueue r; ESkip r].
Proof.
  pose proof (r_initial true [3]) as R. unfold initial in R.
  go R (s_post _ _ true (Some 3) Value (Some Value)) R1. go R1 (s_due _ _ [] (Item 0 None (Some 3) Value (Some Value)) []) R2. go R2 (s_start _ _ [] (Item 0 None (Some 3) Value (Some Value)) []) R3.
  go R3 (s_release _ _ [] 3 []) R4. go R4 (s_return _ _ [] (Item 0 None (Some 3) Value (Some Value)) [] 7%Z false) R5.
  go R5 (s_reply _ _ [] (Item 0 None (Some 3) Value (Some Value)) [] 7%Z false Value) R6. go R6 (s_end _ _ [] (Item 0 None (Some 3) Value (Some Value)) [] (Posted false)) R7.
  go R7 (s_skip _ _ [] (Item 0 (Some 7%Z) (Some 3) Value None) []) R8.
  eexists. exists (Item 0 None (Some 3) Value (Some Value)), (Item 0 (Some 7%Z) (Some 3) Value None). split; [exact R8|]. split; [repeat split|]. split; [reflexivity|]. split; [reflexivity|]. split.
  - intros i HI. cbn in HI. destruct HI as [HI|HI]; [injection HI as <-|exfalso; intuition discriminate]. split; [reflexivity|]. intros c E. now injection E.
  - split; [reflexivity|]. split; [|reflexivity]. unfold reply_for, is_task. cbn. repeat split. discriminate.
Qed.
Print Assumptions nothing_forgotten.
