(** Property C49: the logger registry. *)
From Verif Require Import Common Registry_Model.
Open Scope nat_scope.

(** Every logger is created under a name that is not in use: earlier loggers of this name, and earlier attempts, are gone. *)
Definition names_free (l : list event) : Prop :=
  forall a n id sink result b, l = a ++ ECreate n id sink result :: b -> n <> default_name /\
    forall id' sink' result', In (ECreate n id' sink' result') a -> In (EGone n id') a.

Record inv (s : state) : Prop := Inv {
  v_exact : forall n id, In (n, id) (entries s) <-> In (n, id) (live s ++ dying s);
  v_names : NoDup (map fst (entries s));
  v_disjoint : forall n id, In (n, id) (live s) -> ~ In (n, id) (dying s);
  v_live : forall n m id, In (n, id) (live s) -> In (m, id) (live s ++ dying s) -> m = n;
  v_dying : NoDup (dying s);
  v_next : forall n id, In (n, id) (live s ++ dying s) -> id < next s;
  v_made : forall n id, In (n, id) (live s ++ dying s) -> exists sink result, In (ECreate n id sink result) (log s);
  v_here : forall n id, In (n, id) (live s ++ dying s) -> ~ In (EGone n id) (log s);
  v_gone : forall n id, In (EGone n id) (log s) -> id < next s;
  v_default : forall n id, In (n, id) (entries s) -> n <> default_name;
  v_results : forall n id sink result, In (ECreate n id sink result) (log s) -> result = sink;
  v_gets : forall n id, In (EGet n (Some id)) (log s) -> exists sink, In (ECreate n id sink true) (log s);
  v_won : forall n id, In (n, id) (live s) -> exists sink, In (ECreate n id sink true) (log s) }.

Lemma find_in n l id : find n l = Some id -> In (n, id) l.
Proof.
  induction l as [|[m i] l IH]; cbn; [discriminate|]. destruct (Nat.eqb_spec m n) as [->|H]; [|now right; apply IH]. intros E. injection E as ->. now left.
Qed.
Lemma find_none n l : find n l = None -> ~ In n (map fst l).
Proof. induction l as [|[m i] l IH]; cbn; [auto|]. destruct (Nat.eqb_spec m n); [discriminate|]. intros H [K|K]; [congruence|now apply IH]. Qed.
Lemma find_unique n id l : NoDup (map fst l) -> In (n, id) l -> find n l = Some id.
Proof.
  induction l as [|[m i] l IH]; cbn; [contradiction|]. intros HN [E|H]; inversion_clear HN.
  - injection E as -> ->. now rewrite Nat.eqb_refl.
  - destruct (Nat.eqb_spec m n) as [->|Hm]; [|now apply IH]. exfalso. apply H0. now apply (in_map fst) in H.
Qed.
Lemma erase_in n x l : In x (erase n l) <-> In x l /\ fst x <> n.
Proof. unfold erase. rewrite filter_In. destruct (Nat.eqb_spec (fst x) n); cbn; intuition congruence. Qed.
Lemma erase_nodup n l : NoDup (map fst l) -> NoDup (map fst (erase n l)).
Proof.
  induction l as [|x l IH]; cbn; [auto|]. intros H. inversion_clear H. destruct (negb (fst x =? n)); cbn; [|now apply IH].
  constructor; [|now apply IH]. intros K. apply H0. apply in_map_iff in K. destruct K as (y & E & Hy). apply filter_In in Hy. apply in_map_iff. exists y. tauto.
Qed.
Lemma free_before a b : names_free (a ++ b) -> names_free a.
Proof. intros H x n id sink result y E. apply (H x n id sink result (y ++ b)). now rewrite E, <- app_assoc. Qed.
Lemma in_snoc (x y : event) l : In x (l ++ [y]) <-> In x l \/ y = x.
Proof. rewrite in_app_iff. cbn. intuition. Qed.

Lemma inv_step s s' : inv s -> step s s' -> names_free (log s') -> inv s'.
Proof.
  intros [X N D L DY NX M HE G DF R GT WN] HS HF.
  destruct HS; cbn [log] in HF.
  - (* create *)
    destruct (HF (log s) n (next s) true true [] eq_refl) as (ND & HU).
    assert (OLD : forall m id, In (m, id) (live s ++ dying s) -> id <> next s) by (intros m id H' E; specialize (NX m id H'); lia).
    split; cbn [entries live dying next log app].
    + intros m id. cbn. now rewrite X.
    + constructor; [now apply find_none|assumption].
    + intros m id [E|H'] K; [|now apply (D m id)]. injection E as <- <-. apply (OLD n (next s)); [apply in_or_app; now right|reflexivity].
    + intros m m' id H1 H2. destruct H1 as [E|H1].
      * injection E as <- <-. destruct H2 as [E|H2]; [congruence|]. now apply OLD in H2.
      * destruct H2 as [E|H2]; [|now apply (L m m' id)]. injection E as <- <-. exfalso. apply (OLD m (next s)); [apply in_or_app; now left|reflexivity].
    + assumption.
    + intros m id [E|H']; [injection E as <- <-; lia|]. specialize (NX m id H'). lia.
    + intros m id [E|H']; [injection E as <- <-; exists true, true; apply in_snoc; now right|]. destruct (M m id H') as (a & b & K). exists a, b. apply in_snoc. now left.
    + intros m id H' K. apply in_snoc in K. destruct K as [K|K]; [|discriminate]. destruct H' as [E|H']; [injection E as <- <-; apply G in K; lia|]. now apply (HE m id).
    + intros m id K. apply in_snoc in K. destruct K as [K|K]; [|discriminate]. apply G in K. lia.
    + intros m id [E|H']; [injection E as <- <-; assumption|now apply (DF m id)].
    + intros m id a b K. apply in_snoc in K. destruct K as [K|K]; [now apply (R m id)|]. now injection K as <- <- <- <-.
    + intros m id K. apply in_snoc in K. destruct K as [K|K]; [|discriminate]. destruct (GT m id K) as (a & K'). exists a. apply in_snoc. now left.
    + intros m id [E|H']; [injection E as <- <-; exists true; apply in_snoc; now right|]. destruct (WN m id H') as (a & K). exists a. apply in_snoc. now left.
  - (* create, sink fails *)
    destruct (HF (log s) n (next s) false false [] eq_refl) as (ND & HU).
    assert (OLD : forall m id, In (m, id) (live s ++ dying s) -> id <> next s) by (intros m id H' E; specialize (NX m id H'); lia).
    assert (MID : forall x y, In x (live s ++ y :: dying s) <-> y = x \/ In x (live s ++ dying s)) by (intros; rewrite !in_app_iff; cbn; tauto).
    split; cbn [entries live dying next log].
    + intros m id. rewrite MID. cbn. now rewrite X.
    + constructor; [now apply find_none|assumption].
    + intros m id H' [E|K]; [|now apply (D m id)]. injection E as <- <-. apply (OLD n (next s)); [apply in_or_app; now left|reflexivity].
    + intros m m' id H1 H2. apply MID in H2. destruct H2 as [E|H2]; [|now apply (L m m' id)]. injection E as <- <-. exfalso. apply (OLD m (next s)); [apply in_or_app; now left|reflexivity].
    + constructor; [|assumption]. intros K. apply (OLD n (next s)); [apply in_or_app; now right|reflexivity].
    + intros m id H'. apply MID in H'. destruct H' as [E|H']; [injection E as <- <-; lia|]. specialize (NX m id H'). lia.
    + intros m id H'. apply MID in H'. destruct H' as [E|H']; [injection E as <- <-; exists false, false; apply in_snoc; now right|]. destruct (M m id H') as (a & b & K). exists a, b. apply in_snoc. now left.
    + intros m id H' K. apply MID in H'. apply in_snoc in K. destruct K as [K|K]; [|discriminate]. destruct H' as [E|H']; [injection E as <- <-; apply G in K; lia|]. now apply (HE m id).
    + intros m id K. apply in_snoc in K. destruct K as [K|K]; [|discriminate]. apply G in K. lia.
    + intros m id [E|H']; [injection E as <- <-; assumption|now apply (DF m id)].
    + intros m id a b K. apply in_snoc in K. destruct K as [K|K]; [now apply (R m id)|]. now injection K as <- <- <- <-.
    + intros m id K. apply in_snoc in K. destruct K as [K|K]; [|discriminate]. destruct (GT m id K) as (a & K'). exists a. apply in_snoc. now left.
    + intros m id H'. destruct (WN m id H') as (a & K). exists a. apply in_snoc. now left.
  - (* taken: excluded *)
    exfalso. destruct (HF (log s) n (next s) sink false [] eq_refl) as (ND & HU). apply find_in in H. apply X in H.
    destruct (M n id H) as (a & b & K). now apply (HE n id H), (HU id a b).
  - (* drop *)
    assert (MOVE : forall m i, In (m, i) (filter (fun x => negb (snd x =? id)) (live s) ++ (n, id) :: dying s) <-> In (m, i) (live s ++ dying s)).
    { intros m i. rewrite !in_app_iff, filter_In. cbn. destruct (Nat.eqb_spec i id) as [->|Hi]; cbn.
      - split; [intros [[_ K]|[K|K]]; [discriminate|injection K as <-; now left|now right]|]. intros [K|K]; [|tauto]. right. left. f_equal. apply (L m n id); [assumption|]. apply in_or_app. now left.
      - split; [intros [[K _]|[K|K]]; [now left|injection K as <- <-; congruence|now right]|tauto]. }
    split; cbn [entries live dying next log].
    + intros m i. rewrite MOVE. apply X.
    + assumption.
    + intros m i K [E|K']; apply filter_In in K; destruct K as (K & K2); cbn in K2.
      * injection E as <- <-. now rewrite Nat.eqb_refl in K2.
      * now apply (D m i).
    + intros m m' i K K'. apply filter_In in K. destruct K as (K & _). apply MOVE in K'. now apply (L m m' i).
    + constructor; [now apply (D n id)|assumption].
    + intros m i K. apply MOVE in K. now apply (NX m i).
    + intros m i K. apply MOVE in K. destruct (M m i K) as (a & b & K'). exists a, b. apply in_snoc. now left.
    + intros m i K K'. apply MOVE in K. apply in_snoc in K'. destruct K' as [K'|K']; [|discriminate]. now apply (HE m i).
    + intros m i K. apply in_snoc in K. destruct K as [K|K]; [|discriminate]. now apply (G m i).
    + assumption.
    + intros m i a b K. apply in_snoc in K. destruct K as [K|K]; [now apply (R m i)|discriminate].
    + intros m i K. apply in_snoc in K. destruct K as [K|K]; [|discriminate]. destruct (GT m i K) as (a & K'). exists a. apply in_snoc. now left.
    + intros m i K. apply filter_In in K. destruct K as (K & _). destruct (WN m i K) as (a & K'). exists a. apply in_snoc. now left.
  - (* destroy *)
    assert (HD : In (n, id) (live s ++ dying s)) by (rewrite H, !in_app_iff; cbn; tauto).
    assert (ND : n <> default_name) by (apply (DF n id); now apply X).
    assert (SUB : forall x, In x (live s ++ a ++ b) -> In x (live s ++ dying s)) by (intros x; rewrite H, !in_app_iff; cbn; tauto).
    rewrite H in DY. pose proof (NoDup_remove_1 _ _ _ DY) as DY1. pose proof (NoDup_remove_2 _ _ _ DY) as DY2.
    assert (UN : forall m i, In (m, i) (live s ++ a ++ b) <-> In (m, i) (live s ++ dying s) /\ m <> n).
    { intros m i. split.
      - intros K. split; [now apply SUB|]. intros ->. assert (i = id).
        { pose proof (proj2 (X n i) (SUB _ K)) as K1. pose proof (proj2 (X n id) HD) as K2. apply (find_unique _ _ _ N) in K1. apply (find_unique _ _ _ N) in K2. congruence. }
        subst i. apply in_app_or in K. destruct K as [K|K]; [|contradiction]. apply (D n id K). rewrite H. apply in_or_app. right. now left.
      - rewrite H, !in_app_iff. cbn. intros ([K|[K|[K|K]]] & Hm); try tauto. injection K as <- <-. congruence. }
    assert (GONE : forall m i, In (m, i) (live s ++ a ++ b) -> ~ (n = m /\ id = i)) by (intros m i K (-> & ->); apply UN in K; tauto).
    unfold unregister. destruct (Nat.eqb_spec n default_name); [contradiction|].
    split; cbn [entries live dying next log].
    + intros m i. rewrite erase_in, UN, X. cbn. tauto.
    + now apply erase_nodup.
    + intros m i K K'. apply (D m i K). rewrite H. apply in_app_or in K'. apply in_or_app. cbn. tauto.
    + intros m m' i K K'. apply (L m m' i K). now apply SUB.
    + assumption.
    + intros m i K. apply (NX m i). now apply SUB.
    + intros m i K. destruct (M m i (SUB _ K)) as (x & y & K'). exists x, y. apply in_snoc. now left.
    + intros m i K K'. apply in_snoc in K'. destruct K' as [K'|K']; [now apply (HE m i (SUB _ K))|]. injection K' as <- <-. now apply (GONE n id K).
    + intros m i K. apply in_snoc in K. destruct K as [K|K]; [now apply (G m i)|]. injection K as <- <-. now apply (NX n id).
    + intros m i K. apply erase_in in K. now apply (DF m i).
    + intros m i x y K. apply in_snoc in K. destruct K as [K|K]; [now apply (R m i)|discriminate].
    + intros m i K. apply in_snoc in K. destruct K as [K|K]; [|discriminate]. destruct (GT m i K) as (x & K'). exists x. apply in_snoc. now left.
    + intros m i K. destruct (WN m i K) as (x & K'). exists x. apply in_snoc. now left.
  - (* get *)
    split; cbn [entries live dying next log]; try assumption.
    + intros m i K. destruct (M m i K) as (a & b & K'). exists a, b. apply in_snoc. now left.
    + intros m i K K'. apply in_snoc in K'. destruct K' as [K'|K']; [|discriminate]. now apply (HE m i).
    + intros m i K. apply in_snoc in K. destruct K as [K|K]; [|discriminate]. now apply (G m i).
    + intros m i a b K. apply in_snoc in K. destruct K as [K|K]; [now apply (R m i)|discriminate].
    + intros m i K. apply in_snoc in K. destruct K as [K|K]; [destruct (GT m i K) as (a & K'); exists a; apply in_snoc; now left|].
      injection K as -> K. unfold get in K. destruct (find m (entries s)) as [j|] eqn:EF; [|discriminate]. unfold lock in K.
      destruct (existsb (fun x => snd x =? j) (live s)) eqn:EX; [|discriminate]. injection K as ->. apply existsb_exists in EX.
      destruct EX as ([m' i'] & K1 & K2). cbn in K2. apply Nat.eqb_eq in K2. subst i'. apply find_in in EF. apply X in EF.
      rewrite (L m' m i K1 EF). destruct (WN m' i K1) as (a & K3). exists a. apply in_snoc. now left.
    + intros m i K. destruct (WN m i K) as (a & K'). exists a. apply in_snoc. now left.
Qed.
Lemma log_step s s' : step s s' -> exists l, log s' = log s ++ l.
Proof. intros H. destruct H; eexists; reflexivity. Qed.
Lemma inv_reaches s : reaches s -> names_free (log s) -> inv s.
Proof.
  induction 1 as [|s s' HR IH HS]; intros HF.
  - split; cbn; try contradiction; try (constructor); tauto.
  - destruct (log_step s s' HS) as (l & E). eapply inv_step; [|exact HS|exact HF]. apply IH. rewrite E in HF. now apply free_before in HF.
Qed.

(** If loggers are created under names that are not in use: create succeeds exactly if the sink can be initialized; Logger::get returns
    exactly the logger in use under that name; no two loggers in use have the same name. *)
Theorem registry_exact : forall s, reaches s -> names_free (log s) ->
  (forall n id sink result, In (ECreate n id sink result) (log s) -> result = sink) /\
  (forall n id, get s n = Some id <-> In (n, id) (live s)) /\
  (forall n id id', In (n, id) (live s) -> In (n, id') (live s) -> id = id') /\
  (forall n id, In (EGet n (Some id)) (log s) -> exists sink, In (ECreate n id sink true) (log s)).
Proof.
  intros s HR HF. destruct (inv_reaches s HR HF) as [X N D L DY NX M HE G DF R GT WN].
  assert (GI : forall n id, In (n, id) (live s) -> get s n = Some id).
  { intros n id H. unfold get. rewrite (find_unique n id); [|assumption|apply X, in_or_app; now left]. unfold lock.
    replace (existsb (fun x => snd x =? id) (live s)) with true; [reflexivity|]. symmetry. apply existsb_exists. exists (n, id). cbn. now rewrite Nat.eqb_refl. }
  split; [assumption|]. split; [|split; [|assumption]].
  - intros n id. split; [|apply GI]. unfold get. destruct (find n (entries s)) as [j|] eqn:E; [|discriminate]. unfold lock.
    destruct (existsb (fun x => snd x =? j) (live s)) eqn:EX; [|discriminate]. intros H. injection H as ->. apply existsb_exists in EX.
    destruct EX as ([m i] & H1 & H2). cbn in H2. apply Nat.eqb_eq in H2. subst i. apply find_in, X in E. now rewrite (L m n id H1 E).
  - intros n id id' H1 H2. apply GI in H1. apply GI in H2. congruence.
Qed.

(** ** Examples and refutations *)
Tactic Notation "next" ident(R) uconstr(c) ident(R') :=
  assert (R' : reaches _) by (refine (reaches_step _ _ R _); eapply c; first [reflexivity|now left]); cbn in R'.
Example registry_run : exists s, reaches s /\ names_free (log s) /\ live s = [(7, 2)] /\ get s 7 = Some 2 /\ length (log s) = 7.
Proof.
  pose proof reaches_initial as R.
  next R (s_create _ 7) R1. clear R.
  next R1 (s_drop _ 7 0) R2. clear R1.
  next R2 (s_destroy _ [] 7 0 []) R3. clear R2.
  next R3 (s_create_fails _ 7) R4. clear R3.
  next R4 (s_destroy _ [] 7 1 []) R5. clear R4.
  next R5 (s_create _ 7) R6. clear R5.
  next R6 (s_get _ 7) R7. clear R6.
  eexists. split; [exact R7|]. split; [|repeat split]. cbn [log].
  intros a n id sink result b E.
  assert (SH : forall (x e : event) l l', x :: l = e :: l' -> x = e /\ l = l') by (intros x e l l' K; now injection K).
  Ltac peel SH E a := destruct a as [|e a]; cbn [app] in E; apply SH in E; destruct E as [He E]; [first [discriminate He|injection He as <- <- <- <-; split; [discriminate|]]|subst e].
  peel SH E a; [intros ? ? ? []|]. peel SH E a. peel SH E a. peel SH E a.
  { intros i x y K. cbn [In] in K. destruct K as [K|[K|[K|[]]]]; try discriminate. injection K as <- <- <-. right. right. now left. }
  peel SH E a. peel SH E a.
  { intros i x y K. cbn [In] in K. destruct K as [K|[K|[K|[K|[K|[]]]]]]; try discriminate; injection K as <- <- <-; [right; right; now left|right; right; right; right; now left]. }
  peel SH E a. destruct a; discriminate.
Qed.

(** "Creating a logger under a name in use returns nullptr and changes nothing": false; the rejected logger's destructor unregisters the
    logger that has the name.  Logger::get then does not find it, and the name can be taken a second time. *)
Theorem name_clash_refuted : exists s1 s2 s3, reaches s1 /\ In (7, 0) (live s1) /\ get s1 7 = Some 0 /\
  step s1 s2 /\ log s2 = log s1 ++ [ECreate 7 1 true false] /\
  reaches s3 /\ (exists l, log s3 = log s2 ++ [EGone 7 1] ++ l) /\ In (7, 0) (live s3) /\ In (7, 2) (live s3) /\ get s3 7 = Some 2.
Proof.
  pose proof reaches_initial as R.
  next R (s_create _ 7) R1. clear R.
  pose proof (s_create_taken _ 7 0 true (eq_refl : find 7 (entries {| entries := [(7, 0)]; live := [(7, 0)]; dying := []; next := 1; log := [ECreate 7 0 true true] |}) = Some 0)) as S2.
  assert (R2 := reaches_step _ _ R1 S2). cbn in R2.
  next R2 (s_destroy _ [] 7 1 []) R3. clear R2.
  next R3 (s_create _ 7) R4. clear R3.
  eexists; eexists; eexists. split; [exact R1|]. split; [now left|]. split; [reflexivity|]. split; [exact S2|]. split; [reflexivity|]. split; [exact R4|].
  split; [exists [ECreate 7 2 true true]; reflexivity|]. split; [right; now left|]. split; [now left|reflexivity].
Qed.
(** "The name of a logger that is gone is free again": false for the name of the default logger. *)
Theorem default_name_refuted : exists s, reaches s /\ live s = [] /\ dying s = [] /\
  forall s' id sink result, step s s' -> log s' = log s ++ [ECreate default_name id sink result] -> result = false.
Proof.
  pose proof reaches_initial as R.
  next R (s_create _ 0) R1. clear R.
  next R1 (s_drop _ 0 0) R2. clear R1.
  next R2 (s_destroy _ [] 0 0 []) R3. clear R2.
  eexists. split; [exact R3|]. split; [reflexivity|]. split; [reflexivity|].
  intros s' id sink result HS E. destruct HS; cbn [log app] in E; apply app_inv_head with (l := [ECreate 0 0 true true; EDrop 0 0; EGone 0 0]) in E; try discriminate.
  - injection E as -> _ _ _. discriminate.
  - injection E as _ _ _ <-. reflexivity.
  - injection E as _ _ _ <-. reflexivity.
Qed.
