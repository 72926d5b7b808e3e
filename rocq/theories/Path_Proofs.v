(** Proofs about the path monitor. *)
From Verif Require Import Common Bits Path_Model Path_Spec.
Open Scope nat_scope.

(** * Lists *)
Lemma name_eqb_spec a b : reflect (a = b) (name_eqb a b).
Proof. unfold name_eqb. destruct (list_eq_dec Z.eq_dec a b); now constructor. Qed.
Lemma find_in p l i : find p l = Some i -> In (p, i) l.
Proof. induction l as [|[q j] l IH]; cbn; [discriminate|]. destruct (Nat.eqb_spec q p) as [->|H]; [|now right; apply IH]. intros E. injection E as ->. now left. Qed.
Lemma find_none p l : find p l = None -> ~ In p (map fst l).
Proof. induction l as [|[q i] l IH]; cbn; [auto|]. destruct (Nat.eqb_spec q p); [discriminate|]. intros H [K|K]; [congruence|now apply IH]. Qed.
Lemma find_unique p i l : NoDup (map fst l) -> In (p, i) l -> find p l = Some i.
Proof.
  induction l as [|[q j] l IH]; cbn; [contradiction|]. intros HN [E|H]; inversion_clear HN.
  - injection E as -> ->. now rewrite Nat.eqb_refl.
  - destruct (Nat.eqb_spec q p) as [->|Hq]; [|now apply IH]. exfalso. apply H0. now apply (in_map fst) in H.
Qed.
Lemma find_erase p q l : find q (erase p l) = if q =? p then None else find q l.
Proof.
  unfold erase. induction l as [|[r i] l IH]; cbn; [now destruct (q =? p)|]. destruct (Nat.eqb_spec r p) as [->|Hr]; cbn.
  - rewrite IH. destruct (Nat.eqb_spec q p) as [->|Hq]; [reflexivity|]. destruct (Nat.eqb_spec p q); [congruence|reflexivity].
  - rewrite IH. destruct (Nat.eqb_spec r q) as [->|Hq]; [|reflexivity]. destruct (Nat.eqb_spec q p); [congruence|reflexivity].
Qed.
Lemma find_update p i q l : find q (update p i l) = if q =? p then match find p l with Some _ => Some i | None => None end else find q l.
Proof.
  induction l as [|[r j] l IH]; cbn; [now destruct (q =? p)|]. destruct (Nat.eqb_spec r p) as [->|Hr]; cbn.
  - destruct (Nat.eqb_spec p q) as [->|Hq]; [now rewrite Nat.eqb_refl|]. destruct (Nat.eqb_spec q p); [congruence|reflexivity].
  - rewrite IH. destruct (Nat.eqb_spec r q) as [->|Hq]; [|reflexivity]. destruct (Nat.eqb_spec q p); [congruence|reflexivity].
Qed.
Lemma update_keys p i l : map fst (update p i l) = map fst l.
Proof. induction l as [|[r j] l IH]; cbn; [reflexivity|]. destruct (r =? p); cbn; [reflexivity|now rewrite IH]. Qed.
Lemma erase_nodup p l : NoDup (map fst l) -> NoDup (map fst (erase p l)).
Proof.
  induction l as [|x l IH]; cbn; [auto|]. intros H. inversion_clear H. destruct (negb (fst x =? p)); cbn; [|now apply IH].
  constructor; [|now apply IH]. intros K. apply H0. apply in_map_iff in K. destruct K as (y & E & Hy). apply filter_In in Hy. apply in_map_iff. exists y. tauto.
Qed.
Lemma erase_in p x l : In x (erase p l) <-> In x l /\ fst x <> p.
Proof. unfold erase. rewrite filter_In. destruct (Nat.eqb_spec (fst x) p); cbn; intuition congruence. Qed.
Lemma update_in p i l q j : In (q, j) (update p i l) -> (q = p /\ j = i /\ find p l <> None) \/ In (q, j) l.
Proof.
  induction l as [|[r k] l IH]; cbn; [contradiction|]. destruct (Nat.eqb_spec r p) as [->|Hr]; cbn.
  - intros [E|E]; [injection E as <- <-; left; now repeat split|right; now right].
  - intros [E|E]; [right; now left|]. destruct (IH E) as [(H1 & H2 & H3)|H]; [left; now repeat split|right; now right].
Qed.
Lemma find_file_erase n m l : find_file m (erase_file n l) = if name_eqb m n then None else find_file m l.
Proof.
  unfold erase_file. induction l as [|[k h] l IH]; cbn; [now destruct (name_eqb m n)|]. destruct (name_eqb_spec k n) as [->|Hk]; cbn.
  - rewrite IH. destruct (name_eqb_spec m n) as [->|Hm]; [reflexivity|]. destruct (name_eqb_spec n m); [congruence|reflexivity].
  - rewrite IH. destruct (name_eqb_spec k m) as [->|Hm]; [|reflexivity]. destruct (name_eqb_spec m n); [congruence|reflexivity].
Qed.
Lemma find_file_nil l : (forall n, find_file n l = None) -> l = [].
Proof. destruct l as [|[n h] l]; [reflexivity|]. intros H. specialize (H n). cbn in H. destruct (name_eqb_spec n n); [discriminate|congruence]. Qed.
Lemma find_watch_in d l w : find_watch d l = Some w -> In (d, w) l.
Proof. induction l as [|[e v] l IH]; cbn; [discriminate|]. destruct (Nat.eqb_spec e d) as [->|H]; [|now right; apply IH]. intros E. injection E as ->. now left. Qed.
Lemma find_watch_none d l : find_watch d l = None -> ~ In d (map fst l).
Proof. induction l as [|[e v] l IH]; cbn; [auto|]. destruct (Nat.eqb_spec e d); [discriminate|]. intros H [K|K]; [congruence|now apply IH]. Qed.
Lemma find_watch_unique d w l : NoDup (map fst l) -> In (d, w) l -> find_watch d l = Some w.
Proof.
  induction l as [|[e v] l IH]; cbn; [contradiction|]. intros HN [E|H]; inversion_clear HN.
  - injection E as -> ->. now rewrite Nat.eqb_refl.
  - destruct (Nat.eqb_spec e d) as [->|Hq]; [|now apply IH]. exfalso. apply H0. now apply (in_map fst) in H.
Qed.
Lemma filter_nodup {A B} (f : A -> B) g (l : list A) : NoDup (map f l) -> NoDup (map f (filter g l)).
Proof.
  induction l as [|x l IH]; cbn; [auto|]. intros H. inversion_clear H. destruct (g x); cbn; [|now apply IH].
  constructor; [|now apply IH]. intros K. apply H0. apply in_map_iff in K. destruct K as (y & E & Hy). apply filter_In in Hy. apply in_map_iff. exists y. tauto.
Qed.
Lemma in_snoc {A} (x y : A) l : In x (l ++ [y]) <-> In x l \/ y = x.
Proof. rewrite in_app_iff. cbn. intuition. Qed.

(** * What was asked for *)
Lemma want_snoc l e : want (l ++ [e]) = asked (want l) e.
Proof. unfold want. now rewrite fold_left_app. Qed.
Lemma removals_app p a b : removals p (a ++ b) = removals p a + removals p b.
Proof. unfold removals. now rewrite filter_app, app_length. Qed.
Lemma prunes_app p a b : prunes p (a ++ b) = prunes p a + prunes p b.
Proof. unfold prunes. now rewrite filter_app, app_length. Qed.
Lemma no_race_before a b : no_race (a ++ b) -> no_race a.
Proof. intros H x p t h r y E. apply (H x p t h r (y ++ b)). now rewrite E, <- app_assoc. Qed.
Lemma no_alias_before a b : no_alias (a ++ b) -> no_alias a.
Proof. intros H p q t u h g d H1 H2. apply (H p q t u h g d); apply in_or_app; now left. Qed.
Lemma hist_step s s' : step s s' -> exists l, hist s' = hist s ++ l.
Proof. destruct 1; cbn [hist]; first [now eexists|exists []; now rewrite app_nil_r]. Qed.

(** With or without races, callbacks stored are callbacks asked for. *)
Definition sound (s : state) : Prop :=
  forall p i, In (p, i) (infos s) -> (forall h, i_path i = Some h -> want (hist s) p None = Some h) /\
    (forall n h, find_file n (i_files i) = Some h -> want (hist s) p (Some n) = Some h).
Record keys (s : state) : Prop := Keys { y_nodup : NoDup (map fst (infos s)) }.
Lemma keys_step s s' : keys s -> step s s' -> keys s'.
Proof.
  intros [H] HS. destruct HS; split; cbn [infos]; try assumption; rewrite ?update_keys; try assumption; try (now apply erase_nodup).
  - constructor; [now apply find_none|assumption].
  - constructor.
Qed.
Lemma keys_reaches s : reaches s -> keys s.
Proof. induction 1; [split; constructor|eapply keys_step; eassumption]. Qed.

Lemma store_wd i t h : i_wd (store i t h) = i_wd i.
Proof. now destruct t. Qed.
Lemma store_path i t h : i_path (store i t h) = match t with None => Some h | Some _ => i_path i end.
Proof. now destruct t. Qed.
Lemma store_file i t h n : find_file n (i_files (store i t h)) = match t with Some m => if name_eqb n m then Some h else find_file n (i_files i) | None => find_file n (i_files i) end.
Proof.
  destruct t as [m|]; [|reflexivity]. cbn. destruct (name_eqb_spec m n) as [->|H]; [destruct (name_eqb_spec n n); [reflexivity|congruence]|].
  destruct (name_eqb_spec n m) as [->|H']; [congruence|]. rewrite find_file_erase. destruct (name_eqb_spec n m); [congruence|reflexivity].
Qed.
Lemma asked_add w p t h r q u : r <> Refused -> asked w (EAdd p t h r) q u = if q =? p then if target_dec u t then Some h else w q u else w q u.
Proof. destruct r; [congruence|reflexivity|reflexivity]. Qed.

Lemma update_in' p i l q j : NoDup (map fst l) -> In (q, j) (update p i l) -> (q = p /\ j = i) \/ (q <> p /\ In (q, j) l).
Proof.
  intros HN H. destruct (Nat.eqb_spec q p) as [->|Hq].
  - left. split; [reflexivity|]. rewrite <- (update_keys p i l) in HN. apply (find_unique _ _ _ HN) in H. rewrite find_update, Nat.eqb_refl in H.
    destruct (find p l); congruence.
  - right. split; [assumption|]. apply update_in in H. tauto.
Qed.
Lemma sound_step s s' : keys s -> sound s -> step s s' -> sound s'.
Proof.
  intros HK HS0 HS.
  assert (SAME : forall e, (forall w, asked w e = w) -> infos s' = infos s -> hist s' = hist s ++ [e] -> sound s').
  { intros e He H1 H2 p i Hin. rewrite H1 in Hin. rewrite H2, want_snoc, He. now apply HS0. }
  assert (SAME0 : infos s' = infos s -> hist s' = hist s -> sound s').
  { intros H1 H2 p i Hin. rewrite H1 in Hin. rewrite H2. now apply HS0. }
  assert (ADD : forall i p t h r, r <> Refused ->
    (forall h', i_path i = Some h' -> want (hist s) p None = Some h') /\ (forall n h', find_file n (i_files i) = Some h' -> want (hist s) p (Some n) = Some h') ->
    (forall h', i_path (store i t h) = Some h' -> asked (want (hist s)) (EAdd p t h r) p None = Some h') /\
    (forall n h', find_file n (i_files (store i t h)) = Some h' -> asked (want (hist s)) (EAdd p t h r) p (Some n) = Some h')).
  { intros i p t h r Hr (A & B). split.
    - intros h'. rewrite store_path, asked_add, Nat.eqb_refl by assumption. destruct (target_dec None t) as [<-|Ht]; [auto|]. destruct t; [apply A|congruence].
    - intros n h'. rewrite store_file, asked_add, Nat.eqb_refl by assumption. destruct (target_dec (Some n) t) as [<-|Ht].
      + destruct (name_eqb_spec n n); [auto|congruence].
      + destruct t as [m|]; [|apply B]. destruct (name_eqb_spec n m); [congruence|apply B]. }
  assert (OTHER : forall p t h r q i, r <> Refused -> q <> p -> In (q, i) (infos s) ->
    (forall h', i_path i = Some h' -> asked (want (hist s)) (EAdd p t h r) q None = Some h') /\
    (forall n h', find_file n (i_files i) = Some h' -> asked (want (hist s)) (EAdd p t h r) q (Some n) = Some h')).
  { intros p t h r q i Hr Hq Hin. destruct (HS0 q i Hin) as (A & B). split; intros; rewrite asked_add by assumption; destruct (Nat.eqb_spec q p); try congruence; auto. }
  destruct HS; try (refine (SAME _ _ eq_refl eq_refl); intros; reflexivity); try (apply (SAME0 eq_refl eq_refl)).
  - (* joined *)
    intros q j Hin. cbn [infos hist] in *. rewrite want_snoc. apply update_in' in Hin; [|apply HK]. destruct Hin as [(-> & ->)|(Hq & Hin)].
    + apply ADD; [discriminate|]. apply HS0. now apply find_in.
    + now apply OTHER.
  - (* created *)
    intros q j Hin. cbn [infos hist] in *. rewrite want_snoc. destruct Hin as [E|Hin].
    + injection E as <- <-. apply ADD; [discriminate|]. split; [discriminate|discriminate].
    + apply OTHER; [discriminate| |assumption]. intros ->. apply find_none in H0. apply H0. now apply (in_map fst) in Hin.
  - (* remove path *)
    intros q j Hin. cbn [infos hist] in *. rewrite want_snoc. apply erase_in in Hin. cbn in Hin. destruct Hin as (Hin & Hq). cbn.
    destruct (Nat.eqb_spec q p); [congruence|]. now apply HS0.
  - (* remove all *) intros q j [].
  - (* nothing to remove *)
    intros q j Hin. cbn [infos hist] in *. rewrite want_snoc. destruct (HS0 q j Hin) as (A & B). cbn. destruct (Nat.eqb_spec q p) as [->|Hq]; [|now split].
    split; [intros h' E'; destruct (target_dec None (Some n)); [discriminate|now apply A]|].
    intros m h' E'. destruct (target_dec (Some m) (Some n)) as [E|E]; [|now apply B]. injection E as ->.
    apply (find_unique _ _ _ (y_nodup _ HK)) in Hin. rewrite Hin in H0. congruence.
  - (* remove file *)
    intros q k Hin. cbn [infos hist] in *. rewrite want_snoc. apply update_in' in Hin; [|apply HK]. cbn. destruct Hin as [(-> & ->)|(Hq & Hin)].
    + rewrite Nat.eqb_refl. destruct (HS0 p i (find_in _ _ _ H0)) as (A & B). split.
      * intros h' E. destruct (target_dec None (Some n)); [discriminate|]. now apply A.
      * intros m h'. cbn. rewrite find_file_erase. destruct (target_dec (Some m) (Some n)) as [E|E]; destruct (name_eqb_spec m n); try congruence; try discriminate. apply B.
    + destruct (Nat.eqb_spec q p); [congruence|]. now apply HS0.
  - (* prune *)
    intros q j Hin. cbn [infos hist] in *. rewrite want_snoc. apply erase_in in Hin. cbn in Hin. destruct Hin as (Hin & Hq). cbn. now apply HS0.
  - (* overflow *)
    intros q j Hin. cbn [infos hist] in *. unfold want. rewrite fold_left_app. cbn. now apply HS0.
Qed.
Lemma sound_reaches s : reaches s -> sound s.
Proof. induction 1; [intros p i []|]. eapply sound_step; eauto. now apply keys_reaches. Qed.

(** Without races, exactly those. *)
Record exact_ (s : state) : Prop := Exact {
  x_some : forall p i, find p (infos s) = Some i -> i_path i = want (hist s) p None /\ forall n, find_file n (i_files i) = want (hist s) p (Some n);
  x_none : forall p, find p (infos s) = None -> forall u, want (hist s) p u = None;
  x_prune : forall p, In p (pruning s) -> forall u, want (hist s) p u = None;
  x_count : forall p, count_occ Nat.eq_dec (pruning s) p + prunes p (hist s) = removals p (hist s) }.
Lemma empty_info_spec i : empty_info i = true -> i_path i = None /\ i_files i = [].
Proof. unfold empty_info. destruct (i_files i), (i_path i); intros; try discriminate; auto. Qed.
Lemma count_middle a (p : nat) b q : count_occ Nat.eq_dec (a ++ p :: b) q = count_occ Nat.eq_dec (a ++ b) q + if p =? q then 1 else 0.
Proof.
  rewrite !count_occ_app. cbn. destruct (Nat.eq_dec p q) as [->|H]; [rewrite Nat.eqb_refl; lia|]. destruct (Nat.eqb_spec p q); [congruence|lia].
Qed.

Lemma exact_step s s' : exact_ s -> step s s' -> no_race (hist s') -> exact_ s'.
Proof.
  intros [X1 X2 X3 X4] HS HR.
  assert (SAME : forall e, (forall w, asked w e = w) -> (forall p, removals p [e] = 0 /\ prunes p [e] = 0) -> infos s' = infos s -> pruning s' = pruning s -> hist s' = hist s ++ [e] -> exact_ s').
  { intros e He Hn H1 H2 H3. split; rewrite ?H1, ?H2, H3; try rewrite want_snoc, He; try assumption. intros p. rewrite prunes_app, removals_app. destruct (Hn p) as (-> & ->). now rewrite !Nat.add_0_r. }
  assert (SAME0 : infos s' = infos s -> pruning s' = pruning s -> hist s' = hist s -> exact_ s').
  { intros H1 H2 H3. split; rewrite ?H1, ?H2, H3; assumption. }
  destruct HS; try (refine (SAME _ _ _ eq_refl eq_refl eq_refl); intros; try split; reflexivity); try (apply (SAME0 eq_refl eq_refl eq_refl)).
  - (* joined *)
    cbn [hist] in HR. assert (NP : ~ In p (pruning s)).
    { pose proof (HR (hist s) p t h Joined [] eq_refl ltac:(discriminate)) as E. rewrite <- X4 in E. intros K. apply (count_occ_In Nat.eq_dec) in K. lia. }
    split; cbn [infos pruning hist]; rewrite ?want_snoc.
    + intros q j. rewrite find_update. destruct (Nat.eqb_spec q p) as [->|Hq].
      * rewrite H0. intros E. injection E as <-. destruct (X1 p i H0) as (A & B). rewrite store_path. split.
        -- rewrite asked_add, Nat.eqb_refl by discriminate. destruct (target_dec None t) as [<-|Ht]; [reflexivity|]. destruct t; [apply A|congruence].
        -- intros n. rewrite store_file, asked_add, Nat.eqb_refl by discriminate. destruct (target_dec (Some n) t) as [<-|Ht].
           ++ destruct (name_eqb_spec n n); [reflexivity|congruence].
           ++ destruct t as [m|]; [|apply B]. destruct (name_eqb_spec n m); [congruence|apply B].
      * intros E. destruct (X1 q j E) as (A & B). split; intros; rewrite asked_add by discriminate; destruct (Nat.eqb_spec q p); try congruence; auto.
    + intros q. rewrite find_update. destruct (Nat.eqb_spec q p) as [->|Hq]; [rewrite H0; discriminate|]. intros E u. rewrite asked_add by discriminate. destruct (Nat.eqb_spec q p); [congruence|]. now apply X2.
    + intros q K u. rewrite asked_add by discriminate. destruct (Nat.eqb_spec q p) as [->|]; [contradiction|]. now apply X3.
    + intros q. rewrite prunes_app, removals_app. cbn. rewrite !Nat.add_0_r. apply X4.
  - (* created *)
    cbn [hist] in HR. assert (NP : ~ In p (pruning s)).
    { pose proof (HR (hist s) p t h (Created d) [] eq_refl ltac:(discriminate)) as E. rewrite <- X4 in E. intros K. apply (count_occ_In Nat.eq_dec) in K. lia. }
    split; cbn [infos pruning hist]; rewrite ?want_snoc.
    + intros q j. cbn [find]. destruct (Nat.eqb_spec p q) as [<-|Hq].
      * intros E. injection E as <-. rewrite store_path. pose proof (X2 p H0) as A. split.
        -- rewrite asked_add, Nat.eqb_refl by discriminate. destruct (target_dec None t) as [<-|Ht]; [reflexivity|]. destruct t; [cbn; now rewrite A|congruence].
        -- intros n. rewrite store_file, asked_add, Nat.eqb_refl by discriminate. destruct (target_dec (Some n) t) as [<-|Ht].
           ++ destruct (name_eqb_spec n n); [reflexivity|congruence].
           ++ rewrite A. destruct t as [m|]; [|reflexivity]. destruct (name_eqb_spec n m); [congruence|reflexivity].
      * intros E. destruct (X1 q j E) as (A & B). split; intros; rewrite asked_add by discriminate; destruct (Nat.eqb_spec q p); try congruence; auto.
    + intros q. cbn [find]. destruct (Nat.eqb_spec p q) as [<-|Hq]; [discriminate|]. intros E u. rewrite asked_add by discriminate. destruct (Nat.eqb_spec q p); [congruence|]. now apply X2.
    + intros q K u. rewrite asked_add by discriminate. destruct (Nat.eqb_spec q p) as [->|]; [contradiction|]. now apply X3.
    + intros q. rewrite prunes_app, removals_app. cbn. rewrite !Nat.add_0_r. apply X4.
  - (* remove path *)
    split; cbn [infos pruning hist]; rewrite ?want_snoc; cbn [asked].
    + intros q j. rewrite find_erase. destruct (Nat.eqb_spec q p); [discriminate|]. apply X1.
    + intros q. rewrite find_erase. destruct (Nat.eqb_spec q p); [reflexivity|]. apply X2.
    + intros q K u. destruct (Nat.eqb_spec q p); [reflexivity|]. now apply X3.
    + intros q. rewrite prunes_app, removals_app. cbn. rewrite !Nat.add_0_r. apply X4.
  - (* remove all *)
    split; cbn [infos pruning hist]; rewrite ?want_snoc; cbn [asked]; try discriminate; auto. intros q. rewrite prunes_app, removals_app. cbn. rewrite !Nat.add_0_r. apply X4.
  - (* nothing to remove *)
    assert (N : want (hist s) p (Some n) = None). { destruct (find p (infos s)) as [i|] eqn:E; [|now apply X2]. destruct (X1 p i E) as (_ & B). now rewrite <- B. }
    assert (W : forall q u, asked (want (hist s)) (ERemoveFile p n false false) q u = want (hist s) q u).
    { intros q u. cbn. destruct (Nat.eqb_spec q p) as [->|]; [|reflexivity]. destruct (target_dec u (Some n)) as [->|]; [now rewrite N|reflexivity]. }
    split; cbn [infos pruning hist]; rewrite ?want_snoc.
    + intros q j E. rewrite W. destruct (X1 q j E) as (A & B). split; [assumption|]. intros m. now rewrite W.
    + intros q E u. rewrite W. now apply X2.
    + intros q E u. rewrite W. now apply X3.
    + intros q. rewrite prunes_app, removals_app. cbn. rewrite !Nat.add_0_r. apply X4.
  - (* remove file *)
    destruct (X1 p i H0) as (A & B).
    assert (W : forall u, asked (want (hist s)) (ERemoveFile p n true (empty_info j)) p u = if target_dec u (Some n) then None else want (hist s) p u) by (intros u; cbn; now rewrite Nat.eqb_refl).
    assert (V : forall q u, q <> p -> asked (want (hist s)) (ERemoveFile p n true (empty_info j)) q u = want (hist s) q u) by (intros q u Hq; cbn; destruct (Nat.eqb_spec q p); congruence).
    assert (XJ : i_path j = asked (want (hist s)) (ERemoveFile p n true (empty_info j)) p None /\ forall m, find_file m (i_files j) = asked (want (hist s)) (ERemoveFile p n true (empty_info j)) p (Some m)).
    { split; [rewrite W; destruct (target_dec None (Some n)); [discriminate|exact A]|]. intros m. rewrite W. unfold j at 1. cbn [i_files]. rewrite find_file_erase.
      destruct (target_dec (Some m) (Some n)); destruct (name_eqb_spec m n); try congruence; reflexivity || apply B. }
    split; cbn [infos pruning hist]; rewrite ?want_snoc.
    + intros q k. rewrite find_update. destruct (Nat.eqb_spec q p) as [->|Hq].
      * rewrite H0. intros E. injection E as <-. exact XJ.
      * intros E. rewrite !V by assumption. destruct (X1 q k E) as (A' & B'). split; [assumption|]. intros m. now rewrite V.
    + intros q. rewrite find_update. destruct (Nat.eqb_spec q p) as [->|Hq]; [rewrite H0; discriminate|]. intros E u. rewrite V by assumption. now apply X2.
    + intros q K u. assert (K' : (q = p /\ empty_info j = true) \/ In q (pruning s)).
      { destruct (empty_info j); [destruct K as [<-|K]; [now left|now right]|now right]. }
      destruct K' as [(-> & E)|K'].
      * apply empty_info_spec in E. destruct E as (E1 & E2). destruct XJ as (XJ1 & XJ2). destruct u as [m|]; [rewrite <- XJ2, E2; reflexivity|now rewrite <- XJ1].
      * destruct (Nat.eqb_spec q p) as [->|Hq]; [rewrite W; destruct (target_dec u (Some n)); [reflexivity|now apply X3]|]. rewrite V by assumption. now apply X3.
    + intros q. rewrite prunes_app, removals_app. cbn. rewrite <- (X4 q). destruct (empty_info j); cbn; [|lia].
      destruct (Nat.eq_dec p q) as [->|Hq]; [rewrite Nat.eqb_refl; cbn; lia|]. destruct (Nat.eqb_spec p q); [congruence|cbn; lia].
  - (* prune *)
    assert (N : forall u, want (hist s) p u = None) by (apply X3; rewrite H0; apply in_or_app; right; now left).
    split; cbn [infos pruning hist]; rewrite ?want_snoc; cbn [asked].
    + intros q j. rewrite find_erase. destruct (Nat.eqb_spec q p); [discriminate|]. apply X1.
    + intros q. rewrite find_erase. destruct (Nat.eqb_spec q p) as [->|]; [auto|]. apply X2.
    + intros q K u. apply X3. rewrite H0. apply in_app_or in K. apply in_or_app. cbn. tauto.
    + intros q. rewrite prunes_app, removals_app. cbn. rewrite <- (X4 q), H0, count_middle. destruct (Nat.eqb_spec p q); cbn; lia.
  - (* overflow *)
    assert (W : want (hist s ++ [EChange d c f n; EOverflow]) = want (hist s)) by (unfold want; now rewrite fold_left_app).
    split; cbn [infos pruning hist]; rewrite ?W; try assumption. intros q. rewrite prunes_app, removals_app. cbn. rewrite !Nat.add_0_r. apply X4.
Qed.
Lemma exact_reaches s : reaches s -> no_race (hist s) -> exact_ s.
Proof.
  induction 1 as [r|s s' HR IH HS]; intros H.
  - split; cbn; try discriminate; try contradiction; auto.
  - destruct (hist_step s s' HS) as (l & E). eapply exact_step; eauto. apply IH. rewrite E in H. now apply no_race_before in H.
Qed.

(** * Watches *)
Record wk (s : state) : Prop := Wk {
  k_unique : forall p i q j, In (p, i) (infos s) -> In (q, j) (infos s) -> i_wd i = i_wd j -> p = q;
  k_watch : forall d w, In (d, w) (watches s) -> exists p i t h, In (p, i) (infos s) /\ i_wd i = w /\ In (EAdd p t h (Created d)) (hist s);
  k_info : forall p i, In (p, i) (infos s) -> i_wd i < next_wd s;
  k_watches : forall d w, In (d, w) (watches s) -> w < next_wd s;
  k_events : forall w m n, In (w, m, n) (batch s ++ queue s) -> w < next_wd s;
  k_dirs : NoDup (map fst (watches s));
  k_wds : NoDup (map snd (watches s)) }.

Lemma rm_watch_in d w v l : In (d, w) (rm_watch v l) <-> In (d, w) l /\ w <> v.
Proof. unfold rm_watch. rewrite filter_In. cbn. destruct (Nat.eqb_spec w v); cbn; intuition congruence. Qed.
Lemma drop_watch_in s p d w : In (d, w) (drop_watch s p) <-> In (d, w) (watches s) /\ forall i, find p (infos s) = Some i -> w <> i_wd i.
Proof.
  unfold drop_watch. destruct (find p (infos s)) as [i|]; [rewrite rm_watch_in|]; (split; [|intros (H1 & H2)]).
  - intros (H1 & H2). split; [assumption|]. intros j E. now injection E as <-.
  - split; [assumption|now apply H2].
  - intros H. split; [assumption|discriminate].
  - assumption.
Qed.
Lemma drop_watch_nodup s p {B} (f : _ -> B) : NoDup (map f (watches s)) -> NoDup (map f (drop_watch s p)).
Proof. unfold drop_watch. destruct (find p (infos s)); [apply filter_nodup|auto]. Qed.

(** Creating an entry watches a directory not watched before. *)
Lemma fresh_watch s p t h d w ws nw : wk s -> find p (infos s) = None -> add_watch s d = (w, ws, nw) -> no_alias (hist s ++ [EAdd p t h (Created d)]) ->
  find_watch d (watches s) = None /\ w = next_wd s /\ ws = (d, next_wd s) :: watches s /\ nw = S (next_wd s).
Proof.
  intros HK HF HA HN. unfold add_watch in HA. destruct (find_watch d (watches s)) as [v|] eqn:E; [|injection HA as <- <- <-; auto].
  exfalso. apply find_watch_in in E. destruct (k_watch _ HK d v E) as (q & i & t' & h' & H1 & H2 & H3).
  assert (q = p) by (apply (HN q p t' t h' h d); apply in_snoc; auto). subst q. apply find_none in HF. apply HF. now apply (in_map fst) in H1.
Qed.

Lemma wk_step s s' : keys s -> wk s -> step s s' -> no_alias (hist s') -> wk s'.
Proof.
  intros HY HK HS HN. destruct (hist_step s s' HS) as (l & HL).
  pose proof HK as HK0. destruct HK as [K1 K2 K3 K4 K5 K6 K7].
  assert (OLD : forall d w, In (d, w) (watches s) -> exists p i t h, In (p, i) (infos s) /\ i_wd i = w /\ In (EAdd p t h (Created d)) (hist s')).
  { intros d w H. destruct (K2 d w H) as (p & i & t & h & A & B & C). exists p, i, t, h. rewrite HL. repeat split; auto. apply in_or_app. now left. }
  assert (UPD : forall p i j, find p (infos s) = Some i -> i_wd j = i_wd i -> forall q k, In (q, k) (update p j (infos s)) -> exists k', In (q, k') (infos s) /\ i_wd k = i_wd k').
  { intros p i j HF HW q k Hin. apply update_in' in Hin; [|apply HY]. destruct Hin as [(-> & ->)|(_ & Hin)]; [|eauto]. exists i. split; [now apply find_in|assumption]. }
  assert (UPD' : forall p i j, find p (infos s) = Some i -> i_wd j = i_wd i -> forall q k, In (q, k) (infos s) -> exists k', In (q, k') (update p j (infos s)) /\ i_wd k' = i_wd k).
  { intros p i j HF HW q k Hin. pose proof (find_unique _ _ _ (y_nodup _ HY) Hin) as E. assert (E' : exists k', find q (update p j (infos s)) = Some k' /\ i_wd k' = i_wd k).
    { rewrite find_update. destruct (Nat.eqb_spec q p) as [->|Hq]; [|eauto]. rewrite HF. exists j. split; [reflexivity|]. rewrite HF in E. now injection E as <-. }
    destruct E' as (k' & E1 & E2). exists k'. split; [now apply find_in|assumption]. }
  assert (UPDATED : forall p i j pr l', find p (infos s) = Some i -> i_wd j = i_wd i ->
     s' = State (update p j (infos s)) pr Free (batch s) (queue s) (watches s) (next_wd s) (resolve s) l' -> wk s').
  { intros p i j pr l' HF HW ->. split; cbn [infos watches batch queue next_wd hist] in *; try assumption.
    - intros q k r m H1 H2 E. destruct (UPD p i j HF HW q k H1) as (k' & A1 & A2). destruct (UPD p i j HF HW r m H2) as (m' & B1 & B2). apply (K1 q k' r m'); congruence.
    - intros d w H. destruct (OLD d w H) as (q & k & t & h & A & B & C). destruct (UPD' p i j HF HW q k A) as (k' & A' & B'). exists q, k', t, h. repeat split; auto; congruence.
    - intros q k H. destruct (UPD p i j HF HW q k H) as (k' & A & B). rewrite B. now apply (K3 q). }
  assert (REMOVED : forall p pr l', s' = State (erase p (infos s)) pr Free (batch s) (queue s) (drop_watch s p) (next_wd s) (resolve s) l' -> wk s').
  { intros p pr l' ->. split; cbn [infos watches batch queue next_wd hist] in *; try assumption; try (now apply drop_watch_nodup).
    - intros q k r m H1 H2. apply erase_in in H1, H2. now apply K1.
    - intros d w H. apply drop_watch_in in H. destruct H as (H & H'). destruct (OLD d w H) as (q & k & t & h & A & B & C). exists q, k, t, h. repeat split; auto.
      apply erase_in. split; [assumption|]. cbn. intros ->. apply (find_unique _ _ _ (y_nodup _ HY)) in A. now apply (H' k A).
    - intros q k H. apply erase_in in H. now apply (K3 q).
    - intros d w H. apply drop_watch_in in H. now apply (K4 d). }
  destruct HS; try (split; cbn [infos watches batch queue next_wd hist] in *; eassumption).
  - (* joined *) eapply (UPDATED p i); [eassumption|apply store_wd|reflexivity].
  - (* created *)
    cbn [hist] in *. destruct (fresh_watch s p t h d w ws nw HK0 H0 H2 HN) as (F & -> & -> & ->).
    split; cbn [infos watches batch queue next_wd hist map fst snd].
    + intros q k r m [E|A] [E'|B] E2.
      * congruence.
      * injection E as <- <-. rewrite store_wd in E2. cbn in E2. apply K3 in B. lia.
      * injection E' as <- <-. rewrite store_wd in E2. cbn in E2. apply K3 in A. lia.
      * now apply (K1 q k r m).
    + intros e v [E|A].
      * injection E as <- <-. exists p, (store (Info (next_wd s) None []) t h), t, h. split; [now left|]. rewrite store_wd. split; [reflexivity|]. apply in_snoc. now right.
      * destruct (OLD e v A) as (q & k & t' & h' & B & C & D). exists q, k, t', h'. repeat split; auto. now right.
    + intros q k [E|A]; [injection E as <- <-; rewrite store_wd; cbn; lia|]. apply K3 in A. lia.
    + intros e v [E|A]; [injection E as <- <-; lia|]. apply K4 in A. lia.
    + intros v m n A. apply K5 in A. lia.
    + constructor; [now apply find_watch_none|assumption].
    + constructor; [|assumption]. intros A. apply in_map_iff in A. destruct A as ([e v] & E & A). cbn in E. subst v. apply K4 in A. lia.
  - (* remove path *) eapply REMOVED. reflexivity.
  - (* remove all *)
    split; cbn [infos watches batch queue next_wd hist] in *; try (intros; contradiction); try assumption; try (now apply filter_nodup).
    + intros d w A. apply filter_In in A. destruct A as (A & B). exfalso. destruct (K2 d w A) as (p & i & t & h & C & D & _). cbn in B.
      rewrite negb_true_iff in B. assert (existsb (fun y => i_wd (snd y) =? w) (infos s) = true) by (apply existsb_exists; exists (p, i); split; [assumption|cbn; now apply Nat.eqb_eq]). congruence.
    + intros d w A. apply filter_In in A. now apply (K4 d).
  - (* remove file *) eapply (UPDATED p i j); [eassumption|reflexivity|reflexivity].
  - (* prune *) eapply REMOVED. reflexivity.
  - (* change *)
    split; cbn [infos watches batch queue next_wd hist] in *; try assumption. intros v m k A. rewrite app_assoc in A. apply in_app_or in A. destruct A as [A|[E|[]]]; [now apply (K5 v m k)|].
    injection E as <- _ _. apply find_watch_in in H. now apply (K4 d).
  - (* directory gone *)
    split; cbn [infos watches batch queue next_wd hist] in *; try assumption; try (now apply filter_nodup).
    + intros e v A. apply filter_In in A. now apply OLD.
    + intros e v A. apply filter_In in A. now apply (K4 e).
  - (* read *)
    split; cbn [infos watches batch queue next_wd hist] in *; try assumption. intros v m n A. rewrite firstn_skipn in A. apply (K5 v m n). rewrite H0. exact A.
  - (* read none *)
    split; cbn [infos watches batch queue next_wd hist] in *; try assumption. intros v m n A. apply (K5 v m n). now rewrite H0.
  - (* handle *)
    split; cbn [infos watches batch queue next_wd hist] in *; try assumption. intros v m' n' A. apply (K5 v m' n'). rewrite H0. now right.
  - (* drop *)
    split; cbn [infos watches batch queue next_wd hist] in *; try assumption. intros v m' n' A. apply (K5 v m' n'). rewrite H0. now right.
Qed.
Lemma wk_reaches s : reaches s -> no_alias (hist s) -> wk s.
Proof.
  induction 1 as [r|s s' HR IH HS]; intros H.
  - split; cbn; try contradiction; try constructor.
  - destruct (hist_step s s' HS) as (l & E). eapply wk_step; eauto; [now apply keys_reaches|]. apply IH. rewrite E in H. now apply no_alias_before in H.
Qed.

(** * Completeness *)
Lemma changes_app d a b : changes d (a ++ b) = changes d a ++ changes d b.
Proof. apply flat_map_app. Qed.
Lemma handled_app d a b : handled d (a ++ b) = handled d a ++ handled d b.
Proof. apply flat_map_app. Qed.
Lemma merges_last {A} (l k : list A) : merges l k -> forall k' x, k = k' ++ [x] -> exists l', l = l' ++ [x].
Proof.
  induction 1 as [|all kept x H IH|all kept x H IH]; intros k' y E.
  - now destruct k'.
  - apply app_inj_tail in E. destruct E as (_ & ->). now exists all.
  - destruct (IH k' y E) as (l' & E'). apply app_inj_tail in E'. destruct E' as (_ & ->). now eexists.
Qed.
Definition entry (s : state) (p d : nat) (b : list event) : Prop :=
  exists i, find p (infos s) = Some i /\ find_watch d (watches s) = Some (i_wd i) /\ merges (changes d b) (handled p b ++ waiting s (i_wd i)).

Lemma nodup_snd (l : list (nat * nat)) a b w : NoDup (map snd l) -> In (a, w) l -> In (b, w) l -> a = b.
Proof.
  induction l as [|[e v] l IH]; cbn; [contradiction|]. intros ND [A|A] [B|B]; inversion_clear ND.
  - congruence.
  - injection A as -> ->. exfalso. apply H. now apply (in_map snd) in B.
  - injection B as -> ->. exfalso. apply H. now apply (in_map snd) in A.
  - now apply IH.
Qed.
Lemma waiting_snoc s w ba qu v m n pr md ws nw r l : 
  ba = batch s -> qu = queue s ++ [(v, m, n)] ->
  waiting (State (infos s) pr md ba qu ws nw r l) w = waiting s w ++ if v =? w then [(m, n)] else [].
Proof. intros -> ->. unfold waiting. cbn [batch queue]. rewrite app_assoc, flat_map_app. cbn. destruct (v =? w); now rewrite ?app_nil_r. Qed.

Lemma entry_step s s' p d b a l : keys s -> wk s -> exact_ s -> step s s' -> no_alias (hist s') -> hist s = a ++ b -> hist s' = hist s ++ l ->
  (exists t h, In (EAdd p t h (Created d)) a) -> (forall b1 b2, b ++ l = b1 ++ b2 -> exists u, want (a ++ b1) p u <> None) ->
  ~ In EOverflow (b ++ l) -> ~ In (EDirectoryGone d) (b ++ l) -> entry s p d b -> entry s' p d (b ++ l).
Proof.
  intros HY HK HX HS HN HB HL (t0 & h0 & HIN) HW HO HG (i & E1 & E2 & E3).
  assert (NOW : exists u, want (hist s') p u <> None). { rewrite HL, HB, <- app_assoc. apply (HW (b ++ l) []). now rewrite app_nil_r. }
  assert (KEEP : infos s' = infos s -> watches s' = watches s -> changes d l = [] -> handled p l = [] -> waiting s' (i_wd i) = waiting s (i_wd i) -> entry s' p d (b ++ l)).
  { intros A1 A2 A3 A4 A5. exists i. rewrite A1, A2, A5, changes_app, handled_app, A3, A4, !app_nil_r. auto. }
  pose proof (find_in _ _ _ E1) as HI. pose proof (find_watch_in _ _ _ E2) as HWt.
  assert (OTHER : forall e v, In (e, v) (watches s) -> v = i_wd i -> e = d) by (intros e v A ->; now apply (nodup_snd _ e d (i_wd i) (k_wds _ HK))).
  assert (REMOVED : forall q pr l', q <> p -> s' = State (erase q (infos s)) pr Free (batch s) (queue s) (drop_watch s q) (next_wd s) (resolve s) l' ->
      changes d l = [] -> handled p l = [] -> entry s' p d (b ++ l)).
  { intros q pr l' Hq -> A3 A4. exists i. cbn [infos watches]. rewrite find_erase. destruct (Nat.eqb_spec p q); [congruence|]. split; [assumption|]. split.
    - apply find_watch_unique; [apply drop_watch_nodup, HK|]. apply drop_watch_in. split; [assumption|]. intros j Hj E. apply Hq.
      symmetry. apply (k_unique _ HK p i q j); [assumption|now apply find_in|assumption].
    - rewrite changes_app, handled_app, A3, A4, !app_nil_r. exact E3. }
  assert (UPDATED : forall q j k pr l', find q (infos s) = Some j -> i_wd k = i_wd j -> s' = State (update q k (infos s)) pr Free (batch s) (queue s) (watches s) (next_wd s) (resolve s) l' ->
      changes d l = [] -> handled p l = [] -> entry s' p d (b ++ l)).
  { intros q j k pr l' Hj Hk -> A3 A4. assert (X : exists i', find p (update q k (infos s)) = Some i' /\ i_wd i' = i_wd i).
    { rewrite find_update. destruct (Nat.eqb_spec p q) as [->|]; [|eauto]. rewrite Hj. exists k. split; [reflexivity|]. rewrite E1 in Hj. injection Hj as <-. assumption. }
    destruct X as (i' & X1 & X2). exists i'. rewrite X2. cbn [infos watches]. split; [assumption|]. split; [assumption|].
    rewrite changes_app, handled_app, A3, A4, !app_nil_r. exact E3. }
  destruct HS; cbn [hist] in HL, NOW, HN; try (apply app_inv_head in HL; subst l); try (assert (l = []) as -> by (apply (app_inv_head (hist s)); now rewrite app_nil_r)).
  - (* refused *) now apply KEEP.
  - (* joined *) eapply (UPDATED p0 i0); [eassumption|apply store_wd|reflexivity|reflexivity|reflexivity].
  - (* created *)
    destruct (fresh_watch s p0 t h d0 w ws nw HK H0 H2 HN) as (F & -> & -> & ->).
    assert (p0 <> p) by congruence. assert (d0 <> d).
    { intros ->. apply H3. apply (HN p0 p t t0 h h0 d); apply in_snoc; [now right|left]. rewrite HB. apply in_or_app. now left. }
    exists i. cbn [infos watches find find_watch]. destruct (Nat.eqb_spec p0 p); [congruence|]. destruct (Nat.eqb_spec d0 d); [congruence|].
    split; [assumption|]. split; [assumption|]. rewrite changes_app, handled_app. cbn. now rewrite !app_nil_r.
  - (* remove path *)
    eapply (REMOVED p0); try reflexivity. intros ->. destruct NOW as (u & NOW). rewrite want_snoc in NOW. cbn in NOW. rewrite Nat.eqb_refl in NOW. congruence.
  - (* remove all *) destruct NOW as (u & NOW). rewrite want_snoc in NOW. now cbn in NOW.
  - (* nothing to remove *) now apply KEEP.
  - (* remove file *) eapply (UPDATED p0 i0 j); [eassumption|reflexivity|reflexivity|reflexivity|reflexivity].
  - (* prune *)
    eapply (REMOVED p0); try reflexivity. intros ->. destruct NOW as (u & NOW). rewrite want_snoc in NOW. cbn in NOW. apply NOW.
    apply (x_prune _ HX). rewrite H0. apply in_or_app. right. now left.
  - (* change *)
    destruct (Nat.eqb_spec d0 d) as [->|Hd].
    + rewrite E2 in H. injection H as <-. exists i. cbn [infos watches]. split; [assumption|]. split; [assumption|].
      erewrite waiting_snoc by reflexivity. rewrite Nat.eqb_refl, changes_app, handled_app. cbn [changes handled flat_map]. rewrite Nat.eqb_refl, !app_nil_r, app_assoc. now apply merges_keep.
    + apply KEEP; try reflexivity; [cbn; now destruct (Nat.eqb_spec d0 d)|]. erewrite waiting_snoc by reflexivity. destruct (Nat.eqb_spec w (i_wd i)) as [Ew|_]; [|now rewrite app_nil_r].
      exfalso. apply Hd. apply find_watch_in in H. now apply (OTHER d0 w).
  - (* merged *)
    destruct (Nat.eqb_spec d0 d) as [->|Hd].
    + rewrite E2 in H. injection H as <-. exists i. cbn [infos watches]. split; [assumption|]. split; [assumption|].
      rewrite changes_app, handled_app. cbn [changes handled flat_map]. rewrite Nat.eqb_refl, !app_nil_r.
      assert (W : exists k, handled p b ++ waiting s (i_wd i) = k ++ [(mask_of c f, n)]).
      { unfold waiting. rewrite H0, app_assoc, flat_map_app. cbn. rewrite Nat.eqb_refl. cbn. rewrite app_assoc. now eexists. }
      destruct W as (k & W). destruct (merges_last _ _ E3 _ _ W) as (l' & EL). rewrite EL in E3 |- *. now apply merges_drop.
    + apply KEEP; try reflexivity. cbn. now destruct (Nat.eqb_spec d0 d).
  - (* unwatched *)
    apply KEEP; try reflexivity. cbn. destruct (Nat.eqb_spec d0 d); [congruence|reflexivity].
  - (* overflow *) exfalso. apply HO. apply in_or_app. right. right. now left.
  - (* resolve *) now apply KEEP.
  - (* directory gone *)
    assert (d0 <> d) by (intros ->; apply HG; apply in_or_app; right; now left).
    exists i. cbn [infos watches]. split; [assumption|]. split.
    + apply find_watch_unique; [apply filter_nodup, HK|]. apply filter_In. split; [assumption|]. cbn. destruct (Nat.eqb_spec d d0); [congruence|reflexivity].
    + rewrite changes_app, handled_app. cbn. now rewrite !app_nil_r.
  - (* poll *) now apply KEEP.
  - (* read *) apply KEEP; try reflexivity. unfold waiting. cbn [batch queue]. now rewrite firstn_skipn, H0.
  - (* read none *) apply KEEP; try reflexivity. unfold waiting. cbn [batch queue]. now rewrite H0.
  - (* handle *)
    exists i. cbn [infos watches]. split; [assumption|]. split; [assumption|]. rewrite changes_app, handled_app. cbn [changes flat_map app]. rewrite app_nil_r.
    assert (W : waiting s (i_wd i) = (if w =? i_wd i then [(m, n)] else []) ++ flat_map (fun x => let '(v, m, n) := x in if v =? i_wd i then [(m, n)] else []) (r ++ queue s)).
    { unfold waiting. now rewrite H0. }
    unfold waiting at 1. cbn [batch queue]. cbn. destruct (Nat.eqb_spec p0 p) as [->|Hp].
    + assert (i0 = i) as -> by (pose proof (find_unique _ _ _ (y_nodup _ HY) H1) as X; congruence). rewrite W, <- H2, Nat.eqb_refl in E3. cbn in E3.
      rewrite <- app_assoc. cbn. exact E3.
    + assert (w <> i_wd i). { intros X. apply Hp. apply (k_unique _ HK p0 i0 p i); congruence. }
      rewrite W in E3. destruct (Nat.eqb_spec w (i_wd i)); [congruence|]. rewrite app_nil_r. exact E3.
  - (* drop *)
    apply KEEP; try reflexivity. unfold waiting. rewrite H0. cbn. destruct (Nat.eqb_spec w (i_wd i)) as [X|_]; [|reflexivity]. exfalso. now apply (H1 p i).
  - (* return *) now apply KEEP.
  - (* reentry *) now apply KEEP.
Qed.

Lemma entry_reaches s : reaches s -> forall a p t h d b,
  hist s = a ++ EAdd p t h (Created d) :: b -> no_race (hist s) -> no_alias (hist s) -> ~ In EOverflow b -> ~ In (EDirectoryGone d) b ->
  stays_wanted (a ++ [EAdd p t h (Created d)]) p b -> entry s p d b.
Proof.
  induction 1 as [r|s s' HR IH HS]; intros a p t h d b HH HN HA HO HG HW; [now destruct a|].
  destruct (hist_step s s' HS) as (l & HL).
  assert (HN0 : no_race (hist s)) by (rewrite HL in HN; now apply no_race_before in HN).
  assert (HA0 : no_alias (hist s)) by (rewrite HL in HA; now apply no_alias_before in HA).
  pose proof (wk_reaches s HR HA0) as HK. pose proof (keys_reaches s HR) as HY. pose proof (exact_reaches s HR HN0) as HX.
  (* is the entry created by this step? *)
  assert (C : (exists b', b = b' ++ l /\ hist s = a ++ EAdd p t h (Created d) :: b') \/ (b = [] /\ l = [EAdd p t h (Created d)] /\ hist s = a)).
  { rewrite HL in HH. assert (SPLIT : forall (x y : list event), hist s ++ x = y -> x = l -> y = a ++ EAdd p t h (Created d) :: b ->
        length a < length (hist s) -> exists b', b = b' ++ l /\ hist s = a ++ EAdd p t h (Created d) :: b').
    { intros x y <- -> E HLen. clear - E HLen. revert a E HLen. induction (hist s) as [|e hs IHh]; intros a E HLen; cbn in *; [lia|].
      destruct a as [|e' a]; cbn in *; [injection E as -> <-; now eexists|]. injection E as -> E. destruct (IHh a E ltac:(lia)) as (b' & -> & EH). exists b'. split; [reflexivity|]. now rewrite EH. }
    destruct (Nat.lt_ge_cases (length a) (length (hist s))) as [X|X]; [left; now apply (SPLIT l _ eq_refl eq_refl)|right].
    assert (Y : length (hist s) + length l = length a + S (length b)) by (pose proof (f_equal (@length _) HH) as Y; rewrite !app_length in Y; exact Y).
    destruct HS; cbn [hist] in HL; try (apply app_inv_head in HL; subst l); try (assert (l = []) as -> by (apply (app_inv_head (hist s)); now rewrite app_nil_r));
      cbn [length] in Y; try lia;
      try (assert (b = []) as -> by (destruct b; [reflexivity|cbn [length] in Y; lia]); apply app_inj_tail in HH; destruct HH as (-> & EE); rewrite EE; auto).
    (* overflow *)
    destruct b as [|x [|y b]]; cbn [length] in Y; try lia.
    - exfalso. change (hist s ++ [EChange d0 c f n; EOverflow]) with (hist s ++ [EChange d0 c f n] ++ [EOverflow]) in HH. rewrite app_assoc in HH. apply app_inj_tail in HH. destruct HH; discriminate.
    - exfalso. assert (E : [EChange d0 c f n; EOverflow] = [EAdd p t h (Created d); x]). { assert (length (hist s) = length a) by lia. clear - HH H. revert a HH H. induction (hist s) as [|e hs IHh]; intros [|e' a] HH H; cbn in *; try discriminate; try assumption. injection HH as _ HH. injection H as H. now apply (IHh a). }
      discriminate. }
  destruct C as [(b' & -> & HB)|(-> & -> & HB)].
  - eapply (entry_step s s' p d b' (a ++ [EAdd p t h (Created d)]) l); try eassumption.
    + rewrite HB. now rewrite <- app_assoc.
    + exists t, h. apply in_snoc. now right.
    + apply (IH a p t h d b' HB HN0 HA0); [intros K; apply HO; apply in_or_app; now left|intros K; apply HG; apply in_or_app; now left|].
      intros b1 b2 E. apply (HW b1 (b2 ++ l)). now rewrite E, <- app_assoc.
  - destruct HS; cbn [hist] in HL; try (exfalso; apply (f_equal (@length _)) in HL; rewrite !app_length in HL; cbn in HL; lia); apply app_inv_head in HL; try discriminate.
    injection HL as -> -> -> ->. cbn [hist] in HA. destruct (fresh_watch s p t h d w ws nw HK H0 H2 HA) as (F & -> & -> & ->).
    exists (store (Info (next_wd s) None []) t h). cbn [infos watches find find_watch]. rewrite !Nat.eqb_refl, store_wd. cbn [i_wd]. split; [reflexivity|]. split; [reflexivity|].
    cbn. unfold waiting. cbn [batch queue]. assert (N : flat_map (fun x : nat * Z * name => let '(v, m, n) := x in if v =? next_wd s then [(m, n)] else []) (batch s ++ queue s) = []).
    { pose proof (k_events _ HK) as KE. induction (batch s ++ queue s) as [|[[v m] n] q IHq]; [reflexivity|]. cbn. destruct (Nat.eqb_spec v (next_wd s)) as [->|]; [exfalso; specialize (KE (next_wd s) m n (or_introl eq_refl)); lia|].
      cbn. apply IHq. intros; eapply KE; right; eassumption. }
    rewrite N. constructor.
Qed.
