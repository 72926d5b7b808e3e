(** Proofs for C38. *)
From Verif Require Import Common Service_Model Service_Spec.
Open Scope nat_scope.

(** ** What the log says about the pending requests *)
Definition same_dir (d d' : direction) : bool := match d, d' with Write, Write | Read, Read => true | _, _ => false end.
Lemma same_dir_spec d d' : reflect (d = d') (same_dir d d').
Proof. destruct d, d'; constructor; congruence. Qed.
Definition survives (d : direction) (e : event) (q : request) : bool :=
  match e with
  | ENotify d' i _ | EDrop d' i _ => negb (same_dir d d' && (i =? id_of q))
  | ERemove h => negb (h =? handle_of q)%Z
  | _ => true
  end.
Definition adds (d : direction) (e : event) : list request := match e with ERegister d' i h k => if same_dir d d' then [Request h i k] else [] | _ => [] end.
Definition replay (d : direction) (p : list request) (l : list event) : list request := fold_left (fun p e => filter (survives d e) p ++ adds d e) l p.
Definition pend (d : direction) (l : list event) : list request := replay d [] l.

Lemma filter_and {A} (f g : A -> bool) l : filter f (filter g l) = filter (fun x => g x && f x) l.
Proof. induction l as [|x r IH]; [reflexivity|]. cbn [filter]. destruct (g x) eqn:G; cbn [filter andb]; [rewrite IH; reflexivity|assumption]. Qed.
Lemma filter_app' {A} (f : A -> bool) l1 l2 : filter f (l1 ++ l2) = filter f l1 ++ filter f l2.
Proof. induction l1 as [|x r IH]; [reflexivity|]. cbn [app filter]. rewrite IH. now destruct (f x). Qed.
Lemma filter_all {A} (f : A -> bool) l : (forall x, In x l -> f x = true) -> filter f l = l.
Proof. induction l as [|x r IH]; intros H; [reflexivity|]. cbn [filter]. rewrite (H x) by now left. f_equal. apply IH. intros y Hy. apply H. now right. Qed.
Lemma replay_app d p l1 l2 : replay d p (l1 ++ l2) = replay d (replay d p l1) l2.
Proof. apply fold_left_app. Qed.
Definition survives_all (d : direction) (l : list event) (q : request) : bool := forallb (fun e => survives d e q) l.
Lemma replay_split d p l : replay d p l = filter (survives_all d l) p ++ replay d [] l.
Proof.
  revert p. induction l as [|e l IH]; intros p.
  - cbn [replay fold_left]. rewrite app_nil_r. symmetry. now apply filter_all.
  - cbn [replay fold_left]. change (fold_left _ l ?x) with (replay d x l). rewrite IH. rewrite (IH (filter (survives d e) [] ++ adds d e)). cbn [filter app].
    rewrite filter_app', filter_and, <- app_assoc. reflexivity.
Qed.
Lemma pend_app d l1 l2 : pend d (l1 ++ l2) = filter (survives_all d l2) (pend d l1) ++ pend d l2.
Proof. unfold pend. rewrite replay_app. apply replay_split. Qed.
Lemma pend_snoc d l e : pend d (l ++ [e]) = filter (survives d e) (pend d l) ++ adds d e.
Proof. unfold pend. rewrite replay_app. reflexivity. Qed.
Lemma pend_cons d e l : pend d (e :: l) = filter (survives_all d l) (adds d e) ++ pend d l.
Proof. change (e :: l) with ([e] ++ l). rewrite pend_app. reflexivity. Qed.
Lemma survives_all_spec d l q : survives_all d l q = true <-> (forall e, In e l -> survives d e q = true).
Proof. apply forallb_forall. Qed.
Lemma pend_in d l q : In q (pend d l) -> exists a b, l = a ++ ERegister d (id_of q) (handle_of q) (socket_of q) :: b /\ survives_all d b q = true.
Proof.
  induction l as [|e l IH]; [easy|]. rewrite pend_cons. intros H. apply in_app_or in H as [H|H].
  - apply filter_In in H as (H & HS). destruct e; cbn [adds] in H; try easy. destruct (same_dir_spec d d0) as [<-|]; [|easy]. destruct H as [<-|[]]. exists [], l. auto.
  - destruct (IH H) as (a & b & -> & HS). exists (e :: a), b. auto.
Qed.
Lemma in_pend d l a b q : l = a ++ ERegister d (id_of q) (handle_of q) (socket_of q) :: b -> survives_all d b q = true -> In q (pend d l).
Proof.
  intros -> HS. rewrite pend_app, pend_cons. apply in_or_app. right. apply in_or_app. left. apply filter_In. split; [|assumption].
  cbn [adds]. destruct (same_dir_spec d d); [|congruence]. left. now destruct q.
Qed.

(** Numbers of registered requests. *)
Definition reg_ids (l : list event) : list nat := flat_map (fun e => match e with ERegister _ i _ _ => [i] | _ => [] end) l.
Lemma reg_in l d i h k : In (ERegister d i h k) l -> In i (reg_ids l).
Proof. intros H. apply in_flat_map. exists (ERegister d i h k). split; [assumption|now left]. Qed.
Lemma reg_app l1 l2 : reg_ids (l1 ++ l2) = reg_ids l1 ++ reg_ids l2.
Proof. apply flat_map_app. Qed.
Lemma nodup_app {A} (l1 l2 : list A) : NoDup (l1 ++ l2) -> NoDup l1 /\ NoDup l2 /\ forall x, In x l1 -> ~ In x l2.
Proof.
  induction l1 as [|x l1 IH]; cbn [app]; intros H; [repeat split; [constructor|assumption|easy]|]. inversion H as [|? ? H1 H2]; subst. destruct (IH H2) as (I1 & I2 & I3).
  split; [constructor; [|assumption]; intros HI; apply H1, in_or_app; now left|]. split; [assumption|]. intros y [<-|HY] HY2; [apply H1, in_or_app; now right|eapply I3; eassumption].
Qed.
Lemma pend_ids_incl d l q : In q (pend d l) -> In (id_of q) (reg_ids l).
Proof. intros H. apply pend_in in H as (a & b & -> & _). rewrite reg_app. apply in_or_app. right. now left. Qed.
Lemma nodup_filter_map {A B} (g : A -> B) (f : A -> bool) l : NoDup (map g l) -> NoDup (map g (filter f l)).
Proof.
  induction l as [|x l IH]; cbn [map filter]; intros H; [constructor|]. inversion H as [|? ? H1 H2]; subst. destruct (f x); [|auto]. cbn [map]. constructor; [|auto].
  intros HI. apply H1. apply in_map_iff in HI as (y & E & HY). apply filter_In in HY as (HY & _). rewrite <- E. now apply in_map.
Qed.
Lemma pend_nodup d l : NoDup (reg_ids l) -> NoDup (map id_of (pend d l)).
Proof.
  induction l as [|e l IH] using rev_ind; intros H; [constructor|]. rewrite reg_app in H. apply nodup_app in H as (H1 & _ & H3). rewrite pend_snoc, map_app.
  pose proof (nodup_filter_map id_of (survives d e) _ (IH H1)) as HF. destruct e; cbn [adds map]; rewrite ?app_nil_r; try assumption.
  destruct (same_dir_spec d d0) as [<-|]; cbn [map]; rewrite ?app_nil_r; [|assumption]. apply NoDup_rev in HF. rewrite <- (rev_involutive (_ ++ _)). apply NoDup_rev. rewrite rev_app_distr. cbn [rev app].
  constructor; [|assumption]. rewrite <- in_rev. intros HI. apply in_map_iff in HI as (q & E & HQ). apply filter_In in HQ as (HQ & _). apply pend_ids_incl in HQ. apply (H3 (id_of q)); [assumption|]. rewrite E. now left.
Qed.
(** A request is determined by its number. *)
Lemma reg_unique l d i h k d' h' k' : NoDup (reg_ids l) -> In (ERegister d i h k) l -> In (ERegister d' i h' k') l -> d = d' /\ h = h' /\ k = k'.
Proof.
  induction l as [|e l IH]; [easy|]. intros HN [->|H1] [H2|H2].
  - injection H2 as <- <- <-. auto.
  - cbn in HN. inversion HN as [|? ? N1 _]; subst. elim N1. eapply reg_in; eassumption.
  - rewrite H2 in HN. cbn in HN. inversion HN as [|? ? N1 _]; subst. elim N1. eapply reg_in; eassumption.
  - change (e :: l) with ([e] ++ l) in HN. rewrite reg_app in HN. apply nodup_app in HN as (_ & HN & _). auto.
Qed.

(** ** Sets of handles and std::find_if *)
Lemma set_insert_in h l x : In x (set_insert h l) <-> x = h \/ In x l.
Proof.
  induction l as [|y l IH]; cbn [set_insert In]; [intuition|]. destruct (h <? y)%Z; [cbn [In]; intuition|]. destruct (Z.eqb_spec h y) as [->|N]; [cbn [In]; intuition|]. cbn [In]. rewrite IH. intuition.
Qed.
Inductive ascending : list Z -> Prop :=
| asc_nil : ascending []
| asc_cons x l : (forall y, In y l -> (x < y)%Z) -> ascending l -> ascending (x :: l).
Lemma set_insert_asc h l : ascending l -> ascending (set_insert h l).
Proof.
  induction 1 as [|x l H HA IH]; cbn [set_insert]; [constructor; [easy|constructor]|]. destruct (Z.ltb_spec h x) as [L|L]; [|destruct (Z.eqb_spec h x) as [->|N]].
  - constructor; [|now constructor]. intros y [<-|HY]; [assumption|]. specialize (H y HY). lia.
  - now constructor.
  - constructor; [|assumption]. intros y HY. apply set_insert_in in HY as [->|HY]; [lia|auto].
Qed.
Lemma asc_nodup l : ascending l -> NoDup l.
Proof. induction 1 as [|x l H HA IH]; constructor; [|assumption]. intros HI. specialize (H x HI). lia. Qed.
Lemma asc_filter f l : ascending l -> ascending (filter f l).
Proof. induction 1 as [|x l H HA IH]; cbn [filter]; [constructor|]. destruct (f x); [|assumption]. constructor; [|assumption]. intros y HY. apply filter_In in HY as (HY & _). auto. Qed.
Lemma handles_gen l : forall s, ascending s -> ascending (fold_left (fun s q => set_insert (handle_of q) s) l s) /\
  forall x, In x (fold_left (fun s q => set_insert (handle_of q) s) l s) <-> In x s \/ exists q, In q l /\ handle_of q = x.
Proof.
  induction l as [|q l IH]; intros s HA; cbn [fold_left]; [split; [assumption|]; intros x; split; [auto|intros [?|(q & [] & _)]; assumption]|].
  destruct (IH _ (set_insert_asc (handle_of q) s HA)) as (I1 & I2). split; [assumption|]. intros x. rewrite I2, set_insert_in. split.
  - intros [[->|H]|(q' & H & E)]; [right; exists q; split; [now left|reflexivity]|now left|right; exists q'; split; [now right|assumption]].
  - intros [H|(q' & [->|H] & E)]; [auto|left; left; congruence|right; eauto].
Qed.
Lemma handles_in l x : In x (handles l) <-> exists q, In q l /\ handle_of q = x.
Proof. unfold handles. destruct (handles_gen l [] asc_nil) as (_ & H). rewrite H. cbn [In]. intuition. Qed.
Lemma handles_asc l : ascending (handles l).
Proof. apply handles_gen. constructor. Qed.
Lemma take_first_some h l q r : take_first h l = Some (q, r) -> exists u v, l = u ++ q :: v /\ r = u ++ v /\ handle_of q = h /\ forall x, In x u -> handle_of x <> h.
Proof.
  revert q r. induction l as [|x l IH]; cbn [take_first]; intros q r H; [discriminate|]. destruct (Z.eqb_spec h (handle_of x)) as [E|N].
  - injection H as <- <-. exists [], l. split; [reflexivity|]. split; [reflexivity|]. split; [congruence|easy].
  - destruct (take_first h l) as [(y & r')|] eqn:T; [|discriminate]. injection H as <- <-. destruct (IH _ _ eq_refl) as (u & v & -> & -> & E & HU).
    exists (x :: u), v. split; [reflexivity|]. split; [reflexivity|]. split; [assumption|]. intros z [<-|HZ]; [congruence|auto].
Qed.
Lemma take_first_none h l : take_first h l = None -> forall q, In q l -> handle_of q <> h.
Proof.
  induction l as [|x l IH]; cbn [take_first]; intros H q; [easy|]. destruct (Z.eqb_spec h (handle_of x)) as [E|N]; [discriminate|].
  destruct (take_first h l) as [(y & r')|]; [discriminate|]. intros [<-|HQ]; [congruence|now apply IH].
Qed.
Lemma is_set_in l h : is_set l h = true <-> In h l.
Proof. unfold is_set. rewrite existsb_exists. split; [intros (x & H & E); apply Z.eqb_eq in E; now subst|intros H; exists h; split; [assumption|apply Z.eqb_refl]]. Qed.
(** Removing the element with a given number. *)
Lemma remove_id u q v : NoDup (map id_of (u ++ q :: v)) -> filter (fun x => negb (id_of q =? id_of x)) (u ++ q :: v) = u ++ v.
Proof.
  intros H. rewrite map_app in H. cbn [map] in H. pose proof (NoDup_remove_2 _ _ _ H) as HN. rewrite filter_app'. cbn [filter]. rewrite Nat.eqb_refl. cbn [negb].
  rewrite !filter_all; [reflexivity| |]; intros x HX; apply negb_true_iff, Nat.eqb_neq; intros E; apply HN; rewrite E; apply in_or_app; [right|left]; now apply in_map.
Qed.

(** ** Well-formed logs *)
Definition inner (e : event) : Prop := match e with ENotify _ _ _ | EDrop _ _ _ | EGone _ => True | _ => False end.
(** [h] may be served now for direction [d]: the last select reported it, and it was not served since. *)
Definition open_for (d : direction) (l : list event) (h : Z) : Prop :=
  exists a W R b, l = a ++ ESelect W R :: b /\ Forall inner b /\ In h (side d W R) /\ forall j e, In e b -> ~ served d j h e.
Inductive wf_log : list event -> Prop :=
| wf_nil : wf_log []
| wf_register l d i h k : wf_log l -> ~ In i (reg_ids l) -> wf_log (l ++ [ERegister d i h k])
| wf_gone l k : wf_log l -> wf_log (l ++ [EGone k])
| wf_select l W R : wf_log l -> wf_log (l ++ [ESelect W R])
| wf_remove l h : wf_log l -> wf_log (l ++ [ERemove h])
| wf_notify l d u q v : wf_log l -> pend d l = u ++ q :: v -> (forall x, In x u -> handle_of x <> handle_of q) -> open_for d l (handle_of q) -> ~ In (EGone (socket_of q)) l ->
    wf_log (l ++ [ENotify d (id_of q) (handle_of q)])
| wf_drop l d u q v : wf_log l -> pend d l = u ++ q :: v -> (forall x, In x u -> handle_of x <> handle_of q) -> open_for d l (handle_of q) -> In (EGone (socket_of q)) l ->
    wf_log (l ++ [EDrop d (id_of q) (handle_of q)]).
Lemma wf_nodup l : wf_log l -> NoDup (reg_ids l).
Proof.
  induction 1; rewrite ?reg_app; cbn [reg_ids flat_map app]; rewrite ?app_nil_r; try assumption; [constructor|].
  rewrite <- (rev_involutive (_ ++ _)). apply NoDup_rev. rewrite rev_app_distr. cbn [rev app]. constructor; [now rewrite <- in_rev|now apply NoDup_rev].
Qed.

(** ** The invariant *)
Definition queue_ids (l : list task) : list nat := flat_map (fun t => match t with TNotify _ q => [id_of q] | _ => [] end) l.
Definition reqs (s : state) (d : direction) : list request := side d (writes s) (reads s).
(** Every handle reported by the last select that had a request then has been served since, or is in [todo]. *)
Definition served_or (d : direction) (l : list event) (todo : list Z) : Prop :=
  forall a W R b h q, l = a ++ ESelect W R :: b -> Forall not_select b -> In h (side d W R) -> In q (pend d a) -> handle_of q = h ->
    In h todo \/ exists j e, In e b /\ served d j h e.
Record inv (s : state) : Prop := {
  i_wf : wf_log (log s);
  i_pend : forall d, reqs s d = pend d (log s);
  i_ids : NoDup (reg_ids (log s) ++ queue_ids (queue s)) /\ forall i, In i (reg_ids (log s) ++ queue_ids (queue s)) -> i < next_id s;
  i_gone : forall k, In k (gone s) <-> In (EGone k) (log s);
  i_firing : forall ws rs, doing s = Firing ws rs -> exists a W R b, log s = a ++ ESelect W R :: b /\ Forall inner b /\
    forall d, NoDup (side d ws rs) /\ forall h, In h (side d ws rs) -> In h (side d W R) /\ (exists q, In q (reqs s d) /\ handle_of q = h) /\ forall j e, In e b -> ~ served d j h e;
  i_served : forall d, match doing s with Idle | Polling => served_or d (log s) [] | Firing ws rs => served_or d (log s) (side d ws rs) | Undefined => True end;
  i_poll : service_alive s = true -> nil_reqs s = false -> doing s <> Idle \/ In TPoll (queue s);
  i_def : doing s = Undefined -> exists d i h k, In (ERegister d i h k) (log s) /\ fd_ok h = false;
  i_live : doing s <> Idle -> service_alive s = true }.

Lemma served_or_snoc d l todo todo' e : served_or d l todo -> not_select e -> (forall h, In h todo -> In h todo' \/ exists j, served d j h e) -> served_or d (l ++ [e]) todo'.
Proof.
  intros H HE HT a W R b h q E HB HI HP EQ. destruct b as [|x b] using rev_ind.
  - change (a ++ [ESelect W R]) with (a ++ [ESelect W R]) in E. apply app_inj_tail in E as (_ & ->). easy.
  - clear IHb. change (a ++ ESelect W R :: b ++ [x]) with (a ++ (ESelect W R :: b) ++ [x]) in E. rewrite app_assoc in E. apply app_inj_tail in E as (E & <-).
    apply Forall_app in HB as (HB & _). destruct (H a W R b h q E HB HI HP EQ) as [HT1|(j & y & HY & HS)].
    + destruct (HT h HT1) as [?|(j & HS)]; [now left|right]. exists j, e. split; [apply in_or_app; right; now left|assumption].
    + right. exists j, y. split; [apply in_or_app; now left|assumption].
Qed.
Lemma last_select_unique a W R b a' W' R' b' : a ++ ESelect W R :: b = a' ++ ESelect W' R' :: b' -> Forall not_select b -> Forall not_select b' -> a = a' /\ W = W' /\ R = R' /\ b = b'.
Proof.
  revert a'. induction a as [|x a IH]; intros a' E HB HB'.
  - destruct a' as [|x' a']; cbn [app] in E; [injection E as <- <- <-; auto|]. injection E as <- ->. apply Forall_app in HB as (_ & HB). inversion HB as [|? ? N _]. elim N.
  - destruct a' as [|x' a']; cbn [app] in E; [injection E as -> <-; apply Forall_app in HB' as (_ & HB'); inversion HB' as [|? ? N _]; elim N|].
    injection E as <- E. destruct (IH a' E HB HB') as (-> & -> & -> & ->). auto.
Qed.
Lemma inner_not_select b : Forall inner b -> Forall not_select b.
Proof. apply Forall_impl. intros []; cbn; auto. Qed.

Lemma pend_skip d l e : (forall q, survives d e q = true) -> adds d e = [] -> pend d (l ++ [e]) = pend d l.
Proof. intros H1 H2. rewrite pend_snoc, H2, app_nil_r. apply filter_all. auto. Qed.
Lemma queue_ids_app a b : queue_ids (a ++ b) = queue_ids a ++ queue_ids b.
Proof. apply flat_map_app. Qed.
Lemma in_snoc {A} (x y : A) l : In x (l ++ [y]) <-> In x l \/ x = y.
Proof. rewrite in_app_iff. cbn [In]. intuition. Qed.
Lemma nodup_snoc {A} (x : A) l : NoDup l -> ~ In x l -> NoDup (l ++ [x]).
Proof. intros H1 H2. rewrite <- (rev_involutive (_ ++ _)). apply NoDup_rev. rewrite rev_app_distr. cbn [rev app]. constructor; [now rewrite <- in_rev|now apply NoDup_rev]. Qed.

Ltac fields := cbn [queue writes reads doing gone service_alive next_id log] in *.
(** Appending an event that neither adds nor removes requests, and no select. *)
Lemma served_skip d l todo e : served_or d l todo -> not_select e -> served_or d (l ++ [e]) todo.
Proof. intros H HE. eapply served_or_snoc; eauto. Qed.

Lemma inv_notify s d h k : inv s -> service_alive s = true -> inv (State (queue s ++ [TNotify d (Request h (next_id s) k)]) (writes s) (reads s) (doing s) (gone s) (service_alive s) (S (next_id s)) (log s)).
Proof.
  intros [WF PE (ID1 & ID2) GO FI SE PO DE LI] HA. constructor; unfold reqs, nil_reqs in *; fields; auto.
  - rewrite queue_ids_app, app_assoc. cbn [queue_ids flat_map app id_of]. split.
    + apply nodup_snoc; [assumption|]. intros HI. specialize (ID2 _ HI). lia.
    + intros i HI. apply in_snoc in HI as [HI| ->]; [specialize (ID2 _ HI); lia|lia].
  - intros H1 H2. destruct (PO H1 H2); [now left|right; apply in_or_app; now left].
Qed.
Lemma inv_post s t : inv s -> (match t with TNotify _ _ => False | _ => True end) -> forall dg, dg = doing s \/ (dg = Idle /\ doing s = Firing [] [] /\ t = TPoll) ->
  inv (State (queue s ++ [t]) (writes s) (reads s) dg (gone s) (service_alive s) (next_id s) (log s)).
Proof.
  intros [WF PE (ID1 & ID2) GO FI SE PO DE LI] HT dg HD. constructor; unfold reqs, nil_reqs in *; fields; auto.
  - rewrite queue_ids_app. destruct t; [easy| |]; cbn [queue_ids flat_map app]; rewrite app_nil_r; auto.
  - destruct HD as [->|(-> & _)]; [assumption|discriminate].
  - intros d. specialize (SE d). destruct HD as [->|(-> & HD & _)]; [assumption|]. rewrite HD in SE. now destruct d.
  - intros H1 H2. destruct HD as [->|(-> & HD & ->)]; [destruct (PO H1 H2); [now left|right; apply in_or_app; now left]|]. right. apply in_or_app. right. now left.
  - destruct HD as [->|(-> & _)]; [assumption|discriminate].
  - destruct HD as [->|(-> & HD & ->)]; [assumption|easy].
Qed.
Lemma inv_socket_gone s k : inv s -> inv (State (queue s) (writes s) (reads s) (doing s) (k :: gone s) (service_alive s) (next_id s) (log s ++ [EGone k])).
Proof.
  intros [WF PE (ID1 & ID2) GO FI SE PO DE LI]. constructor; unfold reqs, nil_reqs in *; fields; auto.
  - now constructor.
  - intros d. rewrite pend_skip by reflexivity. apply PE.
  - rewrite reg_app, app_nil_r. auto.
  - intros k'. cbn [In]. rewrite in_snoc, GO. split; [intros [->|?]; auto|]. intros [?|E]; [auto|injection E as ->; auto].
  - intros ws rs HF. destruct (FI ws rs HF) as (a & W & R & b & E & HB & HD). exists a, W, R, (b ++ [EGone k]). split; [rewrite E, <- app_assoc; reflexivity|].
    split; [apply Forall_app; split; [assumption|repeat constructor]|]. intros d. destruct (HD d) as (D1 & D2). split; [assumption|]. intros h HI. destruct (D2 h HI) as (D3 & D4 & D5).
    split; [assumption|]. split; [assumption|]. intros j e HE. apply in_snoc in HE as [HE| ->]; [auto|intros [E'|E']; discriminate E'].
  - intros d. specialize (SE d). destruct (doing s); auto; apply served_skip; auto; exact I.
  - intros H. destruct (DE H) as (d & i & h & k' & HI & HF). exists d, i, h, k'. split; [apply in_or_app; now left|assumption].
Qed.
Lemma inv_skip s t r : inv s -> doing s = Idle -> queue s = t :: r -> service_alive s = false -> inv (State r (writes s) (reads s) Idle (gone s) (service_alive s) (next_id s) (log s)).
Proof.
  intros [WF PE (ID1 & ID2) GO FI SE PO DE LI] HD HQ HA. rewrite HD in *. constructor; unfold reqs, nil_reqs in *; fields; auto.
  - rewrite HQ in *. change (t :: r) with ([t] ++ r) in *. rewrite queue_ids_app in *. split.
    + apply nodup_app in ID1 as (N1 & N2 & N3). apply nodup_app in N2 as (_ & N2 & _). clear - N1 N2 N3. induction (reg_ids (log s)) as [|x l IH]; [assumption|]. inversion N1; subst. cbn [app]. constructor.
      * intros HI. apply in_app_or in HI as [HI|HI]; [contradiction|]. apply (N3 x); [now left|apply in_or_app; now right].
      * apply IH; [assumption|]. intros y HY. apply N3. now right.
    + intros i HI. apply ID2. apply in_app_or in HI as [HI|HI]; apply in_or_app; [now left|right; apply in_or_app; now right].
  - congruence.
Qed.
Lemma inv_run_notify s d q r : inv s -> doing s = Idle -> queue s = TNotify d q :: r -> service_alive s = true ->
  inv (State r (match d with Write => writes s ++ [q] | Read => writes s end) (match d with Write => reads s | Read => reads s ++ [q] end)
      (if nil_reqs s then Polling else Idle) (gone s) (service_alive s) (next_id s) (log s ++ [ERegister d (id_of q) (handle_of q) (socket_of q)])).
Proof.
  intros [WF PE (ID1 & ID2) GO FI SE PO DE LI] HD HQ HA. rewrite HD in *. constructor; unfold reqs, nil_reqs in *; fields; auto.
  - constructor; [assumption|]. rewrite HQ in ID1. apply nodup_app in ID1 as (_ & _ & N3). intros HI. apply (N3 _ HI). now left.
  - intros d'. rewrite pend_snoc, filter_all by reflexivity. rewrite <- PE. cbn [adds]. destruct d, d'; cbn [same_dir side]; rewrite ?app_nil_r; try reflexivity; now destruct q.
  - rewrite reg_app. cbn [reg_ids flat_map app]. rewrite HQ in *. cbn [queue_ids flat_map app] in *. change (flat_map _ r) with (queue_ids r) in *. rewrite <- app_assoc. cbn [app]. auto.
  - intros k. rewrite in_snoc, GO. split; [auto|]. intros [?|E]; [assumption|discriminate].
  - destruct (writes s), (reads s); discriminate.
  - intros d'. specialize (SE d'). destruct (writes s), (reads s); apply served_skip; auto; exact I.
  - intros _ _. destruct (writes s) eqn:E1, (reads s) eqn:E2; try (left; discriminate); right; (destruct (PO HA eq_refl) as [H|H]; [congruence|rewrite HQ in H; destruct H as [H|H]; [discriminate|assumption]]).
  - destruct (writes s), (reads s); discriminate.
Qed.
Lemma inv_run_remove s h r : inv s -> doing s = Idle -> queue s = TRemove h :: r -> service_alive s = true ->
  inv (State r (filter (fun q => negb (h =? handle_of q)%Z) (writes s)) (filter (fun q => negb (h =? handle_of q)%Z) (reads s))
      Idle (gone s) (service_alive s) (next_id s) (log s ++ [ERemove h])).
Proof.
  intros [WF PE (ID1 & ID2) GO FI SE PO DE LI] HD HQ HA. rewrite HD in *. constructor; unfold reqs, nil_reqs in *; fields; auto.
  - now constructor.
  - intros d. rewrite pend_snoc. cbn [adds]. rewrite app_nil_r, <- PE. destruct d; reflexivity.
  - rewrite reg_app, app_nil_r. rewrite HQ in *. auto.
  - intros k. rewrite in_snoc, GO. split; [auto|]. intros [?|E]; [assumption|discriminate].
  - discriminate.
  - intros d. apply served_skip; [apply SE|exact I].
  - intros _ H. destruct (writes s) as [|x l] eqn:E1, (reads s) as [|y m] eqn:E2; try (cbn [filter] in H; discriminate H);
    (destruct (PO HA eq_refl) as [N|N]; [congruence|right; rewrite HQ in N; destruct N as [N|N]; [discriminate|assumption]]).
  - discriminate.
Qed.
Lemma inv_run_poll s r : inv s -> doing s = Idle -> queue s = TPoll :: r -> service_alive s = true ->
  inv (State r (writes s) (reads s) Polling (gone s) (service_alive s) (next_id s) (log s)).
Proof.
  intros [WF PE (ID1 & ID2) GO FI SE PO DE LI] HD HQ HA. rewrite HD in *. constructor; unfold reqs, nil_reqs in *; fields; auto; try discriminate.
  - rewrite HQ in *. auto.
  - intros. left. discriminate.
Qed.
Lemma inv_select s status wset rset ws rs : inv s -> doing s = Polling -> select_model status wset rset (handles (writes s)) (handles (reads s)) = Some (ws, rs) ->
  inv (State (queue s) (writes s) (reads s) (Firing ws rs) (gone s) (service_alive s) (next_id s) (log s ++ [if (0 <? status)%Z then ESelect wset rset else ESelect [] []])).
Proof.
  intros [WF PE (ID1 & ID2) GO FI SE PO DE LI] HD HM. rewrite HD in *. assert (HA : service_alive s = true) by (apply LI; discriminate).
  assert (EX : exists W R, (if (0 <? status)%Z then ESelect wset rset else ESelect [] []) = ESelect W R /\ ws = filter (is_set W) (handles (writes s)) /\ rs = filter (is_set R) (handles (reads s))).
  { unfold select_model in HM. destruct (_ && _); [|discriminate]. destruct (0 <? status)%Z; injection HM as <- <-; [eauto|]. exists [], []. split; [reflexivity|]. clear. split; symmetry; match goal with |- filter _ ?l = [] => induction l; [reflexivity|assumption] end. }
  destruct EX as (W & R & -> & -> & ->). constructor; unfold reqs, nil_reqs in *; fields; auto; try discriminate.
  - now constructor.
  - intros d. rewrite pend_skip by reflexivity. apply PE.
  - rewrite reg_app, app_nil_r. auto.
  - intros k. rewrite in_snoc, GO. split; [auto|]. intros [?|E]; [assumption|discriminate].
  - intros ws rs E. injection E as <- <-. exists (log s), W, R, []. split; [reflexivity|]. split; [constructor|]. intros d.
    split; [destruct d; cbn [side]; apply asc_nodup, asc_filter, handles_asc|].
    intros h HI. assert (HI' : In h (filter (is_set (side d W R)) (handles (side d (writes s) (reads s))))) by (destruct d; exact HI).
    apply filter_In in HI' as (HI1 & HI2). apply is_set_in in HI2. apply handles_in in HI1. split; [assumption|]. split; [assumption|]. intros j e [].
  - intros d a W' R' b h q E HB HI HP EQ. assert (E' : a = log s /\ W = W' /\ R = R' /\ b = []).
    { change (log s ++ [ESelect W R]) with (log s ++ ESelect W R :: []) in E. destruct (last_select_unique _ _ _ _ _ _ _ _ E ltac:(constructor) HB) as (-> & -> & -> & <-). auto. }
    destruct E' as (-> & -> & -> & ->). left. rewrite <- PE in HP. assert (HG : In h (filter (is_set (side d W' R')) (handles (side d (writes s) (reads s))))).
    { apply filter_In. split; [apply handles_in; eauto|now apply is_set_in]. } destruct d; exact HG.
  - intros. left. discriminate.
Qed.
Lemma inv_undefined s : inv s -> (doing s = Polling \/ exists ws rs, doing s = Firing ws rs) -> (exists d i h k, In (ERegister d i h k) (log s) /\ fd_ok h = false) ->
  inv (State (queue s) (writes s) (reads s) Undefined (gone s) (service_alive s) (next_id s) (log s)).
Proof.
  intros [WF PE (ID1 & ID2) GO FI SE PO DE LI] HD HX. constructor; unfold reqs, nil_reqs in *; fields; auto; try discriminate.
  - intros. left. discriminate.
  - intros _. apply LI. destruct HD as [->|(? & ? & ->)]; discriminate.
Qed.
(** One callback is invoked or dropped. *)
Lemma inv_fire s d h ws rs ws' rs' q r : inv s -> doing s = Firing ws rs -> side d ws rs = h :: side d ws' rs' -> (forall d', d' <> d -> side d' ws rs = side d' ws' rs') ->
  take_first h (reqs s d) = Some (q, r) ->
  inv (State (queue s) (side d r (writes s)) (side d (reads s) r) (Firing ws' rs') (gone s) (service_alive s) (next_id s) (log s ++ [outcome s d q])).
Proof.
  intros [WF PE (ID1 & ID2) GO FI SE PO DE LI] HD H1 H2 HT. rewrite HD in *. destruct (FI _ _ eq_refl) as (a & W & R & b & EL & HB & HF).
  apply take_first_some in HT as (u & v & EU & -> & <- & HU). rewrite PE in EU. destruct (HF d) as (F1 & F2). rewrite H1 in F1, F2. destruct (F2 (handle_of q)) as (F3 & _ & F4); [now left|].
  assert (NI := pend_nodup d _ (wf_nodup _ WF)). rewrite EU in NI.
  assert (HO : forall x, survives d (outcome s d q) x = negb (id_of q =? id_of x)).
  { intros x. unfold outcome. destruct (gone_socket s (socket_of q)); cbn [survives]; now destruct d. }
  assert (HO' : forall d', d' <> d -> forall x, survives d' (outcome s d q) x = true).
  { intros d' N x. unfold outcome. destruct (gone_socket s (socket_of q)); cbn [survives]; destruct d, d'; try congruence; reflexivity. }
  assert (HA : forall d', adds d' (outcome s d q) = []). { intros d'. unfold outcome. now destruct (gone_socket s (socket_of q)). }
  assert (HN : inner (outcome s d q)). { unfold outcome. now destruct (gone_socket s (socket_of q)). }
  assert (HV : forall d' j h', served d' j h' (outcome s d q) -> d' = d /\ h' = handle_of q).
  { intros d' j h' HV. unfold outcome in HV. destruct (gone_socket s (socket_of q)); destruct HV as [E|E]; try discriminate E; injection E; auto. }
  assert (HV' : served d (id_of q) (handle_of q) (outcome s d q)). { unfold outcome. destruct (gone_socket s (socket_of q)); [now right|now left]. }
  assert (EP : forall d', side d' (side d (u ++ v) (writes s)) (side d (reads s) (u ++ v)) = pend d' (log s ++ [outcome s d q])).
  { intros d'. rewrite pend_snoc, HA, app_nil_r. destruct (same_dir_spec d' d) as [->|N].
    - rewrite (filter_ext _ _ HO), EU, remove_id by assumption. now destruct d.
    - rewrite filter_all by (intros; apply HO'; assumption). rewrite <- PE. unfold reqs. destruct d, d'; try congruence; reflexivity. }
  constructor; fields.
  - unfold outcome. unfold gone_socket. destruct (existsb (Nat.eqb (socket_of q)) (gone s)) eqn:EG.
    + eapply wf_drop; [assumption|eassumption|assumption| |].
      * exists a, W, R, b. auto.
      * apply existsb_exists in EG as (k & HK & E). apply Nat.eqb_eq in E as ->. now apply GO.
    + eapply wf_notify; [assumption|eassumption|assumption| |].
      * exists a, W, R, b. auto.
      * intros HI. apply GO in HI. assert (EG' : existsb (Nat.eqb (socket_of q)) (gone s) = true) by (apply existsb_exists; exists (socket_of q); split; [assumption|apply Nat.eqb_refl]). congruence.
  - exact EP.
  - rewrite reg_app. replace (reg_ids [outcome s d q]) with (@nil nat) by (unfold outcome; now destruct (gone_socket s (socket_of q))). rewrite app_nil_r. auto.
  - intros k. rewrite in_snoc, GO. split; [auto|]. intros [?|E]; [assumption|]. rewrite <- E in HN. unfold outcome in E. destruct (gone_socket s (socket_of q)); discriminate E.
  - intros ws0 rs0 E. injection E as <- <-. exists a, W, R, (b ++ [outcome s d q]). split; [rewrite EL, <- app_assoc; reflexivity|]. split; [apply Forall_app; split; [assumption|repeat constructor; assumption]|].
    intros d'. destruct (HF d') as (G1 & G2). destruct (same_dir_spec d' d) as [->|N].
    + rewrite H1 in G1, G2. inversion G1 as [|? ? G3 G4]; subst. split; [assumption|]. intros h' HI. destruct (G2 h') as (G5 & (q' & G6 & G6') & G7); [now right|]. split; [assumption|].
      assert (NH : handle_of q <> h') by (intros <-; contradiction). split.
      * exists q'. split; [|assumption]. unfold reqs. fields. rewrite EP, pend_snoc, HA, app_nil_r. apply filter_In. rewrite <- PE. split; [assumption|]. rewrite HO. apply negb_true_iff, Nat.eqb_neq. intros EI.
        assert (EQ : q = q'). { rewrite PE, EU in G6. clear - NI G6 EI. rewrite map_app in NI. cbn [map] in NI. apply NoDup_remove_2 in NI. rewrite in_app_iff in G6. cbn [In] in G6. destruct G6 as [G|[G|G]]; [|assumption|];
          elim NI; rewrite EI; apply in_or_app; [left|right]; now apply in_map. } congruence.
      * intros j e HE. apply in_snoc in HE as [HE| ->]; [auto|]. intros HS. apply HV in HS as (_ & ?). congruence.
    + rewrite (H2 d' N) in G1, G2. split; [assumption|]. intros h' HI. destruct (G2 h' HI) as (G5 & (q' & G6 & G6') & G7). split; [assumption|]. split.
      * exists q'. split; [|assumption]. unfold reqs. fields. rewrite EP, pend_snoc, HA, app_nil_r. apply filter_In. rewrite <- PE. split; [assumption|]. now apply HO'.
      * intros j e HE. apply in_snoc in HE as [HE| ->]; [auto|]. intros HS. apply HV in HS as (? & _). congruence.
  - intros d'. eapply served_or_snoc; [apply SE| |].
    + destruct (outcome s d q); easy.
    + intros h' HI. destruct (same_dir_spec d' d) as [->|N]; [rewrite H1 in HI; destruct HI as [<-|HI]; [right; eauto|now left]|left; rewrite <- (H2 d' N); assumption].
  - intros _ _. left. discriminate.
  - discriminate.
  - intros _. apply LI. discriminate.
Qed.
Lemma inv_poll_nothing s : inv s -> doing s = Firing [] [] -> nil_reqs s = true -> inv (State (queue s) (writes s) (reads s) Idle (gone s) (service_alive s) (next_id s) (log s)).
Proof.
  intros [WF PE (ID1 & ID2) GO FI SE PO DE LI] HD HN. rewrite HD in *. constructor; unfold reqs, nil_reqs in *; fields; auto; try discriminate.
  - intros d. specialize (SE d). now destruct d.
  - congruence.
Qed.
Lemma inv_service_gone s : inv s -> doing s = Idle -> inv (State (queue s) (writes s) (reads s) (doing s) (gone s) false (next_id s) (log s)).
Proof. intros [WF PE (ID1 & ID2) GO FI SE PO DE LI] HD. constructor; fields; auto; congruence. Qed.

Lemma not_fd_ok l : forallb fd_ok (handles l) = false -> exists q, In q l /\ fd_ok (handle_of q) = false.
Proof.
  intros H. assert (HE : exists h, In h (handles l) /\ fd_ok h = false).
  { induction (handles l) as [|h m IH]; [discriminate|]. cbn [forallb] in H. destruct (fd_ok h) eqn:E; [destruct (IH H) as (x & HX & EX); exists x; split; [now right|assumption]|exists h; split; [now left|assumption]]. }
  destruct HE as (h & HI & HF). apply handles_in in HI as (q & HQ & <-). eauto.
Qed.
Lemma select_undefined s status wset rset : inv s -> select_model status wset rset (handles (writes s)) (handles (reads s)) = None -> exists d i h k, In (ERegister d i h k) (log s) /\ fd_ok h = false.
Proof.
  intros HI HM. assert (HX : exists d q, In q (reqs s d) /\ fd_ok (handle_of q) = false).
  { unfold select_model in HM. destruct (forallb fd_ok (handles (writes s))) eqn:E1; [destruct (forallb fd_ok (handles (reads s))) eqn:E2|].
    - cbn [andb] in HM. destruct (0 <? status)%Z; discriminate HM.
    - exists Read. now apply not_fd_ok.
    - exists Write. now apply not_fd_ok. }
  destruct HX as (d & q & HQ & HF). rewrite (i_pend _ HI) in HQ. apply pend_in in HQ as (a & b & E & _). exists d, (id_of q), (handle_of q), (socket_of q). split; [rewrite E; apply in_or_app; right; now left|assumption].
Qed.

Lemma inv_step s s' : inv s -> step s s' -> inv s'.
Proof.
  intros HI HS. destruct HS as [d h k HA HG|h HA|k|HD|t r HD HQ HA|d q r HD HQ HA|h r HD HQ HA|r HD HQ HA|st wset rset ws rs HD HM|st wset rset HD HM|h ws rs q r HD HT|h ws rs HD HT|h rs q r HD HT|h rs HD HT|HD].
  - now apply inv_notify.
  - apply inv_post; [assumption|exact I|now left].
  - now apply inv_socket_gone.
  - now apply inv_service_gone.
  - eapply inv_skip; eassumption.
  - apply inv_run_notify; assumption.
  - apply inv_run_remove; assumption.
  - apply inv_run_poll; assumption.
  - now apply inv_select.
  - apply inv_undefined; [assumption|now left|eapply select_undefined; eassumption].
  - apply (inv_fire s Write h (h :: ws) rs ws rs q r); auto. intros [] N; [congruence|reflexivity].
  - exfalso. destruct (i_firing _ HI _ _ HD) as (a & W & R & b & _ & _ & HF). destruct (HF Write) as (_ & F). destruct (F h) as (_ & (q & HQ & EQ) & _); [now left|]. apply (take_first_none _ _ HT q); assumption.
  - apply (inv_fire s Read h [] (h :: rs) [] rs q r); auto. intros [] N; [reflexivity|congruence].
  - exfalso. destruct (i_firing _ HI _ _ HD) as (a & W & R & b & _ & _ & HF). destruct (HF Read) as (_ & F). destruct (F h) as (_ & (q & HQ & EQ) & _); [now left|]. apply (take_first_none _ _ HT q); assumption.
  - destruct (nil_reqs s) eqn:E; [now apply inv_poll_nothing|]. apply inv_post; [assumption|exact I|right; auto].
Qed.
Lemma inv_initial : inv initial.
Proof.
  constructor; unfold initial; fields; try discriminate; try (now constructor); try easy.
  - intros []; reflexivity.
  - split; [constructor|easy].
  - intros d a W R b h q E. destruct a; discriminate E.
Qed.
Lemma reaches_inv s : reaches s -> inv s.
Proof. induction 1; [apply inv_initial|eapply inv_step; eassumption]. Qed.
