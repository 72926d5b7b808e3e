(** Invariants of the task manager model. *)
From Coq Require Import Permutation.
From Verif Require Import Common Concurrent_Model Concurrent_Proofs Task_Model Task_Spec.
(* Concurrent_*: only [upd] and its lemmas *)
Local Open Scope nat_scope.

(** * Sums over lists *)
Definition sumf {A} (f : A -> nat) (l : list A) : nat := list_sum (map f l).
Lemma sumf_cons {A} (f : A -> nat) x l : sumf f (x :: l) = f x + sumf f l.
Proof. reflexivity. Qed.
Lemma sumf_nil {A} (f : A -> nat) : sumf f [] = 0.
Proof. reflexivity. Qed.
Lemma sumf_app {A} (f : A -> nat) a b : sumf f (a ++ b) = sumf f a + sumf f b.
Proof. unfold sumf. now rewrite map_app, list_sum_app. Qed.
Lemma sumf_upd {A} (f : A -> nat) l t p0 p : nth_error l t = Some p0 -> sumf f (upd l t p) + f p0 = sumf f l + f p.
Proof.
  revert t; induction l as [|y l IH]; intros [|t] H; try discriminate; cbn [upd nth_error] in *; rewrite !sumf_cons.
  - injection H as ->. lia.
  - specialize (IH _ H). lia.
Qed.
Lemma sumf_remove {A} (f : A -> nat) l i e : nth_error l i = Some e -> sumf f (remove_nth i l) + f e = sumf f l.
Proof.
  revert i; induction l as [|y l IH]; intros [|i] H; try discriminate; cbn [remove_nth nth_error] in *; rewrite ?sumf_cons.
  - injection H as ->. lia.
  - specialize (IH _ H). lia.
Qed.
Lemma sumf_zero {A} (f : A -> nat) l : (forall x, In x l -> f x = 0) -> sumf f l = 0.
Proof. induction l as [|y l IH]; intros H; [reflexivity|]. rewrite sumf_cons, (H y) by (left; reflexivity). apply IH. intros; apply H; right; assumption. Qed.
Lemma sumf_pos {A} (f : A -> nat) l x : In x l -> f x <= sumf f l.
Proof. induction l as [|y l IH]; intros []; rewrite sumf_cons; subst; [lia|]. specialize (IH H). lia. Qed.
Lemma sumf_map {A B} (f : B -> nat) (g : A -> B) l : sumf f (map g l) = sumf (fun x => f (g x)) l.
Proof. unfold sumf. now rewrite map_map. Qed.
Lemma sumf_repeat {A} (f : A -> nat) x n : sumf f (repeat x n) = n * f x.
Proof. induction n; [reflexivity|]. cbn [repeat]. rewrite sumf_cons, IHn. lia. Qed.
Lemma sumf_exists {A} (f : A -> nat) l : 0 < sumf f l -> exists x, In x l /\ 0 < f x.
Proof.
  induction l as [|y l IH]; rewrite ?sumf_nil, ?sumf_cons; intros H; [lia|].
  destruct (f y) eqn:E. { destruct IH as (x & I & P); [lia|]. exists x. cbn. auto. } exists y. cbn. split; [auto|lia].
Qed.

(** * begin_post and end_post *)
Ltac sim := cbn [with_runners with_tasks with_delayed with_workers with_timer with_clock with_next with_accepted with_started with_finished with_deadlines with_delay_log with_control with_runner with_worker runners tasks delayed limbo keep mexpired phase workers timer clock next ever_stopped accepted started finished deadlines delay_log kind_of pending has_running hold expired holder new_flag queue_up] in *.

(** The effects of begin_post: what becomes of the runner, the manager's queue and the log. *)
Inductive begun (s : state) (r : nat) (x : runner) (who : actor) : option nat -> runner -> list (nat * nat) -> list (nat * nat) -> Prop :=
| g_pending task p q : task = None \/ has_running x = false -> pending x = p :: q -> mexpired s = false ->
    begun s r x who task (Runner (kind_of x) q (has_running x) (Some (Held who (Some true) task)) (expired x)) [(r, p)] []
| g_pending_lost task p q : task = None \/ has_running x = false -> pending x = p :: q -> mexpired s = true ->
    begun s r x who task (Runner (kind_of x) q (has_running x) (Some (Held who (Some false) task)) (expired x)) [] []
| g_direct i : has_running x = false -> pending x = [] -> mexpired s = false ->
    begun s r x who (Some i) (Runner (kind_of x) [] (has_running x) (Some (Held who (Some true) None)) (expired x)) [(r, i)] [(r, i)]
| g_direct_lost i : has_running x = false -> pending x = [] -> mexpired s = true ->
    begun s r x who (Some i) (Runner (kind_of x) [] (has_running x) (Some (Held who (Some false) None)) (expired x)) [] []
| g_idle : pending x = [] ->
    begun s r x who None (Runner (kind_of x) [] (has_running x) (Some (Held who (Some false) None)) (expired x)) [] []
| g_queue i : has_running x = true ->
    begun s r x who (Some i) (Runner (kind_of x) (pending x) (has_running x) (Some (Held who None (Some i))) (expired x)) [] [].
Lemma begin_post_begun s r x who task : exists x' t a, begun s r x who task x' t a /\
  begin_post s r x who task = with_accepted (with_tasks (with_runner s r x') (tasks s ++ t)) (accepted s ++ a).
Proof.
  assert (HN : forall y, with_runner s r y = with_accepted (with_tasks (with_runner s r y) (tasks s ++ [])) (accepted s ++ [])).
  { intros. rewrite !app_nil_r. now destruct s. }
  assert (HT : forall y t, with_tasks (with_runner s r y) (tasks s ++ t) = with_accepted (with_tasks (with_runner s r y) (tasks s ++ t)) (accepted s ++ [])).
  { intros. rewrite !app_nil_r. now destruct s. }
  unfold begin_post. destruct task as [i|]; [destruct (has_running x) eqn:HR|]; cbn [orb negb].
  - eexists _, _, _. split; [apply g_queue; assumption|]. rewrite HR. apply HN.
  - destruct (pending x) as [|p q] eqn:HP; unfold post_to_manager; sim; destruct (mexpired s) eqn:HM; cbn [negb].
    + eexists _, _, _. split; [apply g_direct_lost; assumption|]. rewrite HR. apply HN.
    + eexists _, _, _. split; [apply g_direct; assumption|]. rewrite HR. reflexivity.
    + eexists _, _, _. split; [eapply g_pending_lost; eauto|]. rewrite HR. apply HN.
    + eexists _, _, _. split; [eapply g_pending; eauto|]. rewrite HR. apply HT.
  - destruct (pending x) as [|p q] eqn:HP; sim; [|destruct (mexpired s) eqn:HM; cbn [negb]].
    + eexists _, _, _. split; [apply g_idle; assumption|]. apply HN.
    + eexists _, _, _. split; [eapply g_pending_lost; eauto|]. apply HN.
    + eexists _, _, _. split; [eapply g_pending; eauto|]. apply HT.
Qed.
Definition flag_after (x : runner) : bool := match hold x with Some h => match new_flag h with Some b => b | None => has_running x end | None => has_running x end.
Definition to_queue (x : runner) : list nat := match hold x with Some h => match queue_up h with Some i => [i] | None => [] end | None => [] end.
Lemma end_post_ended s r x h : hold x = Some h ->
  end_post s r x h = with_accepted (with_runner s r (Runner (kind_of x) (pending x ++ to_queue x) (flag_after x) None (expired x))) (accepted s ++ map (pair r) (to_queue x)).
Proof.
  intros H. unfold end_post, flag_after, to_queue. rewrite H. destruct (queue_up h); [reflexivity|]. cbn [map]. rewrite !app_nil_r. now destruct s.
Qed.
Lemma post_to_manager_posted s r i : exists a, (a = [] /\ mexpired s = true \/ a = [(r, i)] /\ mexpired s = false) /\ post_to_manager s r i = with_accepted (with_tasks s (tasks s ++ a)) (accepted s ++ a).
Proof.
  unfold post_to_manager. destruct (mexpired s); [exists []|exists [(r, i)]]; split; auto. rewrite !app_nil_r. now destruct s.
Qed.

(** Split a step; begin_post, end_post and post_to_manager are replaced with their effects. *)
Ltac split_step HS :=
  destruct HS;
  try match goal with |- context [begin_post ?s ?r ?x ?who ?t] =>
    let x' := fresh "x'" in let t' := fresh "tq" in let a := fresh "aq" in let HB := fresh "HB" in let E := fresh "EB" in
    destruct (begin_post_begun s r x who t) as (x' & t' & a & HB & E); rewrite E; clear E end;
  try match goal with H : hold ?x = Some ?h |- context [end_post ?s ?r ?x ?h] => rewrite (end_post_ended s r x h H) end;
  try match goal with |- context [post_to_manager ?s ?r ?i] =>
    let a := fresh "aq" in let HA := fresh "HA" in let E := fresh "EA" in destruct (post_to_manager_posted s r i) as (a & HA & E); rewrite E; clear E end;
  sim.

(** * stop() *)
Definition inv_phase (s : state) : Prop :=
  (phase s <> Running -> keep s = false /\ ever_stopped s = true) /\ (phase s = Running -> keep s = true) /\ (phase s = Stopped -> Forall (eq WExit) (workers s) /\ timer s = TExit) /\
  (mexpired s = true -> phase s = Stopped) /\ (limbo s <> [] -> mexpired s = false).
Lemma forall_upd {A} (P : A -> Prop) l t p : Forall P l -> P p -> Forall P (upd l t p).
Proof. intros H HP. revert t. induction H as [|y l Hy HF IH]; intros [|t]; cbn [upd]; constructor; auto. Qed.
Lemma exited_nth l w p : Forall (eq WExit) l -> nth_error l w = Some p -> p = WExit.
Proof. intros F H. rewrite Forall_forall in F. symmetry. apply F. eapply nth_error_In; eauto. Qed.
Section Inv.
Variable n : nat.
Variable kinds : list runner_kind.
Lemma inv_phase_step s s' : inv_phase s -> step n s s' -> inv_phase s'.
Proof.
  intros (I1 & I2 & I3 & I4 & I5) HS. unfold inv_phase. split_step HS;
  repeat match goal with |- _ /\ _ => split end; intros; try solve [auto | congruence | discriminate];
  try match goal with H : phase _ = Stopped |- _ => destruct (I3 H) as (HF & HT) end;
  try solve [split; [assumption|congruence] | congruence];
  try match goal with H : nth_error (workers s) _ = Some _ |- _ => apply (exited_nth _ _ _ HF) in H; discriminate H end.
  - destruct (limbo s); [now destruct i|]. now apply I5.
  - match goal with H : mexpired s = true |- _ => specialize (I4 H) end. congruence.
  - apply I1. congruence.
  - apply I1. congruence.
Qed.

(** * Flow of the tasks *)
Definition eqe (r i : nat) (e : nat * nat) : nat := if (fst e =? r) && (snd e =? i) then 1 else 0.
Definition in_hand (f : nat * nat -> nat) (p : worker_pc) : nat := match p with WGot e | WLock e => f e | _ => 0 end.
Definition in_run (f : nat * nat -> nat) (p : worker_pc) : nat := match p with WRun e => f e | _ => 0 end.
Definition pend_in (l : list runner) (r i : nat) : nat := match nth_error l r with Some x => sumf (fun j => eqe r i (r, j)) (pending x) | None => 0 end.
Definition alive_in (l : list runner) (r : nat) : Prop := exists x, nth_error l r = Some x /\ expired x = false.
Lemma pend_upd l r x x' r0 i0 : nth_error l r = Some x ->
  pend_in (upd l r x') r0 i0 + sumf (fun j => eqe r0 i0 (r, j)) (pending x) = pend_in l r0 i0 + sumf (fun j => eqe r0 i0 (r, j)) (pending x').
Proof.
  intros H. unfold pend_in. destruct (Nat.eqb_spec r r0) as [<-|N].
  - rewrite (nth_upd_same _ _ _ _ H), H. lia.
  - rewrite nth_upd_other by assumption.
    assert (Z : forall l, sumf (fun j => eqe r0 i0 (r, j)) l = 0).
    { intros l'. apply sumf_zero. intros j _. unfold eqe; cbn [fst]. destruct (Nat.eqb_spec r r0); [congruence|reflexivity]. }
    now rewrite !Z.
Qed.
Lemma alive_upd l r x x' r0 : nth_error l r = Some x -> (expired x' = false -> expired x = false) -> alive_in (upd l r x') r0 -> alive_in l r0.
Proof.
  intros H HE (y & Hy & E). destruct (Nat.eqb_spec r r0) as [<-|N].
  - rewrite (nth_upd_same _ _ _ _ H) in Hy. injection Hy as <-. exists x. auto.
  - rewrite nth_upd_other in Hy by assumption. exists y. auto.
Qed.
Lemma begun_flow s r x who task x' tq aq : begun s r x who task x' tq aq -> forall r0 i0,
  let P := sumf (fun j => eqe r0 i0 (r, j)) (pending x) in let P' := sumf (fun j => eqe r0 i0 (r, j)) (pending x') in
  sumf (eqe r0 i0) tq + P' <= P + sumf (eqe r0 i0) aq /\ (mexpired s = false -> sumf (eqe r0 i0) tq + P' = P + sumf (eqe r0 i0) aq) /\ expired x' = expired x.
Proof. intros HB r0 i0 P P'. subst P P'. destruct HB; sim; repeat match goal with H : pending _ = _ |- _ => rewrite H end; rewrite ?sumf_cons, ?sumf_nil; repeat split; intros; try congruence; lia. Qed.
Definition whereabouts (s : state) (r i : nat) : nat :=
  sumf (eqe r i) (map fst (started s)) + sumf (eqe r i) (tasks s) + sumf (in_hand (eqe r i)) (workers s) + pend_in (runners s) r i.
Definition inv_flow (s : state) : Prop := forall r i,
  whereabouts s r i <= sumf (eqe r i) (accepted s) /\ (ever_stopped s = false -> alive s r -> whereabouts s r i = sumf (eqe r i) (accepted s)) /\
  sumf (eqe r i) (map fst (started s)) = sumf (eqe r i) (finished s) + sumf (in_run (eqe r i)) (workers s).
Lemma in_hand_zero f l : (forall p, In p l -> p = WExit \/ p = WLoop) -> sumf (in_hand f) l = 0.
Proof. intros H. apply sumf_zero. intros p HI. now destruct (H _ HI) as [-> | ->]. Qed.
Lemma in_run_zero f l : (forall p, In p l -> p = WExit \/ p = WLoop) -> sumf (in_run f) l = 0.
Proof. intros H. apply sumf_zero. intros p HI. now destruct (H _ HI) as [-> | ->]. Qed.
Lemma exited_all l : Forall (eq WExit) l -> forall p, In p l -> p = WExit \/ p = WLoop.
Proof. intros F p HI. rewrite Forall_forall in F. left. symmetry. auto. Qed.
Lemma repeat_all m : forall p, In p (repeat WLoop m) -> p = WExit \/ p = WLoop.
Proof. intros p HI. right. eapply repeat_spec; eauto. Qed.
Ltac sums := rewrite ?map_app, ?sumf_app; cbn [map fst snd]; rewrite ?sumf_cons, ?sumf_nil; cbn [in_hand in_run].
Lemma inv_flow_step s s' : inv_phase s -> inv_flow s -> step n s s' -> inv_flow s'.
Proof.
  intros IP IF HS r0 i0. specialize (IF r0 i0). destruct IF as (F1 & F2 & F3).
  pose proof IP as (P1 & P2 & P3 & P4 & P5).
  assert (PK : ever_stopped s = false -> keep s = true /\ mexpired s = false).
  { intros E. destruct (phase s) eqn:EP; [|destruct P1 as (_ & E'); congruence..]. split; [auto|]. destruct (mexpired s); [specialize (P4 eq_refl); discriminate|reflexivity]. }
  assert (HA : forall r, alive s r <-> alive_in (runners s) r) by reflexivity.
  assert (HO : forall r1 i1, r1 <> r0 -> eqe r0 i0 (r1, i1) = 0). { intros r1 i1 N. unfold eqe. cbn [fst]. destruct (Nat.eqb_spec r1 r0); [congruence|reflexivity]. }
  unfold whereabouts in *. change (alive ?a ?b) with (alive_in (runners a) b) in *. split_step HS;
  try match goal with |- context [if keep ?z then _ else _] => let E := fresh in destruct (keep z) eqn:E end;
  repeat match goal with
  | H : nth_error (workers s) ?w = Some _ |- context [upd (workers s) ?w ?p] =>
    let h := fresh "U" in let g := fresh "U" in
    pose proof (sumf_upd (in_hand (eqe r0 i0)) (workers s) w _ p H) as h; pose proof (sumf_upd (in_run (eqe r0 i0)) (workers s) w _ p H) as g;
    cbn [in_hand in_run] in h, g; revert h g; generalize (sumf (in_hand (eqe r0 i0)) (upd (workers s) w p)); generalize (sumf (in_run (eqe r0 i0)) (upd (workers s) w p)); intros ? ? h g
  | H : nth_error (runners s) ?r = Some ?x |- context [pend_in (upd (runners s) ?r ?x') _ _] =>
    let h := fresh "U" in let g := fresh "V" in
    pose proof (pend_upd (runners s) r x x' r0 i0 H) as h;
    pose proof (alive_upd (runners s) r x x' r0 H) as g;
    match goal with HB : begun _ _ _ _ _ _ _ _ |- _ => destruct (begun_flow _ _ _ _ _ _ _ _ HB r0 i0) as (? & ? & EX); rewrite EX in g | _ => idtac end;
    revert h; generalize (pend_in (upd (runners s) r x') r0 i0); intros ? h
  end.
  all: sim; sums.
  all: try match goal with H : tasks ?z = _ |- _ => rewrite H in *; rewrite ?sumf_cons, ?sumf_nil in * end.
  all: rewrite ?sumf_app, ?sumf_map in *.
  all: match goal with |- context [repeat] => idtac | _ => repeat split; intros; try (destruct (PK ltac:(assumption))); try congruence; try (specialize (F2 ltac:(assumption) ltac:(first [assumption | apply V; [congruence|assumption]])));
    repeat match goal with H : mexpired ?z = false -> _, H' : mexpired ?z = false |- _ => specialize (H H') end; try lia end.
  - destruct (Nat.eqb_spec r r0) as [->|N].
    + match goal with H : alive_in _ _ |- _ => destruct H as (y & Hy & EY) end. congruence.
    + match goal with U : _ + eqe r0 i0 (r, i) = _ |- _ => rewrite HO in U by assumption end. lia.
  - match goal with H : phase s = Stopped |- _ => destruct (P3 H) as (HF & _) end.
    rewrite (in_hand_zero _ _ (repeat_all n)), (in_run_zero _ _ (repeat_all n)).
    rewrite (in_hand_zero _ _ (exited_all _ HF)) in *. rewrite (in_run_zero _ _ (exited_all _ HF)) in *. auto.
Qed.

(** * Uniqueness of the tasks *)
Definition eqn (i j : nat) : nat := if j =? i then 1 else 0.
Definition known (s : state) (i : nat) : nat :=
  sumf (fun e => eqn i (snd e)) (accepted s) + sumf (fun x => sumf (eqn i) (to_queue x)) (runners s) +
  sumf (fun e => eqn i (snd (fst e))) (delayed s) + sumf (fun e => eqn i (snd (fst e))) (limbo s).
Definition inv_once (s : state) : Prop := forall i, known s i <= 1 /\ (next s <= i -> known s i = 0).
Definition opt_sum (i : nat) (o : option nat) : nat := match o with Some j => eqn i j | None => 0 end.
Lemma begun_once s r x who task x' tq aq : begun s r x who task x' tq aq -> forall i,
  sumf (eqn i) (to_queue x') + sumf (fun e => eqn i (snd e)) aq <= opt_sum i task.
Proof. intros HB i. destruct HB; unfold to_queue; cbn [hold queue_up opt_sum]; try destruct task; cbn [opt_sum]; rewrite ?sumf_cons, ?sumf_nil; cbn [snd]; lia. Qed.
Lemma inv_once_step s s' : inv_once s -> step n s s' -> inv_once s'.
Proof.
  intros IO HS i0. specialize (IO i0). destruct IO as (O1 & O2). unfold known in *. split_step HS;
  repeat match goal with
  | H : nth_error (runners s) ?r = Some ?x |- context [sumf ?f (upd (runners s) ?r ?x')] =>
    let h := fresh "U" in pose proof (sumf_upd f (runners s) r x x' H) as h;
    revert h; generalize (sumf f (upd (runners s) r x')); intros ? h
  | H : nth_error ?l ?i = Some ?e |- context [sumf ?f (remove_nth ?i ?l)] =>
    let h := fresh "U" in pose proof (sumf_remove f l i e H) as h;
    revert h; generalize (sumf f (remove_nth i l)); intros ? h
  end;
  try match goal with HB : begun _ _ _ _ _ _ _ _ |- _ => pose proof (begun_once _ _ _ _ _ _ _ _ HB i0) end;
  try match goal with H : hold ?y = None |- _ => assert (Z : to_queue y = []) by (unfold to_queue; now rewrite H); rewrite Z in * end;
  rewrite ?sumf_app, ?sumf_cons, ?sumf_nil, ?sumf_map in *; cbn [fst snd to_queue hold opt_sum] in *; rewrite ?sumf_nil in *;
  try match goal with HA : _ \/ _ |- _ => destruct HA as [(-> & _)|(-> & _)]; rewrite ?sumf_cons, ?sumf_nil; cbn [snd] end.
  all: repeat match goal with |- context [fun y : nat => eqn ?k y] => change (fun y : nat => eqn k y) with (eqn k) end.
  all: assert (E : eqn i0 (next s) <= 1 /\ (eqn i0 (next s) = 0 \/ next s = i0)) by (unfold eqn; destruct (Nat.eqb_spec (next s) i0); lia).
  all: try (split; [|intros; specialize (O2 ltac:(lia))]; lia).
Qed.

(** * Delays *)
Definition timer_now (t : timer_pc) : option Z := match t with TLock z | TScan z _ | TPosting _ z _ => Some z | _ => None end.
Definition inv_delay (s : state) : Prop :=
  (forall i T d, In (i, T, d) (deadlines s) -> i < next s) /\
  (forall r i t T d, In (r, i, t) (limbo s) \/ In (r, i, t) (delayed s) -> In (i, T, d) (deadlines s) -> (T + d <= t)%Z) /\
  (forall i T d, In i (map snd (accepted s)) \/ (exists x, In x (runners s) /\ In i (to_queue x)) -> In (i, T, d) (deadlines s) -> (T + d <= clock s)%Z) /\
  (forall r i t T d, In (r, i, t) (started s) -> In (i, T, d) (deadlines s) -> (T + d <= t)%Z) /\
  (forall z, timer_now (timer s) = Some z -> (z <= clock s)%Z) /\
  (forall r i t, In (r, i, t) (started s) -> (t <= clock s)%Z).
Lemma known_pos s i : In i (map snd (accepted s)) \/ (exists x, In x (runners s) /\ In i (to_queue x)) \/ (exists r t, In (r, i, t) (limbo s) \/ In (r, i, t) (delayed s)) -> 0 < known s i.
Proof.
  assert (E : eqn i i = 1) by (unfold eqn; now rewrite Nat.eqb_refl).
  unfold known. intros [H|[(x & HI & HQ)|(r & t & [H|H])]].
  - apply in_map_iff in H as (e & <- & HI). apply (sumf_pos (fun e0 => eqn (snd e) (snd e0))) in HI. lia.
  - apply (sumf_pos (eqn i)) in HQ. apply (sumf_pos (fun y => sumf (eqn i) (to_queue y))) in HI. lia.
  - apply (sumf_pos (fun e => eqn i (snd (fst e)))) in H. cbn [fst snd] in H. lia.
  - apply (sumf_pos (fun e => eqn i (snd (fst e)))) in H. cbn [fst snd] in H. lia.
Qed.
Lemma in_upd {A} (l : list A) t x y : In y (upd l t x) -> y = x \/ In y l.
Proof. revert t; induction l as [|z l IH]; intros [|t]; cbn [upd In]; intros H; [contradiction|contradiction|destruct H; auto|]. destruct H as [->|H]; [auto|]. destruct (IH _ H); auto. Qed.
Lemma in_remove {A} (l : list A) i y : In y (remove_nth i l) -> In y l.
Proof. revert i; induction l as [|z l IH]; intros [|i]; cbn [remove_nth In]; intros H; auto. destruct H as [->|H]; [auto|]. right. eauto. Qed.
Lemma eqe_pos r i : eqe r i (r, i) = 1.
Proof. unfold eqe. cbn [fst snd]. now rewrite !Nat.eqb_refl. Qed.
Lemma sumf_in r i l : 0 < sumf (eqe r i) l <-> In (r, i) l.
Proof.
  split.
  - intros H. apply sumf_exists in H as ((r' & i') & HI & HP). unfold eqe in HP. cbn [fst snd] in HP. destruct (Nat.eqb_spec r' r), (Nat.eqb_spec i' i); cbn [andb] in HP; try lia. congruence.
  - intros H. apply (sumf_pos (eqe r i)) in H. rewrite eqe_pos in H. lia.
Qed.
(** Whatever is in the manager's hands was accepted. *)
Lemma flow_accepted s r i : inv_flow s -> 0 < whereabouts s r i -> In (r, i) (accepted s).
Proof. intros IF H. destruct (IF r i) as (F & _). apply sumf_in. lia. Qed.
Lemma begun_ids s r x who task x' tq aq : begun s r x who task x' tq aq -> forall i, In i (to_queue x') \/ In i (map snd aq) -> task = Some i.
Proof. intros HB i H. destruct HB; unfold to_queue in H; cbn [hold queue_up map snd In] in H; try destruct task; cbn [In] in H; intuition congruence. Qed.
Definition released (s : state) (i : nat) : Prop := In i (map snd (accepted s)) \/ (exists x, In x (runners s) /\ In i (to_queue x)).
(** A task accepted or about to be queued was so before the step, or it is new, or its time has come. *)
Lemma released_step s s' i : step n s s' -> released s' i ->
  released s i \/ (i = next s /\ next s' = S (next s) /\ deadlines s' = deadlines s) \/ (exists r t now, In (r, i, t) (delayed s) /\ timer_now (timer s) = Some now /\ (t <= now)%Z).
Proof.
  intros HS. unfold released.
  assert (NQ : forall x, hold x = None -> to_queue x = []) by (intros x E; unfold to_queue; now rewrite E).
  split_step HS; try (intros [H'|H']; auto; fail).
  all: try match goal with HB : begun _ _ _ _ _ _ _ _ |- _ => pose proof (begun_ids _ _ _ _ _ _ _ _ HB i) as HBI end.
  all: rewrite ?map_app, ?in_app_iff, ?map_map; cbn [snd]; rewrite ?map_id.
  all: intros [HI|(y & HY & HI)]; [repeat match goal with H : _ \/ _ |- _ => destruct H end; auto|try (apply in_upd in HY as [->|HY]; [|left; right; exists y; auto; fail]); try (destruct HI; fail)].
  all: try solve [left; right; eauto using nth_error_In].
  all: try match goal with HA : _ /\ _ |- _ => destruct HA as (-> & _) end; cbn [map snd In] in *.
  all: try (specialize (HBI ltac:(auto)); try discriminate HBI; injection HBI as <-).
  all: try solve [right; left; intuition congruence | right; right; do 3 eexists; split; [eapply nth_error_In; eassumption|]; split; [|eassumption]; match goal with H : timer _ = _ |- _ => now rewrite H end].
  all: try match goal with HI : _ \/ False |- _ => destruct HI as [<-|[]] | HI : False |- _ => destruct HI end.
  all: try solve [right; left; intuition congruence | right; right; do 3 eexists; split; [eapply nth_error_In; eassumption|]; split; [|eassumption]; match goal with H : timer _ = _ |- _ => now rewrite H end].
Qed.
Lemma deadlines_step s s' : step n s s' -> (clock s <= clock s')%Z /\ (next s <= next s') /\
  (deadlines s' = deadlines s \/
   exists r d, next s' = S (next s) /\ deadlines s' = deadlines s ++ [(next s, clock s, d)] /\ limbo s' = limbo s ++ [(r, next s, clock s + d)%Z] /\
     delayed s' = delayed s /\ runners s' = runners s /\ accepted s' = accepted s /\ started s' = started s /\ timer s' = timer s).
Proof. intros HS. split_step HS; repeat split; try lia; auto. right. exists r, d. auto 10. Qed.
Lemma started_step s s' : step n s s' -> started s' = started s \/ exists w r i, nth_error (workers s) w = Some (WLock (r, i)) /\ started s' = started s ++ [(r, i, clock s)] /\ clock s' = clock s /\ deadlines s' = deadlines s.
Proof. intros HS. split_step HS; auto. right. eauto 8. Qed.
Lemma waiting_step s s' r i t : step n s s' -> In (r, i, t) (limbo s') \/ In (r, i, t) (delayed s') ->
  In (r, i, t) (limbo s) \/ In (r, i, t) (delayed s) \/ i = next s /\ exists T d, In (i, T, d) (deadlines s') /\ t = (T + d)%Z.
Proof.
  intros HS. split_step HS; intros [H'|H']; auto; rewrite ?in_app_iff in H'; auto; try (apply in_remove in H'; auto); cbn [In] in H'; rewrite ?in_app_iff in *; cbn [In] in *.
  - destruct H' as [H'|[H'|[]]]; auto. injection H' as <- <- <-. right; right. split; [reflexivity|]. exists (clock s), d. rewrite in_app_iff. cbn [In]. auto.
  - destruct H' as [H'|[->|[]]]; auto. left. eapply nth_error_In; eauto.
Qed.
Lemma timer_step s s' z : step n s s' -> timer_now (timer s') = Some z -> timer_now (timer s) = Some z \/ z = clock s.
Proof. intros HS. split_step HS; auto; repeat match goal with H : timer s = _ |- _ => rewrite H end; cbn [timer_now]; auto; try discriminate; try destruct (keep s); cbn [timer_now]; try discriminate; intros [= <-]; auto. Qed.
Lemma in_hand_whereabouts s w r i : nth_error (workers s) w = Some (WLock (r, i)) -> 0 < whereabouts s r i.
Proof. intros H. apply nth_error_In in H. apply (sumf_pos (in_hand (eqe r i))) in H. cbn [in_hand] in H. rewrite eqe_pos in H. unfold whereabouts. lia. Qed.
Lemma inv_delay_step s s' : inv_flow s -> inv_once s -> inv_delay s -> step n s s' -> inv_delay s'.
Proof.
  intros IF IO (D1 & D2 & D3 & D4 & D5 & D6) HS.
  assert (K : forall i, 0 < known s i -> i < next s). { intros i H. destruct (IO i) as (_ & O). destruct (Nat.lt_ge_cases i (next s)); [assumption|]. specialize (O ltac:(assumption)). lia. }
  assert (KS : forall r i t, In (r, i, t) (started s) -> i < next s).
  { intros r i t H. apply K, known_pos. left. assert (HA : In (r, i) (accepted s)).
    - apply (flow_accepted _ _ _ IF). unfold whereabouts. apply (in_map fst) in H. cbn [fst] in H. apply (sumf_pos (eqe r i)) in H. rewrite eqe_pos in H. lia.
    - apply (in_map snd) in HA. exact HA. }
  destruct (deadlines_step _ _ HS) as (HC & HN & HD).
  assert (HDI : forall i T d, In (i, T, d) (deadlines s') -> In (i, T, d) (deadlines s) \/ i = next s).
  { intros i T d H. destruct HD as [E|(r & d' & _ & E & _)]; rewrite E in H; [auto|]. apply in_app_or in H as [H|[H|[]]]; [auto|]. injection H as <- <- <-. auto. }
  unfold inv_delay. repeat apply conj.
  - intros i T d H. destruct HD as [E|(r & d' & EN & E & _)]; rewrite E in H; [apply D1 in H; lia|]. apply in_app_or in H as [H|[H|[]]]; [apply D1 in H; lia|]. injection H as <- <- <-. lia.
  - intros r i t T d H HI. destruct (waiting_step _ _ _ _ _ HS H) as [H'|[H'|(-> & T' & d' & HI' & ->)]].
    + destruct (HDI _ _ _ HI) as [HI'| ->]; [eauto|]. exfalso. enough (next s < next s) by lia. apply K, known_pos. right; right. eauto.
    + destruct (HDI _ _ _ HI) as [HI'| ->]; [eauto|]. exfalso. enough (next s < next s) by lia. apply K, known_pos. right; right. eauto.
    + destruct HD as [E|(r' & d1 & _ & E & _)]; rewrite E in HI, HI'; [apply D1 in HI; lia|].
      apply in_app_or in HI as [HI|[HI|[]]]; [apply D1 in HI; lia|]. apply in_app_or in HI' as [HI'|[HI'|[]]]; [apply D1 in HI'; lia|].
      injection HI as <- <-. injection HI' as <- <-. lia.
  - intros i T d H HI. assert (HI' := HDI _ _ _ HI). destruct HI' as [HI'| ->].
    + destruct (released_step _ _ _ HS H) as [H'|[(-> & _)|(r & t & now & H1 & H2 & H3)]].
      * specialize (D3 _ _ _ H' HI'). lia.
      * apply D1 in HI'. lia.
      * specialize (D2 r i t T d (or_intror H1) HI'). specialize (D5 _ H2). lia.
    + destruct HD as [E|(r' & d1 & _ & E & _ & _ & ER & EA & _)]; [rewrite E in HI; apply D1 in HI; lia|]. rewrite EA, ER in H.
      exfalso. enough (next s < next s) by lia. apply K, known_pos. destruct H; auto.
  - intros r i t T d H HI. destruct (started_step _ _ HS) as [E|(w & r' & i' & HW & E & EC & ED)]; rewrite E in H.
    + destruct (HDI _ _ _ HI) as [HI'| ->]; [eauto|]. apply KS in H. lia.
    + apply in_app_or in H as [H|[H|[]]]. { rewrite ED in HI. eauto. } injection H as -> -> <-. rewrite ED in HI. apply (D3 i T d); [|assumption]. left.
      apply in_hand_whereabouts in HW. apply (flow_accepted _ _ _ IF) in HW. apply (in_map snd) in HW. exact HW.
  - intros z H. destruct (timer_step _ _ _ HS H) as [H'| ->]; [|assumption]. specialize (D5 _ H'). lia.
  - intros r i t H. destruct (started_step _ _ HS) as [E|(w & r' & i' & HW & E & EC & ED)]; rewrite E in H.
    + specialize (D6 _ _ _ H). lia.
    + apply in_app_or in H as [H|[H|[]]]. { specialize (D6 _ _ _ H). lia. } injection H as -> -> <-. lia.
Qed.

(** * The sequenced runners: at most one task in the manager's hands *)
Definition isr (r : nat) (e : nat * nat) : nat := if fst e =? r then 1 else 0.
Definition done (r : nat) (p : worker_pc) : nat := match p with WDone r' => eqn r r' | _ => 0 end.
Definition tokens (s : state) (r : nat) : nat :=
  sumf (isr r) (tasks s) + sumf (in_hand (isr r)) (workers s) + sumf (in_run (isr r)) (workers s) + sumf (done r) (workers s).
Definition live (s : state) (x : runner) : Prop := ever_stopped s = false /\ expired x = false.
Definition tok_ok (ev : bool) (t : nat) (x : runner) : Prop := t <= 1 /\ (flag_after x = false -> t = 0) /\
  (ev = false /\ expired x = false -> (flag_after x = true -> t = 1) /\ (flag_after x = false -> pending x = [] /\ to_queue x = [])).
Definition inv_tokens (s : state) : Prop := forall r x, nth_error (runners s) r = Some x -> kind_of x = Sequenced -> tok_ok (ever_stopped s) (tokens s r) x.
Lemma isr_same r i : isr r (r, i) = 1.
Proof. unfold isr. cbn [fst]. now rewrite Nat.eqb_refl. Qed.
Lemma isr_other r r' i : r' <> r -> isr r (r', i) = 0.
Proof. unfold isr. cbn [fst]. now destruct (Nat.eqb_spec r' r). Qed.
Lemma flag_free x : hold x = None -> flag_after x = has_running x /\ to_queue x = [].
Proof. unfold flag_after, to_queue. intros ->. auto. Qed.
Lemma begun_post_ok ev s r x who i x' tq aq t : begun s r x who (Some i) x' tq aq -> hold x = None -> (ev = false -> mexpired s = false) -> tok_ok ev t x -> tok_ok ev (t + sumf (isr r) tq) x'.
Proof.
  intros HB HH HM (T1 & T2 & T3). destruct (flag_free _ HH) as (EF & EQ). rewrite EF, EQ in *. unfold tok_ok.
  inversion HB; subst; unfold flag_after, to_queue; cbn [hold new_flag queue_up expired pending has_running]; rewrite ?sumf_cons, ?sumf_nil, ?isr_same;
  try match goal with H : _ \/ _ |- _ => destruct H; [discriminate|] end; try specialize (T2 ltac:(assumption));
  (repeat split; intros; try lia; try congruence; destruct T3 as (T4 & T5); auto; try (specialize (T4 ltac:(assumption)); lia); try (destruct T5; [assumption|congruence])).
  all: try (match goal with H : _ /\ _ |- _ => destruct H end; rewrite HM in * by assumption; congruence).
  all: try congruence.
Qed.
Lemma begun_done_ok ev s r x who x' tq aq t : begun s r x who None x' tq aq -> hold x = None -> (ev = false -> mexpired s = false) -> tok_ok ev (S t) x -> tok_ok ev (t + sumf (isr r) tq) x'.
Proof.
  intros HB HH HM (T1 & T2 & T3). unfold tok_ok.
  inversion HB; subst; unfold flag_after, to_queue; cbn [hold new_flag queue_up expired pending has_running]; rewrite ?sumf_cons, ?sumf_nil, ?isr_same;
  (repeat split; intros; try lia; try congruence).
  match goal with H : _ /\ _ |- _ => destruct H end. rewrite HM in * by assumption; congruence.
Qed.
Lemma drop_ok ev ev' t t' x : tok_ok ev t x -> t' <= t -> (ev' = false /\ expired x = false -> ev = false /\ t' = t) -> tok_ok ev' t' x.
Proof. intros (T1 & T2 & T3) HL HE. repeat split; intros; try lia; [rewrite T2 in * by assumption; lia|..]; destruct HE as (E1 & E2); auto; destruct T3 as (T4 & T5); intuition. Qed.
Lemma expire_ok ev t x : hold x = None -> tok_ok ev t x -> tok_ok ev t (Runner (kind_of x) (pending x) (has_running x) None true).
Proof.
  intros HH (T1 & T2 & T3). destruct (flag_free _ HH) as (EF & EQ). rewrite EF in *. unfold tok_ok. change (flag_after (Runner _ _ ?f None _)) with f. cbn [expired].
  repeat split; auto; intros; destruct H; discriminate.
Qed.
Lemma end_ok ev t x : tok_ok ev t x -> tok_ok ev t (Runner (kind_of x) (pending x ++ to_queue x) (flag_after x) None (expired x)).
Proof.
  intros (T1 & T2 & T3). unfold tok_ok. change (flag_after (Runner _ _ ?f None _)) with f. change (to_queue (Runner _ _ _ None _)) with (@nil nat). cbn [expired pending].
  repeat split; auto; intros; destruct T3 as (T4 & T5); auto. destruct T5 as (-> & ->); auto.
Qed.
Lemma done_zero r l : (forall p, In p l -> p = WExit \/ p = WLoop) -> sumf (done r) l = 0.
Proof. intros H. apply sumf_zero. intros p HI. now destruct (H _ HI) as [-> | ->]. Qed.
Lemma begun_tokens s r x who task x' tq aq : begun s r x who task x' tq aq -> forall r0, sumf (isr r0) tq = (if r =? r0 then sumf (isr r) tq else 0) /\ kind_of x' = kind_of x /\ expired x' = expired x.
Proof. intros HB r0. destruct HB; unfold isr; rewrite ?sumf_cons, ?sumf_nil; cbn [fst kind_of expired]; rewrite ?Nat.eqb_refl; destruct (r =? r0); auto. Qed.
Lemma inv_tokens_step s s' : inv_phase s -> inv_tokens s -> step n s s' -> inv_tokens s'.
Proof.
  intros IP IT HS r0 x0. pose proof IP as (P1 & P2 & P3 & P4 & P5).
  assert (PK : ever_stopped s = false -> keep s = true /\ mexpired s = false).
  { intros E. destruct (phase s) eqn:EP; [|destruct P1 as (_ & E'); congruence..]. split; [auto|]. destruct (mexpired s); [specialize (P4 eq_refl); discriminate|reflexivity]. }
  unfold inv_tokens, tokens in IT |- *. split_step HS;
  try match goal with |- context [if keep ?z then _ else _] => let E := fresh in destruct (keep z) eqn:E end;
  repeat match goal with
  | H : nth_error (workers s) ?w = Some _ |- context [upd (workers s) ?w ?p] =>
    let h := fresh "U" in let g := fresh "U" in let k := fresh "U" in
    pose proof (sumf_upd (in_hand (isr r0)) (workers s) w _ p H) as h; pose proof (sumf_upd (in_run (isr r0)) (workers s) w _ p H) as g;
    pose proof (sumf_upd (done r0) (workers s) w _ p H) as k;
    cbn [in_hand in_run done] in h, g, k; revert h g k;
    generalize (sumf (in_hand (isr r0)) (upd (workers s) w p)); generalize (sumf (in_run (isr r0)) (upd (workers s) w p)); generalize (sumf (done r0) (upd (workers s) w p)); intros ? ? ? h g k
  end.
  all: intros HX HK.
  all: rewrite ?sumf_app, ?sumf_cons, ?sumf_nil.
  all: try match goal with H : tasks ?z = _ |- _ => rewrite H in * end.
  all: rewrite ?sumf_cons, ?sumf_nil.
  all: try (pose proof (IT _ _ HX HK) as HT; rewrite ?sumf_cons, ?sumf_nil in HT; match goal with H : tok_ok _ ?a _ |- tok_ok _ ?b _ => replace b with a by (unfold isr, eqn in *; cbn [fst] in *; lia) end; exact HT).
  all: try match goal with HB : begun _ _ _ _ _ _ _ _ |- _ => pose proof (begun_tokens _ _ _ _ _ _ _ _ HB r0) as (ET & EK & EX); sim end.
  all: try match goal with H : nth_error (upd (runners _) ?r _) ?q = Some _ |- _ => destruct (Nat.eqb_spec r q) as [<-|N]; [erewrite nth_upd_same in H by eassumption; injection H as <-|rewrite nth_upd_other in H by assumption; rewrite ?ET; pose proof (IT _ _ HX HK) as HT] end.
  all: try match goal with N : ?a <> ?b |- context [sumf (isr ?b) ?tq] => replace (sumf (isr b) tq) with 0 by (symmetry; assumption) end.
  all: try match goal with HT : tok_ok _ _ _ |- _ => match goal with |- tok_ok _ ?b _ => match type of HT with tok_ok _ ?a _ => replace b with a by (unfold isr, eqn in *; cbn [fst] in *; repeat match goal with |- context [?u =? ?v] => destruct (Nat.eqb_spec u v); try congruence | H : context [?u =? ?v] |- _ => destruct (Nat.eqb_spec u v); try congruence end; lia) end; exact HT end end.
  - assert (N : r <> r0) by congruence. pose proof (IT _ _ HX HK) as HT.
    assert (Z : sumf (isr r0) aq = 0) by (destruct HA as [(-> & _)|(-> & _)]; rewrite ?sumf_cons, ?sumf_nil, ?isr_other by assumption; reflexivity).
    rewrite Z, Nat.add_0_r. exact HT.
  - match goal with H : nth_error (runners s) r = Some x, K : kind_of x = Sequenced |- _ => pose proof (IT _ _ H K) as HT end.
    assert (HR := begun_post_ok _ _ _ _ _ _ _ _ _ _ HB ltac:(assumption) (fun e => proj2 (PK e)) HT).
    match goal with |- tok_ok _ ?b _ => match type of HR with tok_ok _ ?a _ => replace b with a by lia end end. exact HR.
  - apply end_ok. exact (IT _ _ H HK).
  - pose proof (IT _ _ HX HK) as HT. eapply drop_ok; [exact HT|lia|]. intros (E1 & E2). destruct (PK E1). congruence.
  - pose proof (IT _ _ HX HK) as HT. eapply drop_ok; [exact HT|lia|]. intros (E1 & E2). split; [assumption|].
    destruct (Nat.eqb_spec r r0) as [->|N]; [congruence|]. rewrite isr_other in * by assumption. lia.
  - pose proof (IT _ _ HX HK) as HT. assert (N : r <> r0) by congruence. eapply drop_ok; [exact HT|lia|]. intros (E1 & E2). split; [assumption|].
    assert (eqn r0 r = 0) by (unfold eqn; now destruct (Nat.eqb_spec r r0)). lia.
  - match goal with H : nth_error (runners s) r = Some x, K : kind_of x = Sequenced |- _ => pose proof (IT _ _ H K) as HT end.
    assert (ED : eqn r r = 1) by (unfold eqn; now rewrite Nat.eqb_refl). rewrite ED in *.
    match type of HT with tok_ok _ ?a _ => replace a with (S (sumf (isr r) (tasks s) + n2 + n1 + n0)) in HT by lia end.
    assert (HR := begun_done_ok _ _ _ _ _ _ _ _ _ HB ltac:(assumption) (fun e => proj2 (PK e)) HT).
    match goal with |- tok_ok _ ?b _ => match type of HR with tok_ok _ ?a _ => replace b with a by lia end end. exact HR.
  - apply end_ok. match goal with H : nth_error (runners s) r = Some x |- _ => pose proof (IT _ _ H HK) as HT end. match goal with |- tok_ok _ ?b _ => match type of HT with tok_ok _ ?a _ => replace b with a by lia end end. exact HT.
  - assert (N : r <> r0) by congruence. pose proof (IT _ _ HX HK) as HT.
    assert (Z : sumf (isr r0) aq = 0) by (destruct HA as [(-> & _)|(-> & _)]; rewrite ?sumf_cons, ?sumf_nil, ?isr_other by assumption; reflexivity).
    rewrite Z, Nat.add_0_r. exact HT.
  - match goal with H : nth_error (runners s) r = Some x, K : kind_of x = Sequenced |- _ => pose proof (IT _ _ H K) as HT end.
    assert (HR := begun_post_ok _ _ _ _ _ _ _ _ _ _ HB ltac:(assumption) (fun e => proj2 (PK e)) HT).
    match goal with |- tok_ok _ ?b _ => match type of HR with tok_ok _ ?a _ => replace b with a by lia end end. exact HR.
  - apply end_ok. match goal with H : nth_error (runners s) r = Some x |- _ => exact (IT _ _ H HK) end.
  - eapply drop_ok; [exact (IT _ _ HX HK)|lia|]. intros (E1 & _). discriminate E1.
  - match goal with H : phase s = Stopped |- _ => destruct (P3 H) as (HF & _) end. pose proof (IT _ _ HX HK) as HT.
    rewrite (in_hand_zero _ _ (repeat_all n)), (in_run_zero _ _ (repeat_all n)), (done_zero _ _ (repeat_all n)).
    rewrite (in_hand_zero _ _ (exited_all _ HF)), (in_run_zero _ _ (exited_all _ HF)), (done_zero _ _ (exited_all _ HF)) in HT. exact HT.
  - apply expire_ok; [assumption|]. match goal with H : nth_error (runners s) r = Some x |- _ => exact (IT _ _ H HK) end.
Qed.

(** * The order of the tasks of a sequenced runner *)
Definition hand_of (p : worker_pc) : list (nat * nat) := match p with WGot e | WLock e => [e] | _ => [] end.
Definition run_of (p : worker_pc) : list (nat * nat) := match p with WRun e => [e] | _ => [] end.
Definition flights (r : nat) (t : list (nat * nat)) (ws : list worker_pc) : list nat := tasks_of r t ++ tasks_of r (flat_map hand_of ws).
Definition runs (r : nat) (ws : list worker_pc) : list nat := tasks_of r (flat_map run_of ws).
Lemma tasks_of_app r a b : tasks_of r (a ++ b) = tasks_of r a ++ tasks_of r b.
Proof. unfold tasks_of. now rewrite filter_app, map_app. Qed.
Lemma tasks_of_perm r a b : Permutation a b -> Permutation (tasks_of r a) (tasks_of r b).
Proof.
  intros H. unfold tasks_of. apply Permutation_map. induction H; cbn [filter]; auto.
  - destruct (fst x =? r); auto.
  - destruct (fst x =? r), (fst y =? r); auto using perm_swap.
  - eapply perm_trans; eauto.
Qed.
Lemma tasks_of_same r i : tasks_of r [(r, i)] = [i].
Proof. unfold tasks_of. cbn [filter fst]. now rewrite Nat.eqb_refl. Qed.
Lemma tasks_of_other r r' i : r' <> r -> tasks_of r [(r', i)] = [].
Proof. intros N. unfold tasks_of. cbn [filter fst]. now destruct (Nat.eqb_spec r' r). Qed.
Lemma tasks_of_length r l : length (tasks_of r l) = sumf (isr r) l.
Proof. unfold tasks_of. rewrite map_length. induction l as [|e l IH]; [reflexivity|]. rewrite sumf_cons. cbn [filter]. unfold isr at 1. destruct (fst e =? r); cbn [length]; lia. Qed.
Lemma hand_sum f l : sumf (in_hand f) l = sumf f (flat_map hand_of l).
Proof. induction l as [|p l IH]; [reflexivity|]. cbn [flat_map]. rewrite sumf_cons, sumf_app, IH. destruct p; cbn [in_hand hand_of]; rewrite ?sumf_cons, ?sumf_nil; lia. Qed.
Lemma run_sum f l : sumf (in_run f) l = sumf f (flat_map run_of l).
Proof. induction l as [|p l IH]; [reflexivity|]. cbn [flat_map]. rewrite sumf_cons, sumf_app, IH. destruct p; cbn [in_run run_of]; rewrite ?sumf_cons, ?sumf_nil; lia. Qed.
Lemma flat_upd {A B} (f : A -> list B) l t p0 p : nth_error l t = Some p0 -> Permutation (flat_map f (upd l t p) ++ f p0) (flat_map f l ++ f p).
Proof.
  revert t; induction l as [|y l IH]; intros [|t] H; try discriminate; cbn [upd nth_error flat_map] in *.
  - injection H as ->. rewrite <- app_assoc. eapply perm_trans; [apply Permutation_app_comm|]. apply Permutation_app_tail, Permutation_app_comm.
  - rewrite <- !app_assoc. apply Permutation_app_head. auto.
Qed.
Lemma flights_upd r t ws w p0 p : nth_error ws w = Some p0 -> Permutation (flights r t (upd ws w p) ++ tasks_of r (hand_of p0)) (flights r t ws ++ tasks_of r (hand_of p)).
Proof. intros H. unfold flights. rewrite <- !app_assoc. apply Permutation_app_head. rewrite <- !tasks_of_app. apply tasks_of_perm, flat_upd, H. Qed.
Lemma runs_upd r ws w p0 p : nth_error ws w = Some p0 -> Permutation (runs r (upd ws w p) ++ tasks_of r (run_of p0)) (runs r ws ++ tasks_of r (run_of p)).
Proof. intros H. unfold runs. rewrite <- !tasks_of_app. apply tasks_of_perm, flat_upd, H. Qed.
Lemma flights_push r t tq ws : Permutation (flights r (t ++ tq) ws) (flights r t ws ++ tasks_of r tq).
Proof. unfold flights. rewrite tasks_of_app, <- !app_assoc. apply Permutation_app_head, Permutation_app_comm. Qed.
Lemma single {A} (a b : list A) : Permutation a b -> length b <= 1 -> a = b.
Proof.
  intros HP HL. destruct b as [|y [|z b]]; cbn [length] in HL; [|..].
  - apply Permutation_sym, Permutation_nil in HP. assumption.
  - apply Permutation_sym, Permutation_length_1_inv in HP. assumption.
  - lia.
Qed.
Lemma flights_length s r : length (flights r (tasks s) (workers s)) + length (runs r (workers s)) <= tokens s r.
Proof. unfold flights, runs, tokens. rewrite app_length, !tasks_of_length, hand_sum, run_sum. lia. Qed.

Lemma sub_refl {A} (l : list A) : subsequence l l.
Proof. induction l; constructor; auto. Qed.
Lemma sub_app {A} (a b c d : list A) : subsequence a b -> subsequence c d -> subsequence (a ++ c) (b ++ d).
Proof. intros H1 H2. induction H1; cbn [app]; [assumption|constructor; assumption..]. Qed.
Lemma sub_empty {A} (l : list A) : subsequence [] l.
Proof. induction l; constructor; auto. Qed.
Lemma sub_trans {A} (a b c : list A) : subsequence a b -> subsequence b c -> subsequence a c.
Proof.
  intros H1 H2. revert a H1. induction H2; intros a' H1.
  - assumption.
  - inversion H1; subst; constructor; auto.
  - constructor; auto.
Qed.
Lemma sub_drop {A} (a b c : list A) : subsequence (a ++ c) (a ++ b ++ c).
Proof. apply sub_app; [apply sub_refl|]. change c with ([] ++ c) at 1. apply sub_app; [apply sub_empty|apply sub_refl]. Qed.

Definition line (st fl pd acc : list nat) (lv : Prop) : Prop := subsequence (st ++ fl ++ pd) acc /\ (lv -> st ++ fl ++ pd = acc).
Definition started_of (s : state) (r : nat) := tasks_of r (start_log s).
Definition order_ok (s : state) (r : nat) (x : runner) : Prop :=
  line (started_of s r) (flights r (tasks s) (workers s)) (pending x) (tasks_of r (accepted s)) (live s x) /\
  started_of s r = tasks_of r (finished s) ++ runs r (workers s).
Definition inv_order (s : state) : Prop := forall r x, nth_error (runners s) r = Some x -> kind_of x = Sequenced -> order_ok s r x.
Lemma line_weaken st fl pd acc (P Q : Prop) : line st fl pd acc P -> (Q -> P) -> line st fl pd acc Q.
Proof. intros (L1 & L2) H. split; auto. Qed.
Lemma line_lose st fl c pd acc (P : Prop) : line st (fl ++ c) pd acc P -> line st fl pd acc False.
Proof. intros (L1 & _). split; [|tauto]. eapply sub_trans; [|exact L1]. apply sub_app; [apply sub_refl|]. rewrite <- app_assoc. apply sub_drop. Qed.
Lemma begun_line s r x who task x' tq aq st fl fl' acc (lv : Prop) : begun s r x who task x' tq aq -> (lv -> mexpired s = false) ->
  (task = None \/ has_running x = false -> fl = []) -> length fl <= 1 -> (lv -> has_running x = false -> pending x = []) ->
  Permutation fl' (fl ++ tasks_of r tq) -> line st fl (pending x) acc lv -> line st fl' (pending x') (acc ++ tasks_of r aq) lv.
Proof.
  intros HB HM HF HL HP PF (L1 & L2). unfold line.
  destruct HB; cbn [pending]; rewrite ?tasks_of_same in *; change (tasks_of r []) with (@nil nat) in *; rewrite ?app_nil_r in *;
  try (specialize (HF ltac:(auto)); subst fl); cbn [app] in PF;
  try (apply single in PF; [subst fl'|cbn [length]; lia]); repeat match goal with H : pending _ = _ |- _ => rewrite H in * end; cbn [app] in *; rewrite ?app_nil_r in *.
  - split; assumption.
  - split; [|intros E; rewrite HM in * by assumption; discriminate]. eapply sub_trans; [|exact L1]. apply sub_app; [apply sub_refl|]. constructor. apply sub_refl.
  - split; [apply sub_app; [assumption|apply sub_refl]|intros E; now rewrite (L2 E)].
  - split; [assumption|intros E; rewrite HM in * by assumption; discriminate].
  - split; assumption.
  - split; assumption.
Qed.
Lemma line_end st fl pd q acc lv : line st fl pd acc lv -> line st fl (pd ++ q) (acc ++ q) lv.
Proof.
  intros (L1 & L2). replace (st ++ fl ++ pd ++ q) with ((st ++ fl ++ pd) ++ q) in * by now rewrite <- !app_assoc.
  split; rewrite !app_assoc in *; [apply sub_app; [assumption|apply sub_refl]|intros E; now rewrite (L2 E)].
Qed.
Lemma begun_runner s r x who task x' tq aq : begun s r x who task x' tq aq -> (forall r0, r0 <> r -> tasks_of r0 tq = [] /\ tasks_of r0 aq = []) /\ kind_of x' = kind_of x /\ expired x' = expired x.
Proof. intros HB. destruct HB; repeat split; try reflexivity; rewrite ?tasks_of_other by congruence; reflexivity. Qed.
Lemma order_frame s s' r x x' : order_ok s r x -> length (flights r (tasks s) (workers s)) + length (runs r (workers s)) <= 1 ->
  started_of s' r = started_of s r -> tasks_of r (finished s') = tasks_of r (finished s) -> tasks_of r (accepted s') = tasks_of r (accepted s) ->
  pending x' = pending x -> (live s' x' -> live s x) -> Permutation (flights r (tasks s') (workers s')) (flights r (tasks s) (workers s)) ->
  Permutation (runs r (workers s')) (runs r (workers s)) -> order_ok s' r x'.
Proof.
  intros (HLn & HR) HL E1 E2 E3 E4 E5 P1 P2. unfold order_ok. rewrite (single _ _ P1) by lia. rewrite (single _ _ P2) by lia. rewrite E1, E2, E3, E4. split; [|assumption].
  eapply line_weaken; eauto.
Qed.
Lemma map_pair_of r q : tasks_of r (map (pair r) q) = q.
Proof. induction q as [|i q IH]; [reflexivity|]. change (map (pair r) (i :: q)) with ([(r, i)] ++ map (pair r) q). rewrite tasks_of_app, tasks_of_same, IH. reflexivity. Qed.
Lemma map_pair_other r r0 q : r <> r0 -> tasks_of r0 (map (pair r) q) = [].
Proof. intros N. induction q as [|i q IH]; [reflexivity|]. change (map (pair r) (i :: q)) with ([(r, i)] ++ map (pair r) q). rewrite tasks_of_app, tasks_of_other, IH by assumption. reflexivity. Qed.
Lemma flat_nil {B} (f : worker_pc -> list B) l : f WExit = [] -> f WLoop = [] -> (forall p, In p l -> p = WExit \/ p = WLoop) -> flat_map f l = [].
Proof. intros E1 E2. induction l as [|p l IH]; intros H; [reflexivity|]. cbn [flat_map]. rewrite IH by (intros; apply H; right; assumption). destruct (H p) as [-> | ->]; [left; reflexivity|now rewrite E1|now rewrite E2]. Qed.
Lemma flights_quiet r t ws w p0 p : nth_error ws w = Some p0 -> tasks_of r (hand_of p0) = tasks_of r (hand_of p) -> Permutation (flights r t (upd ws w p)) (flights r t ws).
Proof. intros H E. pose proof (flights_upd r t ws w p0 p H) as HP. rewrite E in HP. now apply Permutation_app_inv_r in HP. Qed.
Lemma runs_quiet r ws w p0 p : nth_error ws w = Some p0 -> tasks_of r (run_of p0) = tasks_of r (run_of p) -> Permutation (runs r (upd ws w p)) (runs r ws).
Proof. intros H E. pose proof (runs_upd r ws w p0 p H) as HP. rewrite E in HP. now apply Permutation_app_inv_r in HP. Qed.
Lemma order_begun s s' sb r x who task x' tq aq : inv_phase s -> inv_tokens s -> inv_order s -> nth_error (runners s) r = Some x -> kind_of x = Sequenced -> hold x = None ->
  begun sb r x who task x' tq aq -> mexpired sb = mexpired s -> (task = None -> flights r (tasks s) (workers s) = []) ->
  tasks s' = tasks s ++ tq -> accepted s' = accepted s ++ aq -> started s' = started s -> finished s' = finished s -> ever_stopped s' = ever_stopped s ->
  (forall t, Permutation (flights r t (workers s')) (flights r t (workers s))) -> Permutation (runs r (workers s')) (runs r (workers s)) -> order_ok s' r x'.
Proof.
  intros (P1 & P2 & P3 & P4 & P5) IT IO HR HK HH HB EM HN ET EA ES EF EE PF PR. pose proof (IT _ _ HR HK) as (T1 & T2 & T3). destruct (flag_free _ HH) as (EF' & EQ). rewrite EF' in *.
  pose proof (flights_length s r) as FL. destruct (IO _ _ HR HK) as (L & R). destruct (begun_runner _ _ _ _ _ _ _ _ HB) as (_ & _ & EX).
  unfold order_ok, started_of, start_log. rewrite ES, EF, EA, tasks_of_app. rewrite (single _ _ PR) by lia. split; [|exact R].
  assert (EL : live s' x' <-> live s x) by (unfold live; now rewrite EE, EX).
  apply (line_weaken _ _ _ _ (live s x)); [|apply EL].
  eapply begun_line; [exact HB|..|exact L].
  - intros (E1 & E2). rewrite EM. destruct (mexpired s) eqn:E; [|reflexivity]. specialize (P4 eq_refl). destruct P1 as (_ & E'); congruence.
  - intros [->|E]; [auto|]. specialize (T2 E). destruct (flights r (tasks s) (workers s)); [reflexivity|cbn [length] in FL; lia].
  - lia.
  - intros E1 E2. apply T3 in E1. now apply E1.
  - rewrite ET. eapply perm_trans; [apply PF|]. apply flights_push.
Qed.
Lemma order_ended s s' r x : inv_tokens s -> inv_order s -> nth_error (runners s) r = Some x -> kind_of x = Sequenced ->
  tasks s' = tasks s -> accepted s' = accepted s ++ map (pair r) (to_queue x) -> started s' = started s -> finished s' = finished s -> ever_stopped s' = ever_stopped s ->
  (forall t, Permutation (flights r t (workers s')) (flights r t (workers s))) -> Permutation (runs r (workers s')) (runs r (workers s)) ->
  order_ok s' r (Runner (kind_of x) (pending x ++ to_queue x) (flag_after x) None (expired x)).
Proof.
  intros IT IO HR HK ET EA ES EF EE PF PR. pose proof (IT _ _ HR HK) as (T1 & _). pose proof (flights_length s r) as FL. destruct (IO _ _ HR HK) as (L & R).
  unfold order_ok, started_of, start_log. rewrite ES, EF, EA, tasks_of_app, ET, map_pair_of. rewrite (single _ _ PR) by lia. rewrite (single _ _ (PF (tasks s))) by lia. split; [|exact R].
  cbn [pending]. apply line_end. unfold live in *. cbn [expired]. now rewrite EE.
Qed.
Lemma line_drop st fl fl' c pd acc (P Q : Prop) : line st fl pd acc P -> Permutation (fl' ++ c) fl -> length fl <= 1 -> (Q -> P /\ c = []) -> line st fl' pd acc Q.
Proof.
  intros L PF HL HQ. apply single in PF; [|assumption]. subst fl. split; [apply (line_lose _ _ _ _ _ _ L)|]. intros HQ'. destruct (HQ HQ') as (HP & ->). rewrite app_nil_r in L. now apply L.
Qed.
Lemma inv_order_step s s' : inv_phase s -> inv_tokens s -> inv_order s -> step n s s' -> inv_order s'.
Proof.
  intros IP IT IO HS r0 x0. pose proof IP as (P1 & P2 & P3 & P4 & P5).
  assert (PK : ever_stopped s = false -> keep s = true /\ mexpired s = false).
  { intros E. destruct (phase s) eqn:EP; [|destruct P1 as (_ & E'); congruence..]. split; [auto|]. destruct (mexpired s); [specialize (P4 eq_refl); discriminate|reflexivity]. }
  assert (HL : forall r x, nth_error (runners s) r = Some x -> kind_of x = Sequenced -> length (flights r (tasks s) (workers s)) + length (runs r (workers s)) <= 1).
  { intros r x H1 H2. pose proof (flights_length s r). destruct (IT _ _ H1 H2) as (T1 & _). lia. }
  split_step HS; intros HX HK;
  try (eapply order_frame; [apply IO; eassumption|eapply HL; eassumption|reflexivity..|reflexivity|auto|reflexivity|reflexivity]; fail).
  all: try match goal with H : nth_error (upd (runners _) ?r _) ?q = Some _ |- _ => destruct (Nat.eqb_spec r q) as [<-|N]; [erewrite nth_upd_same in H by eassumption; injection H as <-|rewrite nth_upd_other in H by assumption] end.
  all: try match goal with |- context [if keep ?z then _ else _] => let E := fresh in destruct (keep z) eqn:E end.
  (* other runners *)
  all: try (eapply order_frame; sim; [apply IO; eassumption|eapply HL; eassumption|reflexivity|reflexivity|
    rewrite ?tasks_of_app, ?map_pair_other by assumption; first [reflexivity | destruct (begun_runner _ _ _ _ _ _ _ _ HB) as (HBO & _); destruct (HBO _ (not_eq_sym N)) as (_ & ->); apply app_nil_r | apply app_nil_r]
    |reflexivity|auto|first [reflexivity | eapply flights_quiet; [eassumption|reflexivity]
    | eapply perm_trans; [apply flights_push|]; destruct (begun_runner _ _ _ _ _ _ _ _ HB) as (HBO & _); destruct (HBO _ (not_eq_sym N)) as (-> & _); rewrite app_nil_r; first [reflexivity | eapply flights_quiet; [eassumption|reflexivity]]]
    |first [reflexivity | eapply runs_quiet; [eassumption|reflexivity]]]; fail).
  all: try (eapply order_ended; sim; try eassumption; try reflexivity; intros; first [eapply flights_quiet; [eassumption|reflexivity] | eapply runs_quiet; [eassumption|reflexivity]]; fail).
  all: try (eapply order_begun; sim; try eassumption; try reflexivity; intros; first [discriminate | eapply flights_quiet; [eassumption|reflexivity] | eapply runs_quiet; [eassumption|reflexivity]]; fail).
  - assert (N : r <> r0) by congruence. assert (Z : tasks_of r0 aq = []) by (destruct HA as [(-> & _)|(-> & _)]; [reflexivity|now apply tasks_of_other]).
    eapply order_frame; sim; [apply IO; eassumption|eapply HL; eassumption|reflexivity|reflexivity|rewrite tasks_of_app, Z; apply app_nil_r|reflexivity|auto| |reflexivity].
    eapply perm_trans; [apply flights_push|]. now rewrite Z, app_nil_r.
  - eapply order_frame; sim; [apply IO; eassumption|eapply HL; eassumption|reflexivity..|reflexivity|auto| |eapply runs_quiet; [eassumption|reflexivity]].
    match goal with HT : tasks s = e :: q, HW : nth_error (workers s) w = _ |- _ => rewrite HT; pose proof (flights_upd r0 q (workers s) w _ (WGot e) HW) as PF end.
    cbn [hand_of] in PF. change (tasks_of r0 []) with (@nil nat) in PF. rewrite app_nil_r in PF. eapply perm_trans; [exact PF|]. unfold flights.
    change (e :: q) with ([e] ++ q). rewrite tasks_of_app, <- !app_assoc. eapply perm_trans; [|apply Permutation_app_comm]. rewrite <- app_assoc. reflexivity.
  - destruct (IO _ _ HX HK) as (L & R). specialize (HL _ _ HX HK).
    match goal with HW : nth_error (workers s) w = _ |- _ => pose proof (flights_upd r0 (tasks s) (workers s) w _ WLoop HW) as PF; pose proof (runs_quiet r0 (workers s) w _ WLoop HW eq_refl) as PR end.
    cbn [hand_of] in PF. change (tasks_of r0 []) with (@nil nat) in PF. rewrite app_nil_r in PF.
    split; sim; [|change (started_of (with_worker s w WLoop) r0) with (started_of s r0); rewrite (single _ _ PR) by lia; exact R].
    change (started_of (with_worker s w WLoop) r0) with (started_of s r0). eapply line_drop; [exact L|exact PF|lia|]. intros (E1 & _). sim. destruct (PK E1). congruence.
  - destruct (IO _ _ HX HK) as (L & R). specialize (HL _ _ HX HK).
    match goal with HW : nth_error (workers s) w = _ |- _ => pose proof (flights_upd r0 (tasks s) (workers s) w _ (WRun (r, i)) HW) as PF; pose proof (runs_upd r0 (workers s) w _ (WRun (r, i)) HW) as PR end.
    cbn [hand_of run_of] in PF, PR. change (tasks_of r0 []) with (@nil nat) in *. rewrite app_nil_r in PF, PR.
    unfold order_ok, started_of, start_log. sim. rewrite map_app, tasks_of_app. cbn [map fst].
    change (tasks_of r0 (map fst (started s))) with (started_of s r0). apply single in PF; [|lia].
    assert (LR : length (runs r0 (workers s) ++ tasks_of r0 [(r, i)]) <= 1). { rewrite app_length. apply (f_equal (@length nat)) in PF. rewrite app_length in PF. lia. }
    rewrite (single _ _ PR LR), R, app_assoc. split; [|reflexivity]. rewrite <- R. destruct (Nat.eqb_spec r r0) as [->|N].
    + rewrite tasks_of_same in *. rewrite <- PF in HL. rewrite app_length in HL. cbn [length] in HL.
      destruct (flights r0 (tasks s) (upd (workers s) w (WRun (r0, i)))) as [|a l] eqn:EFL; [|cbn [length] in HL; lia]. cbn [app] in PF. rewrite <- PF in L.
      unfold line in *. cbn [app] in *. rewrite <- app_assoc. cbn [app]. exact L.
    + rewrite tasks_of_other in * by assumption. rewrite app_nil_r in *. rewrite PF. exact L.
  - destruct (IO _ _ HX HK) as (L & R). specialize (HL _ _ HX HK).
    match goal with HW : nth_error (workers s) w = _ |- _ => pose proof (flights_upd r0 (tasks s) (workers s) w _ WLoop HW) as PF; pose proof (runs_quiet r0 (workers s) w _ WLoop HW eq_refl) as PR end.
    cbn [hand_of] in PF. change (tasks_of r0 []) with (@nil nat) in PF. rewrite app_nil_r in PF.
    split; sim; [|change (started_of (with_worker s w WLoop) r0) with (started_of s r0); rewrite (single _ _ PR) by lia; exact R].
    change (started_of (with_worker s w WLoop) r0) with (started_of s r0). eapply line_drop; [exact L|exact PF|lia|]. intros (E1 & E2). sim. split; [split; assumption|].
    destruct (Nat.eqb_spec r r0) as [->|N]; [congruence|]. now apply tasks_of_other.
  - destruct (IO _ _ HX HK) as (L & R). specialize (HL _ _ HX HK).
    match goal with HW : nth_error (workers s) w = _ |- _ => pose proof (flights_quiet r0 (tasks s) (workers s) w _ (WDone r) HW eq_refl) as PF; pose proof (runs_upd r0 (workers s) w _ (WDone r) HW) as PR end.
    cbn [run_of] in PR. change (tasks_of r0 []) with (@nil nat) in *. rewrite app_nil_r in PR.
    unfold order_ok, started_of, start_log. sim. change (tasks_of r0 (map fst (started s))) with (started_of s r0).
    rewrite (single _ _ PF) by lia. split; [exact L|]. rewrite R, tasks_of_app, <- app_assoc. f_equal. apply single in PR; [|lia]. rewrite <- PR.
    rewrite <- PR in HL. rewrite app_length in HL. destruct (runs r0 (upd (workers s) w (WDone r))) as [|a l], (tasks_of r0 [(r, i)]) as [|b k]; cbn [length] in HL; rewrite ?app_nil_r; try reflexivity. cbn [length] in HL. lia.
  - match goal with H : nth_error (runners s) r = Some x, K : kind_of x = Sequenced, W : nth_error (workers s) w = _ |- _ =>
      destruct (IT _ _ H K) as (T1 & _); apply nth_error_In in W as WI; apply (sumf_pos (done r)) in WI; cbn [done] in WI end.
    assert (ED : eqn r r = 1) by (unfold eqn; now rewrite Nat.eqb_refl). rewrite ED in WI.
    eapply order_begun; sim; try eassumption; try reflexivity; intros; try (eapply flights_quiet; [eassumption|reflexivity]); try (eapply runs_quiet; [eassumption|reflexivity]).
    unfold tokens in T1. pose proof (tasks_of_length r (tasks s)) as L1. pose proof (tasks_of_length r (flat_map hand_of (workers s))) as L2. rewrite <- hand_sum in L2.
    unfold flights. destruct (tasks_of r (tasks s)), (tasks_of r (flat_map hand_of (workers s))); cbn [length] in *; try lia. reflexivity.
  - assert (N : r <> r0) by congruence. assert (Z : tasks_of r0 aq = []) by (destruct HA as [(-> & _)|(-> & _)]; [reflexivity|now apply tasks_of_other]).
    eapply order_frame; sim; [apply IO; eassumption|eapply HL; eassumption|reflexivity|reflexivity|rewrite tasks_of_app, Z; apply app_nil_r|reflexivity|auto| |reflexivity].
    eapply perm_trans; [apply flights_push|]. now rewrite Z, app_nil_r.
  - eapply order_frame; sim; [apply IO; eassumption|eapply HL; eassumption|reflexivity..|reflexivity| |reflexivity|reflexivity]. intros (E1 & _). discriminate E1.
  - match goal with H : phase s = Stopped |- _ => destruct (P3 H) as (HF & _) end.
    eapply order_frame; sim; [apply IO; eassumption|eapply HL; eassumption|reflexivity..|reflexivity|auto| |].
    + unfold flights. rewrite !(flat_nil hand_of) by (try reflexivity; first [apply repeat_all | now apply exited_all]). reflexivity.
    + unfold runs. rewrite !(flat_nil run_of) by (try reflexivity; first [apply repeat_all | now apply exited_all]). reflexivity.
  - eapply order_frame; sim; [apply IO; eassumption|eapply HL; eassumption|reflexivity..|reflexivity| |reflexivity|reflexivity]. intros (_ & E1). discriminate E1.
Qed.

(** * Direct posts are accepted in the order in which they were made *)
Definition ordered (P : nat -> Prop) (l : list nat) : Prop := forall a i b j c, l = a ++ i :: b ++ j :: c -> P i -> P j -> i < j.
Lemma ordered_snoc P l k : ordered P l -> (forall i, In i l -> P i -> P k -> i < k) -> ordered P (l ++ [k]).
Proof.
  intros HO HK a i b j c E Hi Hj. destruct c as [|c0 c] using rev_ind.
  - rewrite app_comm_cons, app_assoc in E. apply app_inj_tail in E as (-> & ->). apply HK; auto. apply in_or_app. right. left. reflexivity.
  - clear IHc. replace (a ++ i :: b ++ j :: c ++ [c0]) with ((a ++ i :: b ++ j :: c) ++ [c0]) in E by (rewrite <- app_assoc; cbn [app]; now rewrite <- app_assoc).
    apply app_inj_tail in E as (-> & _). eapply HO; eauto.
Qed.
Lemma ordered_weaken (P Q : nat -> Prop) l : ordered P l -> (forall i, Q i -> P i) -> ordered Q l.
Proof. intros HO H a i b j c E Hi Hj. eapply HO; eauto. Qed.
Definition inv_sorted (s : state) : Prop :=
  (forall r i t, In (r, i, t) (limbo s) \/ In (r, i, t) (delayed s) -> ~ immediate s i) /\
  (forall r x, nth_error (runners s) r = Some x -> kind_of x = Sequenced ->
    ordered (immediate s) (tasks_of r (accepted s)) /\
    forall i k, In i (tasks_of r (accepted s)) -> In k (to_queue x) -> immediate s i -> immediate s k -> i < k).
Lemma tasks_of_in r i l : In i (tasks_of r l) <-> In (r, i) l.
Proof.
  unfold tasks_of. rewrite in_map_iff. setoid_rewrite filter_In. split.
  - intros ((r' & i') & <- & HI & E). apply Nat.eqb_eq in E. cbn [fst] in E. now subst.
  - intros H. exists (r, i). repeat split; auto. apply Nat.eqb_refl.
Qed.
Lemma immediate_step s s' i : step n s s' -> immediate s' i -> immediate s i.
Proof. intros HS HI T d H. apply (HI T d). destruct (deadlines_step _ _ HS) as (_ & _ & [->|(r & d' & _ & -> & _)]); [assumption|]. apply in_or_app. auto. Qed.
Lemma accepted_known s r i : inv_once s -> In (r, i) (accepted s) -> i < next s.
Proof.
  intros IO H. destruct (IO i) as (_ & O). destruct (Nat.lt_ge_cases i (next s)); [assumption|]. specialize (O ltac:(assumption)).
  enough (0 < known s i) by lia. apply known_pos. left. apply (in_map snd) in H. exact H.
Qed.
Lemma begun_sorted (P : nat -> Prop) s r x who task x' tq aq l : begun s r x who task x' tq aq -> to_queue x = [] -> ordered P l -> (forall i k, In i l -> task = Some k -> P i -> P k -> i < k) ->
  ordered P (l ++ tasks_of r aq) /\ (forall i k, In i (l ++ tasks_of r aq) -> In k (to_queue x') -> P i -> P k -> i < k).
Proof.
  intros HB EQ HO HK. pose proof (begun_ids _ _ _ _ _ _ _ _ HB) as HI. destruct HB; rewrite ?tasks_of_same; change (tasks_of r []) with (@nil nat); rewrite ?app_nil_r; split; auto.
  all: try (apply ordered_snoc; eauto; fail).
  all: intros i0 k HI0 HI1; try (unfold to_queue in HI1; cbn [hold queue_up] in HI1; contradiction); apply HK; auto.
Qed.
Lemma inv_sorted_step s s' : inv_once s -> inv_sorted s -> step n s s' -> inv_sorted s'.
Proof.
  intros IN (S1 & S2) HS. split.
  { intros r i t H HI. destruct (waiting_step _ _ _ _ _ HS H) as [H'|[H'|(-> & T & d & HI' & _)]]; [eapply (S1 r i t); eauto using immediate_step..|]. eapply HI; eassumption. }
  intros r0 x0. generalize (fun i => immediate_step s s' i HS). generalize (immediate s'). intros Q HM.
  assert (FR : forall x l, nth_error (runners s) r0 = Some x -> kind_of x = Sequenced -> to_queue x0 = to_queue x \/ to_queue x0 = [] -> l = tasks_of r0 (accepted s) ->
    ordered Q l /\ forall i k, In i l -> In k (to_queue x0) -> Q i -> Q k -> i < k).
  { intros x l HX' HK' EQ ->. destruct (S2 _ _ HX' HK') as (O1 & O2). split; [eapply ordered_weaken; eauto|]. intros i k Hi Hk Pi Pk. destruct EQ as [E|E]; rewrite E in Hk; [eauto|destruct Hk]. }
  assert (SQ : forall r x, nth_error (runners s) r = Some x -> kind_of x = Sequenced -> ordered Q (tasks_of r (accepted s))).
  { intros r x HX' HK'. destruct (S2 _ _ HX' HK') as (O1 & _). eapply ordered_weaken; eauto. }
  assert (EN : forall r x q, nth_error (runners s) r = Some x -> kind_of x = Sequenced -> q = to_queue x -> ordered Q (tasks_of r (accepted s) ++ q)).
  { intros r x q HX' HK' ->. destruct (S2 _ _ HX' HK') as (O1 & O2). unfold to_queue in *. destruct (hold x) as [h|]; [|rewrite app_nil_r; eauto]. destruct (queue_up h) as [k|]; [|rewrite app_nil_r; eauto].
    apply ordered_snoc; [eauto|]. intros i Hi Pi Pk. apply O2; auto. left. reflexivity. }
  split_step HS; intros HX HK;
  try (eapply FR; [eassumption|assumption|auto|reflexivity]; fail).
  all: try match goal with H : nth_error (upd (runners _) ?r _) ?q = Some _ |- _ => destruct (Nat.eqb_spec r q) as [<-|N]; [erewrite nth_upd_same in H by eassumption; injection H as <-|rewrite nth_upd_other in H by assumption;
    eapply FR; [eassumption|assumption|auto|first [reflexivity|rewrite tasks_of_app, ?map_pair_other by assumption; try (destruct (begun_runner _ _ _ _ _ _ _ _ HB) as (HBO & _); destruct (HBO _ (not_eq_sym N)) as (_ & ->)); apply app_nil_r]]; fail] end.
  all: try (rewrite tasks_of_app, map_pair_of; split; [eapply EN; [eassumption|assumption|reflexivity]|intros ? ? ? []]; fail).
  all: try (assert (N : r <> r0) by congruence; eapply FR; [eassumption|assumption|auto|];
    rewrite tasks_of_app; destruct HA as [(-> & _)|(-> & _)]; rewrite ?tasks_of_other by assumption; apply app_nil_r).
  - rewrite tasks_of_app. eapply begun_sorted; [eassumption|now apply flag_free|eapply SQ; eassumption|]. intros i k Hi [= <-] _ _. rewrite tasks_of_in in Hi. eapply accepted_known; eauto.
  - rewrite tasks_of_app. eapply begun_sorted; [eassumption|now apply flag_free|eapply SQ; eassumption|]. intros i k Hi [=].
  - rewrite tasks_of_app. eapply begun_sorted; [eassumption|now apply flag_free|eapply SQ; eassumption|]. intros i0 k0 Hi [= <-] _ Pk. exfalso. eapply (S1 r k t); [right; eapply nth_error_In; eassumption|auto].
  - eapply FR; [eassumption|assumption|auto|reflexivity].
Qed.

(** * The mutexes of the runners, and where things are *)
Definition holds_ok (ws : list worker_pc) (t : timer_pc) (r : nat) (a : actor) : Prop :=
  match a with AClient => True | AWorker w => nth_error ws w = Some (WHold r) | ATimer => exists now i, t = TPosting r now i end.
Definition mutex_ok (rs : list runner) (ws : list worker_pc) (t : timer_pc) : Prop :=
  (forall r x h, nth_error rs r = Some x -> hold x = Some h -> kind_of x = Sequenced /\ holds_ok ws t r (holder h)) /\
  (forall w r, nth_error ws w = Some (WHold r) -> exists x h, nth_error rs r = Some x /\ hold x = Some h /\ holder h = AWorker w) /\
  (forall r now i, t = TPosting r now i -> exists x h, nth_error rs r = Some x /\ hold x = Some h /\ holder h = ATimer).
Definition worker_idle (p : worker_pc) : Prop := forall r, p <> WHold r.
Definition timer_idle (t : timer_pc) : Prop := forall r z i, t <> TPosting r z i.
Ltac at_index a b H := destruct (Nat.eqb_spec a b) as [<-|?N]; [erewrite nth_upd_same in H by eassumption; try (injection H as <-)|rewrite nth_upd_other in H by assumption].
Lemma mutex_worker rs ws t w p0 p : mutex_ok rs ws t -> nth_error ws w = Some p0 -> worker_idle p0 -> worker_idle p -> mutex_ok rs (upd ws w p) t.
Proof.
  intros (M1 & M2 & M3) H I0 I1. repeat apply conj; auto.
  - intros r x h HX HH. destruct (M1 _ _ _ HX HH) as (K & O). split; [assumption|]. unfold holds_ok in *. destruct (holder h); auto.
    destruct (Nat.eqb_spec w w0) as [<-|N]; [rewrite H in O; injection O as ->; now destruct (I0 r)|now rewrite nth_upd_other].
  - intros w' r H'. destruct (Nat.eqb_spec w w') as [<-|N]; [rewrite (nth_upd_same _ _ _ _ H) in H'; injection H' as ->; now destruct (I1 r)|rewrite nth_upd_other in H' by assumption; eauto].
Qed.
Lemma mutex_timer rs ws t t' : mutex_ok rs ws t -> timer_idle t -> timer_idle t' -> mutex_ok rs ws t'.
Proof.
  intros (M1 & M2 & M3) I0 I1. repeat apply conj; auto.
  - intros r x h HX HH. destruct (M1 _ _ _ HX HH) as (K & O). split; [assumption|]. unfold holds_ok in *. destruct (holder h); auto. destruct O as (z & i & E). now apply I0 in E.
  - intros r z i E. now apply I1 in E.
Qed.
(** The mutex of runner [r] changes hands: [h] before, [h'] after; the threads change accordingly. *)
Definition hold_pcs (a : option held) (r : nat) (ws : list worker_pc) (t : timer_pc) : Prop :=
  (forall w, nth_error ws w = Some (WHold r) <-> exists h, a = Some h /\ holder h = AWorker w) /\ ((exists z i, t = TPosting r z i) <-> exists h, a = Some h /\ holder h = ATimer).
Lemma mutex_change rs ws t ws' t' r x x' : mutex_ok rs ws t -> nth_error rs r = Some x ->
  (hold x' <> None -> kind_of x' = Sequenced) -> hold_pcs (hold x') r ws' t' ->
  (forall w r', r' <> r -> nth_error ws' w = Some (WHold r') <-> nth_error ws w = Some (WHold r')) ->
  (forall r' z i, r' <> r -> t' = TPosting r' z i <-> t = TPosting r' z i) -> mutex_ok (upd rs r x') ws' t'.
Proof.
  intros (M1 & M2 & M3) HX HK (HW & HT) OW OT. repeat apply conj.
  - intros r1 x1 h1 H1 HH. at_index r r1 H1.
    + split; [apply HK; congruence|]. unfold holds_ok. destruct (holder h1) eqn:E; [exact I|apply HW; eauto|apply HT; eauto].
    + destruct (M1 _ _ _ H1 HH) as (K & O). split; [assumption|]. unfold holds_ok in *. destruct (holder h1); auto; [apply OW; auto|]. destruct O as (z & i & O). exists z, i. apply OT; auto.
  - intros w r1 H1. destruct (Nat.eqb_spec r r1) as [<-|N].
    + apply HW in H1 as (h & E & EH). exists x', h. rewrite (nth_upd_same _ _ _ _ HX). auto.
    + apply OW in H1; [|auto]. rewrite nth_upd_other by assumption. eauto.
  - intros r1 z i H1. destruct (Nat.eqb_spec r r1) as [<-|N].
    + destruct HT as (HT & _). destruct HT as (h & E & EH); [eauto|]. exists x', h. rewrite (nth_upd_same _ _ _ _ HX). auto.
    + apply OT in H1; [|auto]. rewrite nth_upd_other by assumption. eauto.
Qed.
Lemma mutex_pcs rs ws t r x : mutex_ok rs ws t -> nth_error rs r = Some x -> hold_pcs (hold x) r ws t.
Proof.
  intros (M1 & M2 & M3) HX. split.
  - intros w. split; [intros H; destruct (M2 _ _ H) as (y & h & E & EH & EO); exists h; split; congruence|]. intros (h & E & EO). destruct (M1 _ _ _ HX E) as (_ & O). now rewrite EO in O.
  - split; [intros (z & i & H); destruct (M3 _ _ _ H) as (y & h & E & EH & EO); exists h; split; congruence|]. intros (h & E & EO). destruct (M1 _ _ _ HX E) as (_ & O). now rewrite EO in O.
Qed.
Definition pc_ok (m : nat) (p : worker_pc) : Prop := match p with WGot e | WLock e | WRun e => fst e < m | WDone r => r < m | _ => True end.
Definition inv_mutex (s : state) : Prop := mutex_ok (runners s) (workers s) (timer s) /\
  Forall (fun e => fst e < length (runners s)) (tasks s) /\ Forall (pc_ok (length (runners s))) (workers s) /\
  Forall (fun e : nat * nat * Z => fst (fst e) < length (runners s)) (delayed s) /\ Forall (fun e : nat * nat * Z => fst (fst e) < length (runners s)) (limbo s).
Lemma nth_lt {A} (l : list A) i x : nth_error l i = Some x -> i < length l.
Proof. intros H. apply nth_error_Some. congruence. Qed.
Lemma begun_hold s r x who task x' tq aq : begun s r x who task x' tq aq -> (exists f q, hold x' = Some (Held who f q)) /\ kind_of x' = kind_of x /\ (forall m, r < m -> Forall (fun e => fst e < m) tq).
Proof. intros HB. destruct HB; repeat split; cbn [hold]; eauto. Qed.
Lemma forall_remove {A} (P : A -> Prop) l i : Forall P l -> Forall P (remove_nth i l).
Proof. intros H. rewrite Forall_forall in *. intros y HY. apply in_remove in HY. auto. Qed.
Lemma forall_nth {A} (P : A -> Prop) l i x : Forall P l -> nth_error l i = Some x -> P x.
Proof. intros H E. rewrite Forall_forall in H. apply H. eapply nth_error_In; eauto. Qed.
Lemma upd_hold_other {A} (ws : list A) w p0 p (P : A -> Prop) w' y : nth_error ws w = Some p0 -> p0 <> y -> p <> y -> nth_error (upd ws w p) w' = Some y <-> nth_error ws w' = Some y.
Proof.
  intros H N0 N1. destruct (Nat.eqb_spec w w') as [<-|N]; [rewrite (nth_upd_same _ _ _ _ H), H; split; intros [=]; congruence|now rewrite nth_upd_other].
Qed.
Lemma pcs_free a r ws t : hold_pcs a r ws t -> match a with None => True | Some h => holder h = AClient end -> (forall w, nth_error ws w <> Some (WHold r)) /\ (forall z i, t <> TPosting r z i).
Proof.
  intros (HW & HT) E. split.
  - intros w H. apply HW in H as (h & -> & EH). congruence.
  - intros z i H. destruct HT as (HT & _). destruct HT as (h & -> & EH); [eauto|congruence].
Qed.
Lemma free_pcs a r ws t : (forall w, nth_error ws w <> Some (WHold r)) -> (forall z i, t <> TPosting r z i) -> match a with None => True | Some h => holder h = AClient end -> hold_pcs a r ws t.
Proof.
  intros HW HT E. split; [intros w|]; split.
  - intros H. now apply HW in H.
  - intros (h & -> & EH). congruence.
  - intros (z & i & H). now apply HT in H.
  - intros (h & -> & EH). congruence.
Qed.
Lemma inv_mutex_step s s' : inv_phase s -> inv_mutex s -> step n s s' -> inv_mutex s'.
Proof.
  intros (P1 & P2 & P3 & P4 & P5) (M & F1 & F2 & F3 & F4) HS. split_step HS;
  try match goal with |- context [if keep ?z then _ else _] => let E := fresh in destruct (keep z) eqn:E end;
  try match goal with HB : begun _ _ _ _ _ _ _ _ |- _ => destruct (begun_hold _ _ _ _ _ _ _ _ HB) as ((bf & bq & BH) & BK & BT) end.
  all: unfold inv_mutex; sim; rewrite ?upd_length.
  all: split; [|repeat apply conj; repeat (apply Forall_app; split); repeat (apply forall_upd); repeat apply forall_remove; repeat apply Forall_cons; try apply Forall_nil; try assumption; cbn [pc_ok fst]; try (eapply nth_lt; eassumption); try exact I; try (apply BT; eapply nth_lt; eassumption)].
  all: try (eapply mutex_worker; [eassumption|eassumption|intros ? ?; discriminate|intros ? ?; discriminate]; fail).
  all: try (eapply mutex_timer; [eassumption|match goal with H : timer ?z = _ |- _ => rewrite H end; intros ? ? ? ?; discriminate|intros ? ? ? ?; discriminate]; fail).
  all: try assumption.
  - destruct HA as [(-> & _)|(-> & _)]; repeat constructor. cbn [fst]. eapply nth_lt; eassumption.
  - eapply mutex_change; [eassumption|eassumption|congruence| |reflexivity|reflexivity].
    match goal with H : nth_error (runners s) r = Some x |- _ => pose proof (mutex_pcs _ _ _ _ _ M H) as MP end.
    match goal with H : hold x = None |- _ => rewrite H in MP end. destruct (pcs_free _ _ _ _ MP I) as (A & B). apply free_pcs; auto. now rewrite BH.
  - eapply mutex_change; [eassumption|eassumption|sim; congruence| |reflexivity|reflexivity]. sim.
    match goal with H : nth_error (runners s) r = Some x |- _ => pose proof (mutex_pcs _ _ _ _ _ M H) as MP end.
    match goal with H : hold x = Some h |- _ => rewrite H in MP end. destruct (pcs_free _ _ _ _ MP ltac:(assumption)) as (A & B). apply free_pcs; auto.
  - exact (forall_nth _ _ _ _ F4 ltac:(eassumption)).
  - match goal with H : tasks s = _ |- _ => rewrite H in F1 end. now inversion F1.
  - match goal with H : tasks s = _ |- _ => rewrite H in F1 end. now inversion F1.
  - match goal with H : nth_error (workers s) w = _ |- _ => exact (forall_nth _ _ _ _ F2 H) end.
  - match goal with H : nth_error (workers s) w = _ |- _ => exact (forall_nth _ _ _ _ F2 H) end.
  - match goal with H : nth_error (runners s) r = Some x |- _ => pose proof (mutex_pcs _ _ _ _ _ M H) as MP end.
    match goal with H : hold x = None |- _ => rewrite H in MP end. destruct (pcs_free _ _ _ _ MP I) as (A & B).
    match goal with H : nth_error (workers s) w = Some _ |- _ => pose proof H as HW end.
    eapply mutex_change; [eassumption|eassumption|congruence| | |reflexivity].
    + rewrite BH. split; [intros w'|].
      * destruct (Nat.eqb_spec w w') as [<-|N]; [rewrite (nth_upd_same _ _ _ _ HW); split; [intros _; eexists; split; reflexivity|reflexivity]|].
        rewrite nth_upd_other by assumption. split; [intros H'; now apply A in H'|]. intros (h & [= <-] & EH). cbn [holder] in EH. congruence.
      * split; [intros (z & k1 & E); now apply B in E|]. intros (h & [= <-] & EH). discriminate EH.
    + intros w' r' N. apply (upd_hold_other _ _ (WDone r) _ (fun _ => True)); [assumption|discriminate|congruence].
  - match goal with H : nth_error (runners s) r = Some x |- _ => pose proof (mutex_pcs _ _ _ _ _ M H) as MP end.
    match goal with H : hold x = Some h |- _ => rewrite H in MP end. destruct MP as (A & B).
    match goal with H : nth_error (workers s) w = Some _ |- _ => pose proof H as HW end. sim.
    eapply mutex_change; [eassumption|eassumption|sim; congruence| | |reflexivity]; sim.
    + apply free_pcs; [| |exact I].
      * intros w' H'. destruct (Nat.eqb_spec w w') as [<-|N]; [rewrite (nth_upd_same _ _ _ _ HW) in H'; discriminate H'|]. rewrite nth_upd_other in H' by assumption.
        apply A in H' as (h' & [= <-] & EH). congruence.
      * intros z k1 E. destruct B as (B & _). destruct B as (h' & [= <-] & EH); [eauto|]. congruence.
    + intros w' r' N. apply (upd_hold_other _ _ (WHold r) _ (fun _ => True)); [assumption|congruence|discriminate].
  - destruct HA as [(-> & _)|(-> & _)]; repeat constructor. cbn [fst]. eapply nth_lt; eassumption.
  - match goal with H : nth_error (runners s) r = Some x |- _ => pose proof (mutex_pcs _ _ _ _ _ M H) as MP end.
    match goal with H : hold x = None |- _ => rewrite H in MP end. destruct (pcs_free _ _ _ _ MP I) as (A & B).
    eapply mutex_change; [eassumption|eassumption|congruence| |reflexivity|].
    + rewrite BH. split; [intros w'|].
      * split; [intros H'; now apply A in H'|]. intros (h & [= <-] & EH). discriminate EH.
      * split; [intros _; eexists; split; reflexivity|]. eauto.
    + intros r' z k1 N. match goal with H : timer s = _ |- _ => rewrite H end. split; intros [=]; congruence.
  - match goal with H : nth_error (runners s) r = Some x |- _ => pose proof (mutex_pcs _ _ _ _ _ M H) as MP end.
    match goal with H : hold x = Some h |- _ => rewrite H in MP end. destruct MP as (A & B).
    eapply mutex_change; [eassumption|eassumption|sim; congruence| |reflexivity|]; sim.
    + apply free_pcs; [| |exact I].
      * intros w' H'. apply A in H' as (h' & [= <-] & EH). congruence.
      * intros z k1. discriminate.
    + intros r' z k1 N. match goal with H : timer s = _ |- _ => rewrite H end. split; intros [=]; congruence.
  - match goal with H : phase s = Stopped |- _ => destruct (P3 H) as (HF & HT) end. destruct M as (M1 & M2 & M3). repeat apply conj.
    + intros r x h HX HH. destruct (M1 _ _ _ HX HH) as (K & O). split; [assumption|]. unfold holds_ok in *. destruct (holder h); auto.
      * apply (exited_nth _ _ _ HF) in O. discriminate O.
      * destruct O as (z & i & O). congruence.
    + intros w r H'. apply nth_error_In, repeat_spec in H'. discriminate H'.
    + intros r z i. discriminate.
  - clear. induction n; cbn [repeat]; constructor; auto. exact I.
  - eapply mutex_change; [eassumption|eassumption|sim; congruence| |reflexivity|reflexivity]; sim.
    match goal with H : nth_error (runners s) r = Some x |- _ => pose proof (mutex_pcs _ _ _ _ _ M H) as MP end.
    match goal with H : hold x = None |- _ => rewrite H in MP end. exact MP.
Qed.

(** * Threads and parallel runners *)
Definition inv_up (s : state) : Prop := (keep s = true -> Forall (fun p => p <> WExit) (workers s)) /\ (keep s = true -> timer s <> TExit) /\ length (workers s) = n /\
  (forall r x, nth_error (runners s) r = Some x -> kind_of x = Parallel -> pending x = []) /\ map kind_of (runners s) = kinds.
Lemma map_upd {A B} (f : A -> B) l t x y : nth_error l t = Some y -> f x = f y -> map f (upd l t x) = map f l.
Proof. revert t; induction l as [|z l IH]; intros [|t] H E; try discriminate; cbn [upd map nth_error] in *; [injection H as ->; now rewrite E|now rewrite IH]. Qed.
Lemma inv_up_step s s' : inv_phase s -> inv_mutex s -> inv_up s -> step n s s' -> inv_up s'.
Proof.
  intros (Q1 & Q2 & Q3 & Q4 & Q5) (M & _) (U1 & U2 & U3 & U4 & U5) HS. split_step HS;
  try match goal with |- context [if keep ?z then _ else _] => let E := fresh in destruct (keep z) eqn:E end;
  try match goal with HB : begun _ _ _ _ _ _ _ _ |- _ => destruct (begun_hold _ _ _ _ _ _ _ _ HB) as ((bf & bq & BH) & BK & BT) end.
  all: unfold inv_up; sim; rewrite ?upd_length.
  all: repeat apply conj; intros; try assumption; try discriminate; try congruence; auto; try (apply forall_upd; auto; discriminate); try (rewrite (map_upd _ _ _ _ _ ltac:(eassumption)); [assumption|sim; congruence]).
  all: try match goal with H : nth_error (upd (runners _) ?r _) ?q = Some _ |- _ => destruct (Nat.eqb_spec r q) as [<-|N]; [erewrite nth_upd_same in H by eassumption; injection H as <-|rewrite nth_upd_other in H by assumption; eauto; fail] end.
  all: sim; try congruence.
  all: try (destruct M as (M1 & _); match goal with H : hold ?y = Some ?h |- _ => destruct (M1 _ _ _ ltac:(eassumption) H) as (K & _) end; congruence).
  all: try (eapply U4; eassumption).
  all: try apply repeat_length.
  - clear. induction n; cbn [repeat]; constructor; auto. discriminate.
Qed.

Record inv (s : state) : Prop := Inv {
  i_phase : inv_phase s; i_flow : inv_flow s; i_once : inv_once s; i_delay : inv_delay s;
  i_tokens : inv_tokens s; i_order : inv_order s; i_sorted : inv_sorted s; i_mutex : inv_mutex s; i_up : inv_up s }.
Lemma inv_step s s' : inv s -> step n s s' -> inv s'.
Proof.
  intros [] HS. split; eauto using inv_phase_step, inv_flow_step, inv_once_step, inv_delay_step, inv_tokens_step, inv_order_step, inv_sorted_step, inv_mutex_step, inv_up_step.
Qed.
Lemma initial_runner r x : nth_error (runners (initial n kinds)) r = Some x -> pending x = [] /\ hold x = None /\ has_running x = false /\ expired x = false.
Proof. cbn [initial runners]. rewrite nth_error_map. destruct (nth_error kinds r); [|discriminate]. intros [= <-]. auto. Qed.
Lemma workers_initial (f : worker_pc -> nat) : f WLoop = 0 -> sumf f (repeat WLoop n) = 0.
Proof. intros E. rewrite sumf_repeat, E. lia. Qed.
Lemma inv_initial : inv (initial n kinds).
Proof.
  pose proof initial_runner as HI.
  assert (HF : flat_map hand_of (repeat WLoop n) = [] /\ flat_map run_of (repeat WLoop n) = []) by (split; apply flat_nil; try reflexivity; apply repeat_all).
  destruct HF as (HF & HR).
  split.
  - unfold inv_phase. cbn [initial phase mexpired limbo keep ever_stopped]. repeat apply conj; intros; try discriminate; try congruence; reflexivity.
  - intros r i. unfold whereabouts. cbn [initial started tasks workers accepted finished map].
    assert (E : pend_in (runners (initial n kinds)) r i = 0). { unfold pend_in. destruct (nth_error _ r) eqn:E; [|reflexivity]. apply HI in E as (-> & _). reflexivity. }
    rewrite E, !sumf_nil, !workers_initial by reflexivity. auto.
  - intros i. unfold known. cbn [initial accepted delayed limbo]. rewrite !sumf_nil.
    rewrite (sumf_zero _ (runners (initial n kinds))); [auto|]. intros x HX. apply In_nth_error in HX as (r & HX). apply HI in HX as (_ & E & _). unfold to_queue. now rewrite E.
  - repeat apply conj; cbn [initial limbo delayed deadlines accepted started timer timer_now]; try contradiction; try discriminate; intros; tauto.
  - intros r x HX HK. apply HI in HX as (E1 & E2 & E3 & E4). unfold tok_ok, tokens. destruct (flag_free _ E2) as (-> & ->). cbn [initial tasks workers]. rewrite sumf_nil, !workers_initial by reflexivity. rewrite E1, E3.
    repeat split; auto; intros; discriminate.
  - intros r x HX HK. apply HI in HX as (E1 & E2 & E3 & E4). unfold order_ok, started_of, start_log, flights, runs, line. cbn [initial started tasks workers accepted finished map]. rewrite HF, HR, E1. repeat split. constructor.
  - split; [cbn; tauto|]. intros r x HX HK. apply HI in HX as (_ & E2 & _). destruct (flag_free _ E2) as (_ & ->). split; [|intros ? ? []]. intros a i b j c E. destruct a; discriminate E.
  - split; [repeat apply conj|repeat apply conj; try constructor].
    + intros r x h HX HH. apply HI in HX as (_ & E & _). congruence.
    + intros w r H. cbn [initial workers] in H. apply nth_error_In, repeat_spec in H. discriminate H.
    + discriminate.
    + cbn [initial workers]. clear. induction n; cbn [repeat]; constructor; auto. exact I.
  - repeat apply conj; try discriminate.
    + intros _. cbn [initial workers]. clear. induction n; cbn [repeat]; constructor; auto. discriminate.
    + apply repeat_length.
    + intros r x HX HK. now apply HI in HX.
    + cbn [initial runners]. rewrite map_map. apply map_id.
Qed.
Lemma reaches_inv s : reaches n kinds s -> inv s.
Proof. induction 1; eauto using inv_initial, inv_step. Qed.
Lemma steps_inv s s' : steps n s s' -> inv s -> inv s'.
Proof. induction 1; eauto using inv_step. Qed.
End Inv.
