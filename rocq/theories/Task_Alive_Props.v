(** C36: runners that go away. *)
From Verif Require Import Common Concurrent_Model Concurrent_Proofs Task_Model Task_Spec Task_Proofs Task_Live Task_Props.

Local Open Scope nat_scope.
Section Alive.
Variable n : nat.
Variable kinds : list runner_kind.

(** Worker [w] executes a task of runner [r], or calls its task_complete afterwards. *)
Definition uses (s : state) (w r : nat) : Prop :=
  (exists i, executing s w r i) \/ nth_error (workers s) w = Some (WDone r) \/ nth_error (workers s) w = Some (WHold r).

Lemma refers_uses s w r p : nth_error (workers s) w = Some p -> refers r p = true <-> uses s w r.
Proof.
  intros HP. unfold uses, executing. rewrite HP. destruct p as [| |[a b]|[a b]|[a b]|a|a|]; cbn [refers]; rewrite ?Nat.eqb_eq; split; try discriminate;
    try (intros [(i & E)|[E|E]]; congruence); intros ->; eauto.
Qed.
Lemma upd_refers (l : list worker_pc) w w' p q : nth_error (upd l w p) w' = Some q -> (w' = w /\ q = p) \/ nth_error l w' = Some q.
Proof.
  revert w w'. induction l as [|y l IH]; intros w w'; destruct w; destruct w'; cbn; intros H; try discriminate; auto.
  - injection H as <-. auto.
  - destruct (IH _ _ H) as [(-> & ->)|]; auto.
Qed.
Lemma upd_alive (l : list runner) r x x' r0 : nth_error l r = Some x -> (expired x = false -> expired x' = false) -> alive_in l r0 -> alive_in (upd l r x') r0.
Proof.
  intros HX HE (y & HY & EY). destruct (Nat.eq_dec r0 r) as [->|N].
  - exists x'. split; [eapply nth_upd_same; eassumption|]. assert (y = x) by congruence. subst y. auto.
  - exists y. split; [|assumption]. revert r r0 HX HY N. clear. induction l as [|z l IH]; intros r r0; destruct r; destruct r0; cbn; intros; try discriminate; try congruence; eauto.
Qed.

Definition kept (s : state) : Prop := forall w r p, nth_error (workers s) w = Some p -> refers r p = true -> alive_in (runners s) r.
Lemma kept_step s s' : step n s s' -> kept s -> kept s'.
Proof.
  intros HS HK. unfold kept in *. split_step HS; try assumption; intros w0 r0 p0 HP HR.
  all: try (match goal with HB : begun _ _ _ _ _ _ _ _ |- _ => pose proof (begun_runner _ _ _ _ _ _ _ _ HB) as (_ & _ & EE) end).
  all: repeat match goal with H : nth_error (upd _ _ _) _ = Some _ |- _ => apply upd_refers in H; destruct H as [(-> & ->)|H] end.
  all: try (apply nth_error_In, repeat_spec in HP; subst p0; discriminate HR).
  all: try (cbn [refers] in HR; discriminate HR).
  all: try (cbn [refers] in HR; apply Nat.eqb_eq in HR; subst).
  all: try (match goal with H : nth_error (workers ?s) _ = Some ?p |- alive_in (runners ?s) ?r =>
    apply (HK _ r p H); cbn [refers]; now rewrite ?Nat.eqb_refl end).
  all: try (eapply HK; eassumption).
  all: try (match goal with H : nth_error (runners ?s) ?r = Some ?x, E : expired ?x = false |- alive_in (runners ?s) ?r => exists x; auto end).
  all: try (eapply upd_alive; [eassumption|cbn [expired]; congruence|]).
  all: try (eapply HK; eassumption).
  all: try (match goal with H : nth_error (workers ?s) _ = Some ?p |- alive_in (runners ?s) ?r =>
    apply (HK _ r p H); cbn [refers]; now rewrite ?Nat.eqb_refl end).
  - destruct (keep s); discriminate HR.
  - destruct (keep s); discriminate HR.
  - destruct (Nat.eq_dec r0 r) as [->|N].
    + exfalso. match goal with H : forallb _ _ = true |- _ => rewrite forallb_forall in H; specialize (H p0 (nth_error_In _ _ HP)); rewrite HR in H; discriminate H end.
    + destruct (HK _ _ _ HP HR) as (y & HY & EY). exists y. split; [|assumption]. now rewrite nth_upd_other by auto.
Qed.

(** A runner is not destroyed while a worker executes one of its tasks or calls its task_complete. *)
Theorem used_is_alive s w r : reaches n kinds s -> uses s w r -> alive s r.
Proof.
  intros HR. change (uses s w r -> alive_in (runners s) r). assert (HK : kept s).
  { induction HR; [|eapply kept_step; eassumption]. intros w0 r0 p0 HP HT. cbn in HP. apply nth_error_In, repeat_spec in HP. subst. discriminate. }
  intros HU. assert (HP : exists p, nth_error (workers s) w = Some p) by (destruct HU as [(i & E)|[E|E]]; eauto).
  destruct HP as (p & HP). eapply HK; [eassumption|]. now apply (refers_uses s w r p HP).
Qed.

(** No task of a runner that is destroyed starts, whatever happens afterwards; nor does it come back. *)
Theorem destroyed_starts_none s s' r : reaches n kinds s -> ~ alive s r -> steps n s s' ->
  ~ alive s' r /\ tasks_of r (start_log s') = tasks_of r (start_log s) /\ forall w, ~ uses s' w r.
Proof.
  intros HR HA HS. induction HS as [s|s s1 s2 HS IH H1].
  - split; [assumption|]. split; [reflexivity|]. intros w HU. exact (HA (used_is_alive _ _ _ HR HU)).
  - destruct (IH HR HA) as (A1 & L1 & U1).
    assert (R1 : reaches n kinds s1) by (clear - HR HS; induction HS; [assumption|eapply r_step; [now apply IHHS|eassumption]]).
    assert (R2 : reaches n kinds s2) by (eapply r_step; eassumption).
    assert (A2 : ~ alive s2 r) by (intros X; exact (A1 (alive_step n s1 s2 r H1 X))).
    split; [assumption|]. split; [|intros w HU; exact (A2 (used_is_alive _ _ _ R2 HU))].
    rewrite <- L1. unfold start_log. clear - H1 A1. change (~ alive_in (runners s1) r) in A1. split_step H1; try reflexivity.
    cbn. rewrite map_app. unfold tasks_of. rewrite filter_app, map_app. cbn [map filter fst]. match goal with |- context [Nat.eqb ?a r] => destruct (Nat.eqb_spec a r) as [->|N] end; [|apply app_nil_r].
    exfalso. apply A1. eexists. split; eassumption.
Qed.
End Alive.

(** The only worker executes a task of runner 0; runner 1 is destroyed meanwhile with a task that waits. *)
Example used_and_destroyed : exists s, reaches 1 [Parallel; Sequenced] s /\ uses s 0 0 /\ alive s 0 /\ ~ alive s 1 /\ In (1, 1) (accepted s) /\ In (1, 1) (tasks s).
Proof.
  start 1 [Parallel; Sequenced] R. next R (c_post_parallel 1 _ 0). next R (c_post_sequenced 1 _ 1). next R (c_post_end 1 _ 1).
  next R (w_loop 1 _ 0). next R (w_pop 1 _ 0). next R (w_check 1 _ 0). next R (w_start 1 _ 0). next R (r_expire 1 _ 1).
  eexists. split; [exact R|]. split; [left; exists 0; reflexivity|]. split; [now eexists; split|].
  split; [intros (x & HX & EX); cbn in HX; injection HX as <-; discriminate|]. split; [right; now left|now left].
Qed.
