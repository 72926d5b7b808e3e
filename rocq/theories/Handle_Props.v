(** C58: sockets of the operating system are owned by one object at a time. *)
From Verif Require Import Common Handle_Model Handle_Spec.
From Coq Require Import Lia.
Open Scope nat_scope.

Lemma upd_same {A} (f : nat -> A) i v : upd f i v i = v.
Proof. unfold upd. now rewrite Nat.eqb_refl. Qed.
Lemma upd_other {A} (f : nat -> A) i v j : j <> i -> upd f i v j = f j.
Proof. intros H. unfold upd. destruct (Nat.eqb_spec j i); congruence. Qed.
Lemma upd_cases {A} (f : nat -> A) i v j : (j = i /\ upd f i v j = v) \/ (j <> i /\ upd f i v j = f j).
Proof. unfold upd. destruct (Nat.eqb_spec j i); auto. Qed.
Ltac upd_at f i v j := let E := fresh "Eu" in let N := fresh "Nu" in destruct (upd_cases f i v j) as [[N E]|[N E]]; rewrite ?E in *.

#[local] Arguments holder : simpl never.
#[local] Arguments resolve : simpl never.
Lemma holder_snoc h e k : holder (h ++ [e]) k = holder_after k (holder h k) e.
Proof. unfold holder. now rewrite fold_left_app. Qed.
Lemma overwritten_app h l k : overwritten h k -> overwritten (h ++ l) k.
Proof. intros (a & i & j & b & E & H). exists a, i, j, (b ++ l). split; [unfold at_ in *; rewrite E, <- app_assoc; reflexivity|assumption]. Qed.

Definition ok (a : list event) (e : event) : Prop :=
  match e with
  | EClose i k => holder a k = Some i
  | ECloseBad _ => False
  | ECall _ i None | EAccept i None => forall k, holder a k <> Some i
  | _ => True
  end.
Definition Good (h : list event) : Prop := forall a e b, h = a ++ e :: b -> ok a e.
Lemma good_snoc h e : Good h -> ok h e -> Good (h ++ [e]).
Proof.
  intros G O a x b E. destruct b as [|y b] using rev_ind.
  - apply app_inj_tail in E. destruct E as [-> ->]. assumption.
  - rewrite app_comm_cons, app_assoc in E. apply app_inj_tail in E. destruct E as [-> _]. now apply (G a x b).
Qed.

(** [x]: an object whose IO mode is not set yet. *)
Record Inv (x : option nat) (s : state) : Prop := {
  v_fd : forall k, k_open (ks s k) = true -> (0 <= k_fd (ks s k))%Z;
  v_ks : forall k, n_ks s <= k -> k_open (ks s k) = false;
  v_unique : forall k l, k_open (ks s k) = true -> k_open (ks s l) = true -> k_fd (ks s k) = k_fd (ks s l) -> k = l;
  v_dead : forall i, o_alive (objs s i) = false -> o_handle (objs s i) = invalid;
  v_objs : forall i, n_objs s <= i -> o_alive (objs s i) = false;
  v_hold : forall k i, holder (hist s) k = Some i ->
    k_open (ks s k) = true /\ k_own (ks s k) = true /\ o_alive (objs s i) = true /\ o_handle (objs s i) = k_fd (ks s k) /\
    (x <> Some i -> k_nonblock (ks s k) = o_async (objs s i)) /\ (o_listening (objs s i) = true -> k_listening (ks s k) = true);
  v_open : forall i, o_handle (objs s i) <> invalid -> exists k, holder (hist s) k = Some i;
  v_lost : forall k, k_own (ks s k) = true -> k_open (ks s k) = true -> holder (hist s) k = None -> overwritten (hist s) k;
  v_id : forall i, o_alive (objs s i) = true -> o_id (objs s i) < next_id s;
  v_ids : forall i j, o_handle (objs s i) <> invalid -> o_handle (objs s j) <> invalid -> o_id (objs s i) = o_id (objs s j) -> i = j;
  v_good : Good (hist s) }.

Section Facts.
Variable x : option nat.
Variable s : state.
Hypothesis I : Inv x s.
Lemma resolve_some h k : resolve s h = Some k <-> k_open (ks s k) = true /\ k_fd (ks s k) = h.
Proof.
  unfold resolve. split.
  - intros E. apply find_some in E. destruct E as [_ E]. apply andb_true_iff in E. destruct E as [-> E]. apply Z.eqb_eq in E. auto.
  - intros [E1 E2]. destruct (find _ _) as [l|] eqn:F.
    + apply find_some in F. destruct F as [_ F]. apply andb_true_iff in F. destruct F as [F1 F2]. apply Z.eqb_eq in F2. f_equal. apply (v_unique x s I); congruence.
    + exfalso. assert (L : k < n_ks s) by (destruct (Nat.lt_ge_cases k (n_ks s)) as [|L]; [assumption|rewrite (v_ks x s I k L) in E1; discriminate]).
      apply find_none with (x := k) in F; [|apply in_seq; lia]. rewrite E1, E2, Z.eqb_refl in F. discriminate.
Qed.
Lemma resolve_none h : resolve s h = None -> forall k, k_open (ks s k) = true -> k_fd (ks s k) <> h.
Proof. intros E k O F. assert (R : resolve s h = Some k) by (apply resolve_some; auto). congruence. Qed.
Lemma resolve_invalid : resolve s invalid = None.
Proof. destruct (resolve s invalid) as [k|] eqn:E; [|reflexivity]. apply resolve_some in E. destruct E as [E1 E2]. pose proof (v_fd x s I k E1). unfold invalid in *. lia. Qed.
Lemma holds_handle k i : holder (hist s) k = Some i -> o_handle (objs s i) <> invalid /\ resolve s (o_handle (objs s i)) = Some k.
Proof.
  intros H. destruct (v_hold x s I k i H) as (O & _ & _ & E & _). split.
  - pose proof (v_fd x s I k O). unfold invalid. lia.
  - rewrite resolve_some. auto.
Qed.
Lemma open_resolves i : o_handle (objs s i) <> invalid -> exists k, resolve s (o_handle (objs s i)) = Some k /\ holder (hist s) k = Some i.
Proof. intros H. destruct (v_open x s I i H) as (k & E). exists k. split; [now apply holds_handle|assumption]. Qed.
Lemma resolves_to_held i k : resolve s (o_handle (objs s i)) = Some k -> holder (hist s) k = Some i.
Proof.
  intros E. destruct (Z.eq_dec (o_handle (objs s i)) invalid) as [EI|NI]; [rewrite EI, resolve_invalid in E; discriminate|].
  destruct (open_resolves i NI) as (l & E' & H). congruence.
Qed.
Lemma open_alive i : o_handle (objs s i) <> invalid -> o_alive (objs s i) = true.
Proof. intros H. destruct (o_alive (objs s i)) eqn:E; [reflexivity|]. apply (v_dead x s I) in E. contradiction. Qed.
Lemma one_socket k l i : holder (hist s) k = Some i -> holder (hist s) l = Some i -> k = l.
Proof. intros A B. apply holds_handle in A. apply holds_handle in B. destruct A, B. congruence. Qed.
End Facts.

Lemma find_none_iff_ext {A} (f g : A -> bool) l : (forall a, In a l -> f a = g a) -> find f l = find g l.
Proof. induction l as [|a l IH]; [reflexivity|]. intros H. cbn. rewrite (H a (or_introl eq_refl)), IH; [reflexivity|]. intros b HB. apply H. now right. Qed.
Lemma find_app {A} (f : A -> bool) a b : find f (a ++ b) = match find f a with Some x => Some x | None => find f b end.
Proof. induction a as [|x a IH]; [reflexivity|]. cbn. destruct (f x); auto. Qed.

(** * The functions keep the invariant *)
Lemma inv_weaken s y : Inv None s -> Inv y s.
Proof. intros []. constructor; auto. intros k i H. destruct (v_hold0 k i H) as (A & B & C & D & E & F). split; [assumption|]. split; [assumption|]. split; [assumption|]. split; [assumption|]. split; [intros _; apply E; discriminate|assumption]. Qed.
Lemma inv_ext x s s' : Inv x s -> ks s' = ks s -> n_ks s' = n_ks s -> objs s' = objs s -> n_objs s' = n_objs s -> next_id s' = next_id s -> hist s' = hist s -> Inv x s'.
Proof. intros [] E1 E2 E3 E4 E5 E6. constructor; rewrite ?E1, ?E2, ?E3, ?E4, ?E5, ?E6; assumption. Qed.
Definition neutral (e : event) : Prop := forall k o, holder_after k o e = o.
Lemma inv_log x s e : Inv x s -> neutral e -> ok (hist s) e -> Inv x (log s [e]).
Proof.
  intros [] N O. assert (HS : forall k, holder (hist s ++ [e]) k = holder (hist s) k) by (intros k; rewrite holder_snoc; apply N).
  constructor; cbn; auto.
  - intros k i. rewrite HS. apply v_hold0.
  - intros i H. destruct (v_open0 i H) as (k & E). exists k. now rewrite HS.
  - intros k. rewrite HS. intros. apply overwritten_app; auto.
  - now apply good_snoc.
Qed.
(** An object is changed in what does not matter here. *)
Lemma inv_set_obj x s i o : Inv x s -> o_alive o = o_alive (objs s i) -> o_handle o = o_handle (objs s i) -> o_id o = o_id (objs s i) -> o_async o = o_async (objs s i) ->
  (o_listening o = true -> o_listening (objs s i) = true) -> Inv x (set_obj s i o).
Proof.
  intros [] A H D M L.
  assert (E : forall j, o_alive (upd (objs s) i o j) = o_alive (objs s j) /\ o_handle (upd (objs s) i o j) = o_handle (objs s j) /\ o_id (upd (objs s) i o j) = o_id (objs s j) /\
    o_async (upd (objs s) i o j) = o_async (objs s j) /\ (o_listening (upd (objs s) i o j) = true -> o_listening (objs s j) = true)).
  { intros j. upd_at (objs s) i o j; [subst j|]; auto. }
  constructor; cbn; auto.
  - intros j. destruct (E j) as (-> & -> & _). apply v_dead0.
  - intros j. destruct (E j) as (-> & _). apply v_objs0.
  - intros k j HK. destruct (E j) as (-> & -> & _ & -> & EL). destruct (v_hold0 k j HK) as (? & ? & ? & ? & ? & ?). repeat (split; [assumption|]). auto.
  - intros j. destruct (E j) as (_ & -> & _). apply v_open0.
  - intros j. destruct (E j) as (-> & _ & -> & _). apply v_id0.
  - intros j l. destruct (E j) as (_ & -> & -> & _). destruct (E l) as (_ & -> & -> & _). apply v_ids0.
Qed.
Lemma inv_close x s i : Inv x s -> Inv (if match x with Some j => Nat.eqb j i | None => false end then None else x) (close s i) /\
  o_handle (objs (close s i) i) = invalid /\ (forall j, j <> i -> objs (close s i) j = objs s j) /\
  o_alive (objs (close s i) i) = o_alive (objs s i) /\ o_id (objs (close s i) i) = o_id (objs s i) /\ o_async (objs (close s i) i) = o_async (objs s i) /\
  o_kind (objs (close s i) i) = o_kind (objs s i) /\ o_listening (objs (close s i) i) = o_listening (objs s i) /\ o_conn (objs (close s i) i) = o_conn (objs s i) /\
  n_objs (close s i) = n_objs s /\ next_id (close s i) = next_id s /\ service (close s i) = service s /\ next_call (close s i) = next_call s /\ n_ks (close s i) = n_ks s.
Proof.
  intros I. unfold close. destruct (Z.eqb_spec (o_handle (objs s i)) invalid) as [E|N].
  { split; [|auto 20]. destruct x as [j|]; [|assumption]. destruct (Nat.eqb_spec j i) as [->|]; [|assumption].
    destruct I. constructor; auto. intros k l HK. destruct (v_hold0 k l HK) as (A & B & C & D & F & G). split; [assumption|]. split; [assumption|]. split; [assumption|]. split; [assumption|]. split; [|assumption].
    intros _. apply F. intros EI. injection EI as ->. pose proof (v_fd0 k A). rewrite E in D. unfold invalid in D. lia. }
  destruct (open_resolves x s I i N) as (k & R & H). pose proof (open_alive x s I i N) as AL. destruct (v_hold x s I k i H) as (HO & HW & _ & HF & _).
  set (s1 := if has_service s i then remove_socket s (o_handle (objs s i)) else s).
  assert (E1 : ks s1 = ks s /\ n_ks s1 = n_ks s /\ objs s1 = objs s /\ n_objs s1 = n_objs s /\ next_id s1 = next_id s /\ hist s1 = hist s /\ service s1 = service s /\ next_call s1 = next_call s /\ resolve s1 (o_handle (objs s i)) = Some k).
  { subst s1. destruct (has_service s i); auto 20. } clearbody s1. destruct E1 as (E1 & E2 & E3 & E4 & E5 & E6 & E7 & E8 & E9).
  unfold os_close. rewrite E9. unfold kernel_close, set_ks, log, set_obj. cbn [n_ks ks n_objs objs next_id requests service next_call hist].
  rewrite E1, E2, E3, E4, E5, E6, E7, E8, ?upd_same. split; [|].
  2:{ cbn. repeat split. intros j NJ. now rewrite upd_other. }
  assert (HS : forall l, holder (hist s ++ [EClose i k]) l = if Nat.eqb k l then None else holder (hist s) l) by (intros l; rewrite holder_snoc; reflexivity).
  destruct I as [A1 A2 A3 A4 A5 A6 A7 A8 A9 A10 A11].
  set (k' := Ksock (k_fd (ks s k)) false (k_own (ks s k)) (k_nonblock (ks s k)) (k_listening (ks s k))).
  assert (K1 : forall l, k_open (upd (ks s) k k' l) = true -> l <> k /\ upd (ks s) k k' l = ks s l).
  { intros l. upd_at (ks s) k k' l; [discriminate|auto]. }
  constructor; cbn [n_ks ks n_objs objs next_id hist]; cbn; rewrite ?E1, ?E2, ?E3, ?E4, ?E5, ?E6; fold k'.
  - intros l HL. destruct (K1 l HL) as [_ EL]. rewrite EL in *. auto.
  - intros l HL. upd_at (ks s) k k' l; [reflexivity|auto].
  - intros l l' HL HL'. destruct (K1 l HL) as [_ EL], (K1 l' HL') as [_ EL']. rewrite EL, EL' in *. auto.
  - intros j. upd_at (objs s) i (with_handle (objs s i) invalid) j; [reflexivity|auto].
  - intros j HJ. upd_at (objs s) i (with_handle (objs s i) invalid) j; [subst j; cbn; apply A5; assumption|auto].
  - intros l j. rewrite HS. destruct (Nat.eqb_spec k l) as [|NK]; [discriminate|]. intros HL. destruct (A6 l j HL) as (B1 & B2 & B3 & B4 & B5 & B6).
    rewrite upd_other by congruence.
    assert (NJ : j <> i). { intros ->. apply NK. apply A3; [assumption|assumption|congruence]. }
    rewrite upd_other by assumption. split; [assumption|]. split; [assumption|]. split; [assumption|]. split; [assumption|]. split; [|assumption].
    intros NX. apply B5. intros ->. destruct (Nat.eqb_spec j i); congruence.
  - intros j HJ. upd_at (objs s) i (with_handle (objs s i) invalid) j; [now contradiction HJ|]. destruct (A7 j HJ) as (l & HL). exists l. rewrite HS. destruct (Nat.eqb_spec k l) as [->|]; [congruence|assumption].
  - intros l. upd_at (ks s) k k' l; [intros _ F; discriminate F|]. intros W O. rewrite HS. destruct (Nat.eqb_spec k l); [congruence|]. intros HN. apply overwritten_app. auto.
  - intros j. upd_at (objs s) i (with_handle (objs s i) invalid) j; [subst j; cbn|]; apply A9.
  - intros j l. upd_at (objs s) i (with_handle (objs s i) invalid) j; [intros F; now contradiction F|]. upd_at (objs s) i (with_handle (objs s i) invalid) l; [intros _ F; now contradiction F|]. apply A10.
  - apply good_snoc; [assumption|exact H].
Qed.
(** What stays the same in the objects other than [i], and how many there are. *)
Definition others (i : nat) (s s' : state) : Prop := forall j, j <> i -> objs s' j = objs s j.
Lemma inv_io_mode x s i async ok : Inv x s -> x = None \/ x = Some i -> Inv None (set_io_mode s i async ok).
Proof.
  intros I HX. unfold set_io_mode.
  assert (HC : Inv None (close s i)).
  { pose proof (proj1 (inv_close x s i I)) as HC. destruct HX as [->| ->]; [exact HC|]. rewrite Nat.eqb_refl in HC. exact HC. }
  destruct (resolve s (o_handle (objs s i))) as [k|] eqn:R; [|exact HC]. destruct ok; [|exact HC]. clear HC.
  pose proof (resolves_to_held x s I i k R) as H. destruct (v_hold x s I k i H) as (HO & HW & AL & HF & _ & HL). pose proof (one_socket x s I) as ONE.
  destruct I as [A1 A2 A3 A4 A5 A6 A7 A8 A9 A10 A11].
  set (k' := Ksock (k_fd (ks s k)) (k_open (ks s k)) (k_own (ks s k)) async (k_listening (ks s k))).
  set (o' := Obj (o_alive (objs s i)) (o_kind (objs s i)) (o_handle (objs s i)) (o_service (objs s i)) (o_id (objs s i)) async (o_listening (objs s i)) (o_conn (objs s i))).
  assert (K : forall l, k_open (upd (ks s) k k' l) = k_open (ks s l) /\ k_fd (upd (ks s) k k' l) = k_fd (ks s l) /\ k_own (upd (ks s) k k' l) = k_own (ks s l) /\
    k_listening (upd (ks s) k k' l) = k_listening (ks s l)) by (intros l; upd_at (ks s) k k' l; [subst l; cbn|]; auto).
  assert (O : forall j, o_alive (upd (objs s) i o' j) = o_alive (objs s j) /\ o_handle (upd (objs s) i o' j) = o_handle (objs s j) /\ o_id (upd (objs s) i o' j) = o_id (objs s j) /\
    o_listening (upd (objs s) i o' j) = o_listening (objs s j)) by (intros j; upd_at (objs s) i o' j; [subst j; cbn|]; auto).
  constructor; cbn [set_obj set_ks n_ks ks n_objs objs next_id hist]; fold k'; fold o'.
  - intros l. destruct (K l) as (-> & -> & _). apply A1.
  - intros l. destruct (K l) as (-> & _). apply A2.
  - intros l m. destruct (K l) as (-> & -> & _). destruct (K m) as (-> & -> & _). apply A3.
  - intros j. destruct (O j) as (-> & -> & _). apply A4.
  - intros j. destruct (O j) as (-> & _). apply A5.
  - intros l j HH. destruct (K l) as (-> & -> & -> & ->). destruct (O j) as (-> & -> & _ & ->). destruct (A6 l j HH) as (B1 & B2 & B3 & B4 & B5 & B6).
    repeat (split; [assumption|]). split; [|assumption]. intros _. destruct (Nat.eq_dec j i) as [->|NJ].
    + rewrite (ONE l k i HH H), !upd_same. reflexivity.
    + rewrite !upd_other by congruence. apply B5. destruct HX; congruence.
  - intros j. destruct (O j) as (_ & -> & _). apply A7.
  - intros l. destruct (K l) as (-> & _ & -> & _). apply A8.
  - intros j. destruct (O j) as (-> & _ & -> & _). apply A9.
  - intros j l. destruct (O j) as (_ & -> & -> & _). destruct (O l) as (_ & -> & -> & _). apply A10.
  - exact A11.
Qed.
Lemma io_mode_facts x s i async ok : Inv x s -> let s' := set_io_mode s i async ok in
  others i s s' /\ o_alive (objs s' i) = o_alive (objs s i) /\ o_id (objs s' i) = o_id (objs s i) /\ o_kind (objs s' i) = o_kind (objs s i) /\
  o_listening (objs s' i) = o_listening (objs s i) /\ o_conn (objs s' i) = o_conn (objs s i) /\ (o_handle (objs s' i) = invalid \/ o_handle (objs s' i) = o_handle (objs s i) /\ o_async (objs s' i) = async) /\
  (o_async (objs s i) = async -> o_async (objs s' i) = async) /\
  n_objs s' = n_objs s /\ next_id s' = next_id s /\ service s' = service s /\ next_call s' = next_call s /\ n_ks s' = n_ks s.
Proof.
  intros I. unfold set_io_mode. destruct (inv_close x s i I) as (_ & C1 & C2 & C3 & C4 & C5 & C6 & C7 & C8 & C9 & C10 & C11 & C12 & C13).
  assert (HC : let s' := close s i in others i s s' /\ o_alive (objs s' i) = o_alive (objs s i) /\ o_id (objs s' i) = o_id (objs s i) /\ o_kind (objs s' i) = o_kind (objs s i) /\
    o_listening (objs s' i) = o_listening (objs s i) /\ o_conn (objs s' i) = o_conn (objs s i) /\ (o_handle (objs s' i) = invalid \/ o_handle (objs s' i) = o_handle (objs s i) /\ o_async (objs s' i) = async) /\
    (o_async (objs s i) = async -> o_async (objs s' i) = async) /\
    n_objs s' = n_objs s /\ next_id s' = next_id s /\ service s' = service s /\ next_call s' = next_call s /\ n_ks s' = n_ks s) by (cbn zeta; rewrite C5; auto 20).
  destruct (resolve s (o_handle (objs s i))) as [k|]; [|exact HC]. destruct ok; [|exact HC]. clear HC. cbn. rewrite upd_same. cbn. repeat (split; [auto|]); auto.
  intros j NJ. cbn. now rewrite upd_other.
Qed.

Lemma resolve_new s h b : unused s h -> resolve (kernel_socket s h b) h = Some (n_ks s).
Proof.
  intros [U1 U2]. unfold resolve in *. cbn [kernel_socket n_ks ks]. rewrite seq_S. cbn [Nat.add].
  assert (FN : find (fun k => k_open (upd (ks s) (n_ks s) (Ksock h true b false false) k) && (k_fd (upd (ks s) (n_ks s) (Ksock h true b false false) k) =? h)%Z) (seq 0 (n_ks s)) = None).
  { rewrite <- U2. apply find_none_iff_ext. intros k HK. apply in_seq in HK. rewrite upd_other by lia. reflexivity. }
  rewrite find_app, FN. cbn. rewrite upd_same. cbn. now rewrite Z.eqb_refl.
Qed.
(** The first part of a constructor. *)
Lemma inv_built s kd async conn (made : option Z) : Inv None s -> match made with Some h => unused s h | None => True end ->
  let h := match made with Some h => h | None => invalid end in
  let s0 := match made with Some h => kernel_socket s h true | None => s end in
  let s1 := State (n_ks s0) (ks s0) (S (n_objs s)) (upd (objs s0) (n_objs s) (Obj true kd h false (next_id s0) async false conn)) (S (next_id s0)) (requests s0) (service s0) (next_call s0)
    (hist s0 ++ match resolve s0 h with Some k => [EOpen k (n_objs s)] | None => [] end) in
  Inv (Some (n_objs s)) s1.
Proof.
  intros I U h s0 s1. set (i := n_objs s) in *.
  assert (E0 : objs s0 = objs s /\ n_objs s0 = n_objs s /\ next_id s0 = next_id s /\ service s0 = service s /\ next_call s0 = next_call s /\ hist s0 = hist s) by (subst s0; destruct made; auto 10).
  destruct E0 as (E1 & E2 & E3 & E4 & E5 & E6).
  assert (NI : holder (hist s) (n_ks s) = None).
  { destruct (holder (hist s) (n_ks s)) as [j|] eqn:H; [|reflexivity]. apply (v_hold None s I) in H. rewrite (v_ks None s I) in H by lia. destruct H as [H _]. discriminate. }
  assert (HI : forall k, holder (hist s) k <> Some i).
  { intros k H. destruct (v_hold None s I _ _ H) as (_ & _ & H' & _). rewrite (v_objs None s I i (Nat.le_refl _)) in H'. discriminate. }
  assert (HD : o_handle (objs s i) = invalid) by (apply (v_dead None s I), (v_objs None s I), Nat.le_refl).
pose proof (resolve_invalid None s I) as RI. destruct I as [A1 A2 A3 A4 A5 A6 A7 A8 A9 A10 A11]. set (o' := Obj true kd h false (next_id s) async false conn). destruct made as [h'|].
  - assert (R : resolve s0 h = Some (n_ks s)) by (apply resolve_new, U).
      subst s1. rewrite R. destruct U as [U1 U2]. subst s0 h. cbn [kernel_socket n_ks ks objs n_objs next_id requests service next_call hist]. fold o'.
      set (k' := Ksock h' true true false false).
      assert (HS : forall l, holder (hist s ++ [EOpen (n_ks s) i]) l = if Nat.eqb (n_ks s) l then Some i else holder (hist s) l) by (intros l; rewrite holder_snoc; reflexivity).
      assert (FR : forall l, k_open (ks s l) = true -> k_fd (ks s l) <> h').
      { intros l OL EL. assert (LL : l < n_ks s) by (destruct (Nat.lt_ge_cases l (n_ks s)) as [|L]; [assumption|rewrite (A2 l L) in OL; discriminate]).
        unfold resolve in U2. apply find_none with (x := l) in U2; [|apply in_seq; lia]. rewrite OL, EL, Z.eqb_refl in U2. discriminate. }
      constructor; cbn [n_ks ks n_objs objs next_id hist].
      + intros l. upd_at (ks s) (n_ks s) k' l; [intros _; exact U1|apply A1].
      + intros l HL. rewrite upd_other by lia. apply A2. lia.
      + intros l m. upd_at (ks s) (n_ks s) k' l; upd_at (ks s) (n_ks s) k' m; cbn; intros OL OM EF; [congruence|exfalso; now apply (FR m OM)|exfalso; now apply (FR l OL)|auto].
      + intros j. upd_at (objs s) i o' j; [intros F; discriminate F|apply A4].
      + intros j HJ. rewrite upd_other by (subst i; lia). apply A5. subst i; lia.
      + intros l j. rewrite HS. destruct (Nat.eqb_spec (n_ks s) l) as [<-|NL].
        * intros E. injection E as <-. rewrite !upd_same. cbn. repeat split; congruence.
        * intros H. rewrite (upd_other (ks s)) by congruence. assert (NJ : j <> i) by (intros ->; exact (HI l H)). rewrite upd_other by assumption.
          destruct (A6 l j H) as (B1 & B2 & B3 & B4 & B5 & B6). repeat (split; [assumption|]). split; [|assumption]. intros _. apply B5. discriminate.
      + intros j. upd_at (objs s) i o' j.
        * intros _. exists (n_ks s). rewrite HS, Nat.eqb_refl. now subst j.
        * intros HJ. destruct (A7 j HJ) as (l & HL). exists l. rewrite HS. destruct (Nat.eqb_spec (n_ks s) l) as [<-|]; [congruence|assumption].
      + intros l. rewrite HS. destruct (Nat.eqb_spec (n_ks s) l) as [<-|NL]; [discriminate|]. rewrite upd_other by congruence. intros. apply overwritten_app. auto.
      + intros j. upd_at (objs s) i o' j; [cbn; intros _; lia|intros HJ; apply A9 in HJ; lia].
      + intros j l. upd_at (objs s) i o' j; upd_at (objs s) i o' l; cbn; intros HJ HL EI; [congruence| | |auto].
        * assert (AL : o_alive (objs s l) = true) by (destruct (o_alive (objs s l)) eqn:EA; [reflexivity|apply A4 in EA; contradiction]). apply A9 in AL. lia.
        * assert (AL : o_alive (objs s j) = true) by (destruct (o_alive (objs s j)) eqn:EA; [reflexivity|apply A4 in EA; contradiction]). apply A9 in AL. lia.
      + apply good_snoc; [assumption|exact Logic.I].
    - subst s1 s0 h. rewrite RI, app_nil_r. fold o'. constructor; cbn [n_ks ks n_objs objs next_id hist]; auto.
      + intros j. upd_at (objs s) i o' j; [intros F; discriminate F|apply A4].
      + intros j HJ. rewrite upd_other by (subst i; lia). apply A5. subst i; lia.
      + intros l j H. assert (NJ : j <> i) by (intros ->; exact (HI l H)). rewrite upd_other by assumption.
        destruct (A6 l j H) as (B1 & B2 & B3 & B4 & B5 & B6). repeat (split; [assumption|]). split; [|assumption]. intros _. apply B5. discriminate.
      + intros j. upd_at (objs s) i o' j; [intros HJ; now contradiction HJ|apply A7].
      + intros j. upd_at (objs s) i o' j; [cbn; intros _; lia|intros HJ; apply A9 in HJ; lia].
      + intros j l. upd_at (objs s) i o' j; [intros HJ; now contradiction HJ|]. upd_at (objs s) i o' l; [intros _ HJ; now contradiction HJ|]. apply A10.
Qed.
Lemma inv_construct s kd svc async ok conn (made : option Z) : Inv None s -> match made with Some h => unused s h | None => True end ->
  let s' := match made with Some h => construct (kernel_socket s h true) kd h svc async ok conn | None => construct s kd invalid svc async ok conn end in
  Inv None s' /\ others (n_objs s) s s' /\ o_alive (objs s' (n_objs s)) = true /\ o_kind (objs s' (n_objs s)) = kd /\ o_service (objs s' (n_objs s)) = svc /\ o_async (objs s' (n_objs s)) = async /\
  o_conn (objs s' (n_objs s)) = conn /\ o_id (objs s' (n_objs s)) = next_id s /\ o_listening (objs s' (n_objs s)) = false /\ n_objs s' = S (n_objs s) /\ service s' = service s /\ next_call s' = next_call s /\
  (made = None -> o_handle (objs s' (n_objs s)) = invalid) /\ (forall h, made = Some h -> o_handle (objs s' (n_objs s)) = h \/ o_handle (objs s' (n_objs s)) = invalid).
Proof.
  intros I U. set (i := n_objs s). set (h := match made with Some h => h | None => invalid end).
  set (s0 := match made with Some h => kernel_socket s h true | None => s end).
  assert (E0 : objs s0 = objs s /\ n_objs s0 = n_objs s /\ next_id s0 = next_id s /\ service s0 = service s /\ next_call s0 = next_call s /\ hist s0 = hist s) by (subst s0; destruct made; auto 10).
  destruct E0 as (E1 & E2 & E3 & E4 & E5 & E6).
  set (s1 := State (n_ks s0) (ks s0) (S i) (upd (objs s0) i (Obj true kd h false (next_id s0) async false conn)) (S (next_id s0)) (requests s0) (service s0) (next_call s0)
    (hist s0 ++ match resolve s0 h with Some k => [EOpen k i] | None => [] end)).
  pose proof (inv_built s kd async conn made I U) as I1. cbn zeta in I1. fold i in I1. fold s0 in I1. fold h in I1. fold s1 in I1.
  assert (EC : match made with Some h => construct (kernel_socket s h true) kd h svc async ok conn | None => construct s kd invalid svc async ok conn end =
    let s2 := set_io_mode s1 i async ok in
    set_obj s2 i (Obj (o_alive (objs s2 i)) (o_kind (objs s2 i)) (o_handle (objs s2 i)) svc (o_id (objs s2 i)) (o_async (objs s2 i)) (o_listening (objs s2 i)) (o_conn (objs s2 i)))).
  { subst s1 s0 h. destruct made; reflexivity. }
  cbn zeta in EC |- *. rewrite EC. clear EC.
  pose proof (inv_io_mode _ s1 i async ok I1 (or_intror eq_refl)) as I2. destruct (io_mode_facts _ s1 i async ok I1) as (F1 & F2 & F3 & F4 & F5 & F6 & F7 & F8 & F9 & F10 & F11 & F12 & F13).
  set (s2 := set_io_mode s1 i async ok) in *. clearbody s2.
  assert (OI : objs s1 i = Obj true kd h false (next_id s) async false conn) by (subst s1; cbn; now rewrite upd_same, E3).
  rewrite OI in *. cbn [o_alive o_kind o_handle o_id o_async o_listening o_conn] in *.
  split; [apply inv_set_obj; auto|]. cbn [set_obj objs n_objs service next_call]. rewrite !upd_same. cbn [o_alive o_kind o_handle o_service o_id o_async o_listening o_conn].
  split; [intros j NJ; cbn [objs set_obj]; rewrite upd_other by assumption; rewrite (F1 j NJ); subst s1; cbn [objs]; rewrite upd_other by assumption; now rewrite E1|].
  split; [assumption|]. split; [assumption|]. split; [reflexivity|]. split; [now apply F8|]. split; [assumption|]. split; [assumption|]. split; [assumption|].
  split; [rewrite F9; reflexivity|]. split; [rewrite F11; subst s1; cbn; assumption|]. split; [rewrite F12; subst s1; cbn; assumption|].
  subst h. split; [intros ->; destruct F7 as [|[F7 _]]; assumption|]. intros h' ->. destruct F7 as [|[F7 _]]; auto.
Qed.
Lemma inv_move s i j n rq sv nc : Inv None s -> alive s i -> i <> j -> n_objs s <= n -> j < n ->
  Inv None (State (n_ks s) (ks s) n (upd (upd (objs s) j (moved_into (objs s i))) i (moved_from (objs s i))) (next_id s) rq sv nc (hist s ++ [EMove i j])).
Proof.
  intros I AL NE LN LJ. pose proof (one_socket None s I) as ONE. destruct I as [A1 A2 A3 A4 A5 A6 A7 A8 A9 A10 A11]. unfold alive in AL.
  set (f := upd (upd (objs s) j (moved_into (objs s i))) i (moved_from (objs s i))).
  assert (FI : f i = moved_from (objs s i)) by (unfold f; now rewrite upd_same).
  assert (FJ : f j = moved_into (objs s i)) by (unfold f; rewrite upd_other by congruence; now rewrite upd_same).
  assert (FO : forall l, l <> i -> l <> j -> f l = objs s l) by (intros l N1 N2; unfold f; now rewrite !upd_other).
  clearbody f.
  assert (HS : forall k, holder (hist s ++ [EMove i j]) k = match holder (hist s) k with Some x => if Nat.eqb x j then None else if Nat.eqb x i then Some j else Some x | None => None end) by (intros k; rewrite holder_snoc; reflexivity).
  assert (CASE : forall l, l = i \/ l = j \/ (l <> i /\ l <> j)) by (intros l; destruct (Nat.eq_dec l i), (Nat.eq_dec l j); auto).
  constructor; cbn [n_ks ks n_objs objs next_id hist]; try assumption.
  - intros l. destruct (CASE l) as [->|[->|[N1 N2]]]; [now rewrite FI|rewrite FJ; cbn; discriminate|rewrite FO by assumption; apply A4].
  - intros l HL. destruct (CASE l) as [->|[->|[N1 N2]]]; [|lia|rewrite FO by assumption; apply A5; lia]. rewrite (A5 i) in AL by lia. discriminate.
  - intros k l. rewrite HS. destruct (holder (hist s) k) as [x|] eqn:H; [|discriminate]. destruct (Nat.eqb_spec x j) as [|NJ]; [discriminate|].
    destruct (A6 k x H) as (B1 & B2 & B3 & B4 & B5 & B6). destruct (Nat.eqb_spec x i) as [->|NI]; intros E; injection E as <-.
    + rewrite FJ. cbn. repeat split; auto. intros _. apply B5. discriminate.
    + rewrite FO by assumption. repeat split; auto.
  - intros l. destruct (CASE l) as [->|[->|[N1 N2]]]; [rewrite FI; intros F; now contradiction F| |].
    + rewrite FJ. cbn. intros HL. destruct (A7 i HL) as (k & E). exists k. rewrite HS, E. destruct (Nat.eqb_spec i j); [contradiction|]. now rewrite Nat.eqb_refl.
    + rewrite FO by assumption. intros HL. destruct (A7 l HL) as (k & E). exists k. rewrite HS, E. destruct (Nat.eqb_spec l j); [contradiction|]. destruct (Nat.eqb_spec l i); [contradiction|]. reflexivity.
  - intros k W O. rewrite HS. destruct (holder (hist s) k) as [x|] eqn:H.
    + destruct (Nat.eqb_spec x j) as [->|]; [|destruct (Nat.eqb x i); discriminate]. intros _. exists (hist s), i, j, []. split; [reflexivity|assumption].
    + intros _. apply overwritten_app. auto.
  - intros l. destruct (CASE l) as [->|[->|[N1 N2]]]; [rewrite FI; cbn; auto|rewrite FJ; cbn; auto|rewrite FO by assumption; apply A9].
  - intros l m. destruct (CASE l) as [->|[->|[N1 N2]]]; [rewrite FI; intros F; now contradiction F| |].
    + rewrite FJ. destruct (CASE m) as [->|[->|[M1 M2]]]; [rewrite FI; intros _ F; now contradiction F|auto|rewrite FO by assumption; cbn; intros HL HM E].
      exfalso. apply M1. symmetry. auto.
    + rewrite FO by assumption. destruct (CASE m) as [->|[->|[M1 M2]]]; [rewrite FI; intros _ F; now contradiction F|rewrite FJ; cbn; intros HL HM E|rewrite FO by assumption; auto].
      exfalso. apply N1. auto.
  - apply good_snoc; [assumption|exact Logic.I].
Qed.
Lemma inv_self s i svc : Inv None s -> alive s i -> Inv None (self_assign s i svc).
Proof.
  intros I AL. destruct I as [A1 A2 A3 A4 A5 A6 A7 A8 A9 A10 A11]. unfold alive in AL. unfold self_assign, log, set_obj.
  set (o' := Obj (o_alive (objs s i)) (o_kind (objs s i)) invalid svc (o_id (objs s i)) (o_async (objs s i)) false (o_conn (objs s i))).
  assert (HS : forall k, holder (hist s ++ [EMove i i]) k = match holder (hist s) k with Some x => if Nat.eqb x i then None else if Nat.eqb x i then Some i else Some x | None => None end) by (intros k; rewrite holder_snoc; reflexivity).
  constructor; cbn [n_ks ks n_objs objs next_id hist]; try assumption.
  - intros l. upd_at (objs s) i o' l; [reflexivity|apply A4].
  - intros l HL. upd_at (objs s) i o' l; [subst l; rewrite (A5 i HL) in AL; discriminate|auto].
  - intros k l. rewrite HS. destruct (holder (hist s) k) as [x|] eqn:H; [|discriminate]. destruct (Nat.eqb_spec x i) as [|NI]; [discriminate|]. intros E. injection E as <-. rewrite upd_other by assumption. auto.
  - intros l. upd_at (objs s) i o' l; [intros F; now contradiction F|]. intros HL. destruct (A7 l HL) as (k & E). exists k. rewrite HS, E. destruct (Nat.eqb_spec l i); [contradiction|reflexivity].
  - intros k W O. rewrite HS. destruct (holder (hist s) k) as [x|] eqn:H.
    + destruct (Nat.eqb_spec x i) as [->|]; [|discriminate]. intros _. exists (hist s), i, i, []. split; [reflexivity|assumption].
    + intros _. apply overwritten_app. auto.
  - intros l. upd_at (objs s) i o' l; [subst l; cbn; auto|apply A9].
  - intros l m. upd_at (objs s) i o' l; [intros F; now contradiction F|]. upd_at (objs s) i o' m; [intros _ F; now contradiction F|]. apply A10.
  - apply good_snoc; [assumption|exact Logic.I].
Qed.
Lemma inv_dead s i o : Inv None s -> o_handle (objs s i) = invalid -> o_handle o = invalid -> o_alive o = false -> Inv None (set_obj s i o).
Proof.
  intros I HI HO HA.
  assert (HN : forall k, holder (hist s) k <> Some i) by (intros k H; apply (holds_handle None s I) in H; destruct H; contradiction).
  destruct I as [A1 A2 A3 A4 A5 A6 A7 A8 A9 A10 A11]. constructor; cbn [set_obj n_ks ks n_objs objs next_id hist]; try assumption.
  - intros l. upd_at (objs s) i o l; auto.
  - intros l HL. upd_at (objs s) i o l; auto.
  - intros k l H. rewrite upd_other by (intros ->; exact (HN k H)). auto.
  - intros l. upd_at (objs s) i o l; [intros; contradiction|auto].
  - intros l. upd_at (objs s) i o l; [congruence|auto].
  - intros l m. upd_at (objs s) i o l; [intros; contradiction|]. upd_at (objs s) i o m; [intros; contradiction|]. auto.
Qed.
Lemma inv_listen s i b : Inv None s -> Inv None (listen s i b).
Proof.
  intros I. unfold listen.
  assert (HF : Inv None (log (set_obj s i (Obj (o_alive (objs s i)) (o_kind (objs s i)) (o_handle (objs s i)) (o_service (objs s i)) (o_id (objs s i)) (o_async (objs s i)) false (o_conn (objs s i)))) [EListen i false])).
  { apply inv_log; [apply inv_set_obj; auto; discriminate|intros k o; reflexivity|exact Logic.I]. }
  destruct (resolve s (o_handle (objs s i))) as [k|] eqn:R; [|exact HF]. destruct b; [|exact HF]. clear HF.
  pose proof (resolves_to_held None s I i k R) as H. pose proof (one_socket None s I) as ONE.
  apply inv_log; [|intros l o; reflexivity|exact Logic.I]. destruct I as [A1 A2 A3 A4 A5 A6 A7 A8 A9 A10 A11].
  set (k' := Ksock (k_fd (ks s k)) (k_open (ks s k)) (k_own (ks s k)) (k_nonblock (ks s k)) true).
  set (o' := Obj (o_alive (objs s i)) (o_kind (objs s i)) (o_handle (objs s i)) (o_service (objs s i)) (o_id (objs s i)) (o_async (objs s i)) true (o_conn (objs s i))).
  assert (K : forall l, k_open (upd (ks s) k k' l) = k_open (ks s l) /\ k_fd (upd (ks s) k k' l) = k_fd (ks s l) /\ k_own (upd (ks s) k k' l) = k_own (ks s l) /\
    k_nonblock (upd (ks s) k k' l) = k_nonblock (ks s l)) by (intros l; upd_at (ks s) k k' l; [subst l; cbn|]; auto).
  assert (O : forall j, o_alive (upd (objs s) i o' j) = o_alive (objs s j) /\ o_handle (upd (objs s) i o' j) = o_handle (objs s j) /\ o_id (upd (objs s) i o' j) = o_id (objs s j) /\
    o_async (upd (objs s) i o' j) = o_async (objs s j)) by (intros j; upd_at (objs s) i o' j; [subst j; cbn|]; auto).
  constructor; cbn [set_obj set_ks n_ks ks n_objs objs next_id hist]; fold k'; fold o'.
  - intros l. destruct (K l) as (-> & -> & _). apply A1.
  - intros l. destruct (K l) as (-> & _). apply A2.
  - intros l m. destruct (K l) as (-> & -> & _). destruct (K m) as (-> & -> & _). apply A3.
  - intros j. destruct (O j) as (-> & -> & _). apply A4.
  - intros j. destruct (O j) as (-> & _). apply A5.
  - intros l j HH. destruct (K l) as (-> & -> & -> & ->). destruct (O j) as (-> & -> & _ & ->). destruct (A6 l j HH) as (B1 & B2 & B3 & B4 & B5 & B6).
    repeat (split; [assumption|]). destruct (Nat.eq_dec j i) as [->|NJ].
    + rewrite (ONE l k i HH H), !upd_same. intros; reflexivity.
    + rewrite (upd_other (objs s)) by congruence. intros LJ. upd_at (ks s) k k' l; [reflexivity|auto].
  - intros j. destruct (O j) as (_ & -> & _). apply A7.
  - intros l. destruct (K l) as (-> & _ & -> & _). apply A8.
  - intros j. destruct (O j) as (-> & _ & -> & _). apply A9.
  - intros j l. destruct (O j) as (_ & -> & -> & _). destruct (O l) as (_ & -> & -> & _). apply A10.
  - exact A11.
Qed.
Lemma inv_other_open s h : Inv None s -> unused s h -> Inv None (kernel_socket s h false).
Proof.
  intros I [U1 U2]. pose proof (resolve_none None s I h U2) as FR. destruct I as [A1 A2 A3 A4 A5 A6 A7 A8 A9 A10 A11]. set (k' := Ksock h true false false false).
  constructor; cbn [kernel_socket n_ks ks n_objs objs next_id hist]; fold k'; try assumption.
  - intros l. upd_at (ks s) (n_ks s) k' l; [intros _; exact U1|apply A1].
  - intros l HL. rewrite upd_other by lia. apply A2. lia.
  - intros l m. upd_at (ks s) (n_ks s) k' l; upd_at (ks s) (n_ks s) k' m; cbn; intros OL OM EF; [congruence|exfalso; now apply (FR m OM)|exfalso; now apply (FR l OL)|auto].
  - intros k i H. destruct (A6 k i H) as (B1 & B). rewrite upd_other; [auto|]. intros ->. rewrite A2 in B1 by lia. discriminate.
  - intros k. upd_at (ks s) (n_ks s) k' k; [intros F; discriminate F|apply A8].
Qed.
Lemma inv_other_close s k : Inv None s -> k_own (ks s k) = false -> Inv None (kernel_close s k).
Proof.
  intros [A1 A2 A3 A4 A5 A6 A7 A8 A9 A10 A11] W. set (k' := Ksock (k_fd (ks s k)) false (k_own (ks s k)) (k_nonblock (ks s k)) (k_listening (ks s k))).
  constructor; cbn [kernel_close set_ks n_ks ks n_objs objs next_id hist]; fold k'; try assumption.
  - intros l. upd_at (ks s) k k' l; [intros F; discriminate F|apply A1].
  - intros l HL. upd_at (ks s) k k' l; [reflexivity|auto].
  - intros l m. upd_at (ks s) k k' l; [intros F; discriminate F|]. upd_at (ks s) k k' m; [intros _ F; discriminate F|]. apply A3.
  - intros l i H. destruct (A6 l i H) as (B1 & B2 & B). rewrite upd_other; [auto|]. congruence.
  - intros l. upd_at (ks s) k k' l; [intros _ F; discriminate F|apply A8].
Qed.
Lemma close_none x s i : Inv x s -> x = None -> Inv None (close s i).
Proof. intros I ->. exact (proj1 (inv_close None s i I)). Qed.
Lemma closed_holds s i : Inv None s -> o_handle (objs s i) = invalid -> forall k, holder (hist s) k <> Some i.
Proof. intros I E k H. apply (holds_handle None s I) in H. destruct H. contradiction. Qed.
Lemma inv_close_log s i e : Inv None s -> neutral e -> (forall h, (forall k, holder h k <> Some i) -> ok h e) -> Inv None (log (close s i) [e]).
Proof.
  intros I N O. destruct (inv_close None s i I) as (I' & E & _). apply inv_log; [exact I'|assumption|]. apply O. now apply closed_holds.
Qed.
Lemma inv_construct' s kd svc async b conn h : Inv None s -> unused s h -> Inv None (construct (kernel_socket s h true) kd h svc async b conn).
Proof. intros I U. exact (proj1 (inv_construct s kd svc async b conn (Some h) I U)). Qed.
Lemma inv_accept_async s i c : Inv None s -> Inv None (accept_async s i c).
Proof. intros I. unfold accept_async. destruct (has_service s i); [now apply inv_ext with s|]. apply inv_log; [assumption|intros k o; reflexivity|exact Logic.I]. Qed.
Lemma may_unused s i h : may_answer s i (Accepted h) -> unused s h.
Proof. intros H. exact (proj1 H). Qed.
Lemma step_inv s s' : Inv None s -> step s s' -> Inv None s'.
Proof.
  intros I H. destruct H.
  - exact (proj1 (inv_construct s kd svc async false Disconnected None I Logic.I)).
  - now apply inv_construct'.
  - unfold move_construct. apply inv_move; auto. intros E. unfold alive in H. rewrite (v_objs None s I) in H by lia. discriminate.
  - unfold move_assign, log, set_obj. cbn [n_ks ks n_objs objs next_id requests service next_call hist]. apply inv_move; auto.
    unfold alive in H0. destruct (Nat.lt_ge_cases j (n_objs s)) as [|L]; [assumption|]. rewrite (v_objs None s I j L) in H0. discriminate.
  - now apply inv_self.
  - unfold destroy. destruct (inv_close None s i I) as (I' & E & _). apply inv_log; [|intros k o; reflexivity|exact Logic.I]. apply inv_dead; auto.
  - now apply close_none with None.
  - apply inv_io_mode with None; auto.
  - now apply inv_listen.
  - unfold connect. assert (I' : Inv None (match st with Disconnected => close s i | _ => s end)) by (destruct st; auto; now apply close_none with None). apply inv_set_obj; auto.
  - destruct a; cbn [accept].
    + apply inv_log; [apply inv_construct'; [assumption|now apply may_unused with i]|intros k o; reflexivity|exact Logic.I].
    + apply inv_close_log; [assumption|intros k o; reflexivity|auto].
    + apply inv_close_log; [assumption|intros k o; reflexivity|auto].
  - apply inv_accept_async. apply inv_ext with (log s [EAsync c i (has_service s i)]); try reflexivity. apply inv_log; [assumption|intros k o; reflexivity|exact Logic.I].
  - assert (I' : Inv None (set_requests s (l ++ r))) by (now apply inv_ext with s). destruct a; cbn [ready_to_accept].
    + apply inv_log; [apply inv_construct'; [assumption|exact (may_unused _ _ _ H2)]|intros k o; reflexivity|exact Logic.I].
    + now apply inv_accept_async.
    + apply inv_close_log; [assumption|intros k o; reflexivity|auto].
  - apply inv_log; [now apply inv_ext with s|intros k o; reflexivity|exact Logic.I].
  - now apply inv_ext with s.
  - now apply inv_other_open.
  - now apply inv_other_close.
Qed.
Lemma reachable_inv s : reachable s -> Inv None s.
Proof.
  induction 1 as [|s s' R IH ST]; [|now apply step_inv with s]. constructor; cbn; try discriminate; auto; try (intros; exfalso; auto; fail).
  intros a e b E. destruct a; discriminate.
Qed.

(** * What happens to the calls of accept_async *)
Definition count (c : nat) (h : list event) : nat := length (filter (ended c) h).
Definition waiting (c : nat) (l : list pending) : nat := length (filter (fun q => Nat.eqb (q_call q) c) l).
Lemma count_app c a b : count c (a ++ b) = count c a + count c b.
Proof. unfold count. now rewrite filter_app, app_length. Qed.
Lemma waiting_app c a b : waiting c (a ++ b) = waiting c a + waiting c b.
Proof. unfold waiting. now rewrite filter_app, app_length. Qed.
Definition plain (e : event) : Prop := match e with ECall _ _ _ | ELost _ => False | _ => True end.
Lemma count_plain c l : Forall plain l -> count c l = 0.
Proof. induction 1 as [|e l H _ IH]; [reflexivity|]. destruct e; cbn in *; try contradiction; exact IH. Qed.
(** Nothing happens to the calls. *)
Record quiet (s s' : state) : Prop := {
  q_next : next_call s' = next_call s;
  q_hist : exists l, hist s' = hist s ++ l /\ Forall plain l;
  q_reqs : forall q, In q (requests s') -> exists q0, In q0 (requests s) /\ q_call q0 = q_call q /\ q_obj q0 = q_obj q;
  q_wait : forall c, waiting c (requests s') = waiting c (requests s) }.
Lemma quiet_refl s s' : next_call s' = next_call s -> hist s' = hist s -> requests s' = requests s -> quiet s s'.
Proof. intros E1 E2 E3. split; [assumption|exists []; rewrite E2, app_nil_r; auto|rewrite E3; eauto|now rewrite E3]. Qed.
Lemma quiet_set_obj s i o : quiet s (set_obj s i o).
Proof. now apply quiet_refl. Qed.
Lemma quiet_trans a b c : quiet a b -> quiet b c -> quiet a c.
Proof.
  intros [A1 (l & A2 & A3) A4 A5] [B1 (m & B2 & B3) B4 B5]. split; [congruence| | |intros x; now rewrite B5].
  - exists (l ++ m). split; [rewrite B2, A2, app_assoc; reflexivity|apply Forall_app; auto].
  - intros q HQ. destruct (B4 q HQ) as (q1 & H1 & E1 & E2). destruct (A4 q1 H1) as (q0 & H0 & E3 & E4). exists q0. split; [assumption|]. split; congruence.
Qed.
Lemma quiet_log s e : plain e -> quiet s (log s [e]).
Proof. intros P. split; cbn; [reflexivity|exists [e]; auto|eauto|auto]. Qed.
Lemma quiet_close s i : quiet s (close s i).
Proof.
  unfold close. destruct (_ =? _)%Z; [now apply quiet_refl|]. set (s1 := if has_service s i then _ else _).
  assert (Q1 : quiet s s1).
  { subst s1. destruct (has_service s i); [|now apply quiet_refl]. split; cbn; [reflexivity|exists []; rewrite app_nil_r; auto| |].
    - intros q HQ. apply in_map_iff in HQ. destruct HQ as (q0 & <- & HQ). exists q0. destruct (_ =? _)%Z; auto.
    - intros c. unfold waiting. induction (requests s) as [|q l IH]; [reflexivity|]. cbn [map filter]. destruct (_ =? _)%Z; cbn [q_call]; destruct (Nat.eqb (q_call q) c); cbn [length]; auto. }
  clearbody s1. apply quiet_trans with s1; [assumption|]. unfold os_close. destruct (resolve s1 _).
  - split; cbn; [reflexivity|exists [EClose i n]; split; [reflexivity|repeat constructor]|eauto|auto].
  - split; cbn; [reflexivity|exists [ECloseBad i]; split; [reflexivity|repeat constructor]|eauto|auto].
Qed.
Lemma quiet_io_mode s i a b : quiet s (set_io_mode s i a b).
Proof. unfold set_io_mode. destruct (resolve _ _); [|apply quiet_close]. destruct b; [|apply quiet_close]. now apply quiet_refl. Qed.
Lemma quiet_construct s kd h svc a b cn : quiet s (construct s kd h svc a b cn).
Proof.
  unfold construct. cbn zeta. eapply quiet_trans; [|apply quiet_set_obj]. eapply quiet_trans; [|apply quiet_io_mode].
  split; cbn; [reflexivity| |eauto|auto]. destruct (resolve s h); [exists [EOpen n (n_objs s)]|exists []]; split; auto; repeat constructor.
Qed.
Record Calls (s : state) : Prop := {
  c_count : forall c, count c (hist s) + waiting c (requests s) = if c <? next_call s then 1 else 0;
  c_reqs : forall q, In q (requests s) -> In (EAsync (q_call q) (q_obj q) true) (hist s);
  c_calls : forall c i r, In (ECall c i r) (hist s) -> In (EAsync c i true) (hist s);
  c_async : forall c i b, In (EAsync c i b) (hist s) -> c < next_call s;
  c_once : forall c i b i' b', In (EAsync c i b) (hist s) -> In (EAsync c i' b') (hist s) -> i = i' /\ b = b' }.
(** A function of this kind, and what it can do to the calls that were made. *)
Definition no_async (l : list event) : Prop := forall c i b, ~ In (EAsync c i b) l.
Lemma calls_quiet s s' : Calls s -> quiet s s' -> (forall l, hist s' = hist s ++ l -> no_async l) -> Calls s'.
Proof.
  intros [A1 A2 A3 A4 A5] [E1 (l & E2 & PL) E3 E4] NA. specialize (NA l E2).
  assert (EA : forall c i b, In (EAsync c i b) (hist s') <-> In (EAsync c i b) (hist s)).
  { intros c i b. rewrite E2, in_app_iff. split; [intros [|F]; [assumption|now apply NA in F]|auto]. }
  constructor.
  - intros c. rewrite E1, E2, E4, count_app, (count_plain c l PL), Nat.add_0_r. apply A1.
  - intros q HQ. destruct (E3 q HQ) as (q0 & H0 & <- & <-). apply EA. auto.
  - intros c i r. rewrite EA, E2, in_app_iff. intros [H|H]; [now apply A3 in H|]. rewrite Forall_forall in PL. now apply PL in H.
  - intros c i b. rewrite EA, E1. apply A4.
  - intros c i b i' b'. rewrite !EA. apply A5.
Qed.
Definition mild (s s' : state) : Prop := quiet s s' /\ forall l, hist s' = hist s ++ l -> no_async l.
Lemma app_same {A} (a b c : list A) : a ++ b = a ++ c -> b = c.
Proof. apply app_inv_head. Qed.
Lemma mild_refl s s' : next_call s' = next_call s -> hist s' = hist s -> requests s' = requests s -> mild s s'.
Proof. intros E1 E2 E3. split; [now apply quiet_refl|]. intros l E. rewrite E2 in E. rewrite <- (app_nil_r (hist s)) in E at 1. apply app_same in E. subst l. intros c i b []. Qed.
Lemma mild_set_obj s i o : mild s (set_obj s i o).
Proof. now apply mild_refl. Qed.
Lemma mild_trans a b c : mild a b -> mild b c -> mild a c.
Proof.
  intros [Q1 N1] [Q2 N2]. split; [now apply quiet_trans with b|]. destruct (q_hist _ _ Q1) as (l & E1 & _), (q_hist _ _ Q2) as (m & E2 & _). specialize (N1 l E1). specialize (N2 m E2).
  intros n E. rewrite E2, E1, <- app_assoc in E. apply app_same in E. subst n. intros x i r H. apply in_app_iff in H. destruct H as [H|H]; [now apply N1 in H|now apply N2 in H].
Qed.
Lemma mild_log s e : plain e -> match e with EAsync _ _ _ => False | _ => True end -> mild s (log s [e]).
Proof. intros P N. split; [now apply quiet_log|]. intros l E. cbn in E. apply app_same in E. subst l. intros c i b [->|[]]. exact N. Qed.
Lemma mild_close s i : mild s (close s i).
Proof.
  split; [apply quiet_close|]. intros l E. unfold close in E. destruct (_ =? _)%Z.
  - rewrite <- (app_nil_r (hist s)) in E at 1. apply app_same in E. subst l. intros c j b [].
  - unfold os_close in E. destruct (resolve _ _); cbn in E; destruct (has_service s i); cbn in E; apply app_same in E; subst l; intros c j b [F|[]]; discriminate.
Qed.
Lemma mild_io_mode s i a b : mild s (set_io_mode s i a b).
Proof. unfold set_io_mode. destruct (resolve _ _); [|apply mild_close]. destruct b; [|apply mild_close]. now apply mild_refl. Qed.
Lemma mild_construct s kd h svc a b cn : mild s (construct s kd h svc a b cn).
Proof.
  unfold construct. cbn zeta. eapply mild_trans; [|apply mild_set_obj]. eapply mild_trans; [|apply mild_io_mode]. split.
  - split; cbn; [reflexivity| |eauto|auto]. destruct (resolve s h); [exists [EOpen n (n_objs s)]|exists []]; split; auto; repeat constructor.
  - intros l E. cbn in E. apply app_same in E. subst l. intros c i x. destruct (resolve s h); [intros [F|[]]; discriminate|intros []].
Qed.
Lemma mild_construct' s kd h svc a b cn : mild s (construct (kernel_socket s h true) kd h svc a b cn).
Proof. apply mild_trans with (kernel_socket s h true); [now apply mild_refl|apply mild_construct]. Qed.
Lemma calls_mild s s' : Calls s -> mild s s' -> Calls s'.
Proof. intros C [Q N]. now apply calls_quiet with s. Qed.
(** A call that is taken from the requests and then ends. *)
Lemma calls_end s s' l q r e : Calls s -> requests s = l ++ q :: r -> ended (q_call q) e = true ->
  match e with ECall _ i _ => i = q_obj q | _ => True end -> mild (set_requests s (l ++ r)) s' -> Calls (log s' [e]).
Proof.
  intros [A1 A2 A3 A4 A5] ER EE EO [[E1 (m & E2 & PL) E3 E4] NA]. specialize (NA m E2). cbn [set_requests hist requests next_call] in *.
  assert (EC : forall c, ended c e = Nat.eqb (q_call q) c). { intros c. destruct e; try discriminate; cbn in *; apply Nat.eqb_eq in EE; now subst. }
  assert (EA : forall c i b, In (EAsync c i b) (hist s' ++ [e]) <-> In (EAsync c i b) (hist s)).
  { intros c i b. rewrite E2, !in_app_iff. split; [intros [[|F]|[F|[]]]; [assumption|now apply NA in F|subst e; discriminate]|auto]. }
  constructor; cbn [log hist requests next_call].
  - intros c. rewrite E1, E2, E4, !count_app, (count_plain c m PL), waiting_app. specialize (A1 c). rewrite ER, waiting_app in A1. change (q :: r) with ([q] ++ r) in A1. rewrite waiting_app in A1.
    replace (count c [e]) with (waiting c [q]); [lia|]. unfold count, waiting. cbn. rewrite EC. now destruct (Nat.eqb (q_call q) c).
  - intros q' HQ. destruct (E3 q' HQ) as (q0 & H0 & <- & <-). apply EA. apply A2. rewrite ER. apply in_app_iff in H0. apply in_app_iff. cbn. tauto.
  - intros c i x. rewrite EA, E2, !in_app_iff. intros [[H|H]|[H|[]]]; [now apply A3 in H| |].
    + rewrite Forall_forall in PL. now apply PL in H.
    + subst e. cbn in EE. apply Nat.eqb_eq in EE. subst c i. apply A2. rewrite ER. apply in_app_iff. cbn. auto.
  - intros c i b. rewrite EA, E1. apply A4.
  - intros c i b i' b'. rewrite !EA. apply A5.
Qed.
Lemma step_calls s s' : Calls s -> step s s' -> Calls s'.
Proof.
  intros C H. destruct H.
  - apply calls_mild with s; [assumption|apply mild_construct].
  - apply calls_mild with s; [assumption|apply mild_construct'].
  - apply calls_mild with s; [assumption|]. apply mild_trans with (log s [EMove i (n_objs s)]); [now apply mild_log|now apply mild_refl].
  - apply calls_mild with s; [assumption|]. apply mild_trans with (log s [EMove i j]); [now apply mild_log|now apply mild_refl].
  - apply calls_mild with s; [assumption|]. apply mild_trans with (log s [EMove i i]); [now apply mild_log|now apply mild_refl].
  - apply calls_mild with s; [assumption|]. unfold destroy. apply mild_trans with (close s i); [apply mild_close|]. cbn zeta. eapply mild_trans; [|apply mild_log; exact Logic.I]. now apply mild_refl.
  - apply calls_mild with s; [assumption|apply mild_close].
  - apply calls_mild with s; [assumption|apply mild_io_mode].
  - apply calls_mild with s; [assumption|]. unfold listen. destruct (resolve _ _); [destruct ok0|]; (eapply mild_trans; [|apply mild_log; exact Logic.I]; now apply mild_refl).
  - apply calls_mild with s; [assumption|]. unfold connect. eapply mild_trans; [|apply mild_set_obj]. destruct st; [apply mild_close|now apply mild_refl|now apply mild_refl].
  - apply calls_mild with s; [assumption|]. destruct a; cbn [accept]; (eapply mild_trans; [|apply mild_log; exact Logic.I]); [apply mild_construct'|apply mild_close|apply mild_close].
  - destruct C as [A1 A2 A3 A4 A5]. subst s1. unfold accept_async. unfold has_service at 1. cbn [objs service]. fold (has_service s i).
    assert (NW : waiting c (requests s) = 0 /\ count c (hist s) = 0) by (specialize (A1 c); subst c; rewrite Nat.ltb_irrefl in A1; lia). destruct NW as [NW NC].
    assert (CO : forall c' x i0 b i' b', In (EAsync c' i0 b) (hist s ++ [EAsync c i x]) -> In (EAsync c' i' b') (hist s ++ [EAsync c i x]) -> i0 = i' /\ b = b').
    { intros c' x i0 b i' b'. rewrite !in_app_iff. intros [F1|[F1|[]]] [F2|[F2|[]]]; [now apply (A5 c')|injection F2 as <- <- <-|injection F1 as <- <- <-|injection F1 as <- <- <-; injection F2 as <- <-; auto]; apply A4 in F1 || apply A4 in F2; subst c; lia. }
    destruct (has_service s i) eqn:HS.
    + constructor; cbn [set_requests hist requests next_call].
      * intros c'. rewrite count_app, waiting_app. replace (count c' [EAsync c i true]) with 0 by reflexivity.
        replace (waiting c' [Pending c i (o_handle (objs s i)) false]) with (if Nat.eqb c c' then 1 else 0) by (unfold waiting; cbn; now destruct (Nat.eqb c c')).
        specialize (A1 c'). destruct (Nat.eqb_spec c c') as [<-|N].
        -- replace (c <? S c) with true by (symmetry; apply Nat.ltb_lt; lia). lia.
        -- replace (c' <? S c) with (c' <? next_call s); [lia|]. fold c. destruct (Nat.ltb_spec c' c), (Nat.ltb_spec c' (S c)); auto; lia.
      * intros q HQ. apply in_app_iff in HQ. apply in_app_iff. destruct HQ as [HQ|[<-|[]]]; [left; auto|right; cbn; auto].
      * intros c' j r. rewrite !in_app_iff. intros [F|[F|[]]]; [left; now apply A3 in F|discriminate].
      * intros c' j b. rewrite in_app_iff. intros [F|[F|[]]]; [apply A4 in F; subst c; lia|injection F as <- _ _; lia].
      * intros c' j b j' b'. apply CO.
    + constructor; cbn [log hist requests next_call].
      * intros c'. rewrite !count_app. replace (count c' [EAsync c i false]) with 0 by reflexivity.
        replace (count c' [ELost c]) with (if Nat.eqb c c' then 1 else 0) by (unfold count; cbn; now destruct (Nat.eqb c c')).
        specialize (A1 c'). destruct (Nat.eqb_spec c c') as [<-|N].
        -- replace (c <? S c) with true by (symmetry; apply Nat.ltb_lt; lia). lia.
        -- replace (c' <? S c) with (c' <? next_call s); [lia|]. fold c. destruct (Nat.ltb_spec c' c), (Nat.ltb_spec c' (S c)); auto; lia.
      * intros q HQ. rewrite !in_app_iff. left. left. auto.
      * intros c' j r. rewrite !in_app_iff. intros [[F|[F|[]]]|[F|[]]]; [left; left; now apply A3 in F|discriminate|discriminate].
      * intros c' j b. rewrite !in_app_iff. intros [[F|[F|[]]]|[F|[]]]; [apply A4 in F; subst c; lia|injection F as <- _ _; lia|discriminate].
      * intros c' j b j' b' F1 F2. apply in_app_iff in F1. destruct F1 as [F1|[F1|[]]]; [|discriminate]. apply in_app_iff in F2. destruct F2 as [F2|[F2|[]]]; [|discriminate]. now apply (CO c' false).
  - destruct a; cbn [ready_to_accept].
    + eapply calls_end with (q := q); [eassumption|eassumption|cbn; apply Nat.eqb_refl|reflexivity|apply mild_construct'].
    + unfold accept_async. destruct (has_service _ _).
      * destruct C as [A1 A2 A3 A4 A5]. constructor; cbn [set_requests hist requests next_call]; auto.
        -- intros c. specialize (A1 c). rewrite H0 in A1. rewrite !waiting_app in *. change (q :: r) with ([q] ++ r) in A1. rewrite waiting_app in A1. unfold waiting in *. cbn in *. destruct (Nat.eqb (q_call q) c); cbn in *; lia.
        -- intros q' HQ. apply in_app_iff in HQ. destruct HQ as [HQ|[<-|[]]]; cbn; apply A2; rewrite H0; apply in_app_iff; [|cbn; auto]. apply in_app_iff in HQ. cbn. tauto.
      * eapply calls_end with (q := q); [eassumption|eassumption|cbn; apply Nat.eqb_refl|exact Logic.I|now apply mild_refl].
    + eapply calls_end with (q := q); [eassumption|eassumption|cbn; apply Nat.eqb_refl|reflexivity|apply mild_close].
  - eapply calls_end with (q := q); [eassumption|eassumption|cbn; apply Nat.eqb_refl|exact Logic.I|now apply mild_refl].
  - apply calls_mild with s; [assumption|now apply mild_refl].
  - apply calls_mild with s; [assumption|now apply mild_refl].
  - apply calls_mild with s; [assumption|now apply mild_refl].
Qed.
Lemma reachable_calls s : reachable s -> Calls s.
Proof. induction 1 as [|s s' R IH ST]; [|now apply step_calls with s]. constructor; cbn; intros; try contradiction; reflexivity. Qed.

(** * The requests that the service has *)
Definition backed (s : state) (h : Z) : Prop :=
  exists k, k_open (ks s k) = true /\ k_fd (ks s k) = h /\ (overwritten (hist s) k \/ exists i, holder (hist s) k = Some i /\ o_service (objs s i) = true).
Record Reqs (s : state) : Prop := {
  w_over : forall k, overwritten (hist s) k -> k < n_ks s /\ holder (hist s) k = None /\ k_own (ks s k) = true;
  w_req : forall q, In q (requests s) -> q_removed q = false -> service s = true -> q_handle q = invalid \/ backed s (q_handle q) }.
Lemma overwritten_snoc h e k : overwritten (h ++ [e]) k <-> overwritten h k \/ exists i j, e = EMove i j /\ holder h k = Some j.
Proof.
  split.
  - intros (a & i & j & b & E & H). unfold at_ in E. destruct b as [|y b] using rev_ind.
    + apply app_inj_tail in E. destruct E as [-> ->]. right. exists i, j. auto.
    + rewrite app_comm_cons, app_assoc in E. apply app_inj_tail in E. destruct E as [-> _]. left. exists a, i, j, b. split; [reflexivity|assumption].
  - intros [H|(i & j & -> & H)]; [now apply overwritten_app|]. exists h, i, j, []. split; [reflexivity|assumption].
Qed.
Lemma overwritten_plain h e k : (forall i j, e <> EMove i j) -> overwritten (h ++ [e]) k <-> overwritten h k.
Proof. intros N. rewrite overwritten_snoc. split; [intros [|(i & j & E & _)]; [assumption|now apply N in E]|auto]. Qed.
Lemma held_below x s k i : Inv x s -> holder (hist s) k = Some i -> k < n_ks s.
Proof. intros I H. destruct (Nat.lt_ge_cases k (n_ks s)) as [|L]; [assumption|]. apply (v_hold x s I) in H. rewrite (v_ks x s I k L) in H. destruct H as [H _]. discriminate. Qed.
(** The objects keep their services, and nothing else changes. *)
Lemma reqs_ext s s' : Reqs s -> ks s' = ks s -> n_ks s' = n_ks s -> hist s' = hist s -> (forall q, In q (requests s') -> In q (requests s)) -> (service s' = true -> service s = true) ->
  (forall i k, holder (hist s) k = Some i -> o_service (objs s i) = true -> o_service (objs s' i) = true) -> Reqs s'.
Proof.
  intros [W1 W2] E1 E2 E3 ER ES EO. constructor; rewrite ?E3, ?E2, ?E1; [assumption|]. intros q HQ RM SV. destruct (W2 q (ER q HQ) RM (ES SV)) as [|(k & A & B & C)]; [auto|]. right. exists k. rewrite E1, E3.
  split; [assumption|]. split; [assumption|]. destruct C as [|(i & C1 & C2)]; [auto|right]. exists i. eauto.
Qed.
Lemma reqs_log s e : Reqs s -> neutral e -> (forall i j, e <> EMove i j) -> Reqs (log s [e]).
Proof.
  intros [W1 W2] N M. assert (HS : forall k, holder (hist s ++ [e]) k = holder (hist s) k) by (intros k; rewrite holder_snoc; apply N). constructor; cbn.
  - intros k. rewrite overwritten_plain by assumption. rewrite HS. apply W1.
  - intros q HQ RM SV. destruct (W2 q HQ RM SV) as [|(k & A & B & C)]; [auto|right]. exists k. cbn. rewrite HS. repeat (split; [assumption|]). destruct C as [C|C]; [left; now apply overwritten_app|auto].
Qed.
Lemma reqs_set_obj s i o : Reqs s -> (o_service (objs s i) = true -> o_service o = true) -> Reqs (set_obj s i o).
Proof. intros W E. apply reqs_ext with s; auto. intros j k _ H. cbn. upd_at (objs s) i o j; [subst j|]; auto. Qed.
Lemma reqs_close x s i : Inv x s -> Reqs s -> Reqs (close s i).
Proof.
  intros I W. unfold close. destruct (Z.eqb_spec (o_handle (objs s i)) invalid) as [E|N]; [assumption|].
  destruct (open_resolves x s I i N) as (k & R & H). pose proof (v_hold x s I k i H) as (HO & HW & AL & HF & _).
  set (s1 := if has_service s i then remove_socket s (o_handle (objs s i)) else s).
  assert (E1 : ks s1 = ks s /\ n_ks s1 = n_ks s /\ objs s1 = objs s /\ hist s1 = hist s /\ service s1 = service s /\ resolve s1 (o_handle (objs s i)) = Some k) by (subst s1; destruct (has_service s i); auto 20).
  assert (RQ : forall q, In q (requests s1) -> q_removed q = false -> service s = true -> q_handle q = invalid \/ exists l, l <> k /\ k_open (ks s l) = true /\ k_fd (ks s l) = q_handle q /\ (overwritten (hist s) l \/ exists j, holder (hist s) l = Some j /\ o_service (objs s j) = true)).
  { intros q HQ RM SV. subst s1. unfold has_service in HQ. destruct (o_service (objs s i)) eqn:SI; rewrite ?SV in HQ; cbn [andb] in HQ.
    - cbn in HQ. apply in_map_iff in HQ. destruct HQ as (q0 & <- & HQ). destruct (Z.eqb_spec (q_handle q0) (o_handle (objs s i))) as [EH|NH]; [discriminate|].
      destruct (w_req s W q0 HQ RM SV) as [|(l & A & B & C)]; [auto|right]. exists l. split; [intros ->; congruence|auto].
    - destruct (w_req s W q HQ RM SV) as [|(l & A & B & C)]; [auto|right]. exists l. split; [|auto]. intros ->. destruct C as [C|(j & C1 & C2)]; [apply (w_over s W) in C; destruct C as (_ & C & _); congruence|]. congruence. }
  clearbody s1. destruct E1 as (E1 & E2 & E3 & E4 & E5 & E6). unfold os_close. rewrite E6. unfold kernel_close, set_ks, log, set_obj. cbn [n_ks ks n_objs objs next_id requests service next_call hist]. rewrite E1, E2, E3, E4, E5.
  assert (HS : forall l, holder (hist s ++ [EClose i k]) l = if Nat.eqb k l then None else holder (hist s) l) by (intros l; rewrite holder_snoc; reflexivity).
  constructor; cbn [n_ks ks n_objs objs next_id requests service next_call hist].
  - intros l. rewrite overwritten_plain by discriminate. rewrite HS. intros HL. destruct (w_over s W l HL) as (A & B & B'). split; [assumption|]. split; [now destruct (Nat.eqb k l)|].
    upd_at (ks s) k (Ksock (k_fd (ks s k)) false (k_own (ks s k)) (k_nonblock (ks s k)) (k_listening (ks s k))) l; [subst l|]; auto.
  - intros q HQ RM SV. destruct (RQ q HQ RM SV) as [|(l & NL & A & B & C)]; [auto|right]. exists l. cbn. rewrite upd_other by assumption. split; [assumption|]. split; [assumption|].
    rewrite HS. destruct (Nat.eqb_spec k l) as [->|]; [congruence|]. destruct C as [C|(j & C1 & C2)]; [left; now apply overwritten_app|right]. exists j. split; [assumption|]. upd_at (objs s) i (with_handle (objs s i) invalid) j; [subst j|]; auto.
Qed.
Lemma reqs_io_mode x s i a b : Inv x s -> Reqs s -> Reqs (set_io_mode s i a b).
Proof.
  intros I W. pose proof (reqs_close x s i I W) as WC. unfold set_io_mode. destruct (resolve s (o_handle (objs s i))) as [k|] eqn:R; [|exact WC]. destruct b; [|exact WC]. clear WC.
  apply reqs_set_obj; [|auto]. destruct W as [W1 W2]. constructor; cbn.
  { intros l HL. destruct (W1 l HL) as (A & B & C). repeat (split; [assumption|]). upd_at (ks s) k (Ksock (k_fd (ks s k)) (k_open (ks s k)) (k_own (ks s k)) a (k_listening (ks s k))) l; [subst l|]; auto. }
  intros q HQ RM SV. destruct (W2 q HQ RM SV) as [|(l & A & B & C)]; [auto|right]. exists l. cbn.
  upd_at (ks s) k (Ksock (k_fd (ks s k)) (k_open (ks s k)) (k_own (ks s k)) a (k_listening (ks s k))) l; [subst l|]; auto.
Qed.
Lemma reqs_kernel_socket s h b : Reqs s -> (forall k, n_ks s <= k -> k_open (ks s k) = false) -> Reqs (kernel_socket s h b).
Proof.
  intros [W1 W2] L. constructor; cbn.
  - intros k H. apply W1 in H. destruct H as (A & B & C). split; [lia|]. split; [assumption|]. rewrite upd_other by lia. assumption.
  - intros q HQ RM SV. destruct (W2 q HQ RM SV) as [|(k & A & B & C)]; [auto|right]. exists k. cbn. rewrite upd_other; [auto|]. intros ->. rewrite L in A by lia. discriminate.
Qed.
Lemma reqs_built s kd async conn (made : option Z) : Inv None s -> Reqs s -> match made with Some h => unused s h | None => True end ->
  let h := match made with Some h => h | None => invalid end in
  let s0 := match made with Some h => kernel_socket s h true | None => s end in
  Reqs (State (n_ks s0) (ks s0) (S (n_objs s)) (upd (objs s0) (n_objs s) (Obj true kd h false (next_id s0) async false conn)) (S (next_id s0)) (requests s0) (service s0) (next_call s0)
    (hist s0 ++ match resolve s0 h with Some k => [EOpen k (n_objs s)] | None => [] end)).
Proof.
  intros I W U. destruct made as [h|]; cbn zeta.
  - rewrite (resolve_new s h true U). cbn [kernel_socket n_ks ks objs n_objs next_id requests service next_call hist].
    assert (HS : forall l, holder (hist s ++ [EOpen (n_ks s) (n_objs s)]) l = if Nat.eqb (n_ks s) l then Some (n_objs s) else holder (hist s) l) by (intros l; rewrite holder_snoc; reflexivity).
    constructor; cbn [n_ks ks objs requests service hist].
    + intros k. rewrite overwritten_plain by discriminate. intros H. destruct (w_over s W k H) as (A & B & C). rewrite HS. destruct (Nat.eqb_spec (n_ks s) k); [lia|]. split; [lia|]. split; [assumption|]. rewrite upd_other by lia. assumption.
    + intros q HQ RM SV. destruct (w_req s W q HQ RM SV) as [|(k & A & B & C)]; [auto|right].
      assert (NK : k <> n_ks s) by (intros ->; rewrite (v_ks None s I) in A by lia; discriminate).
      exists k. cbn [ks hist objs]. rewrite upd_other by assumption. repeat (split; [assumption|]). destruct C as [C|(i & C1 & C2)]; [left; now apply overwritten_app|right].
      exists i. rewrite HS. destruct (Nat.eqb_spec (n_ks s) k); [congruence|]. split; [assumption|]. destruct (v_hold None s I k i C1) as (_ & _ & AL & _). rewrite upd_other; [assumption|]. intros ->. rewrite (v_objs None s I) in AL by lia. discriminate.
  - rewrite (resolve_invalid None s I), app_nil_r. apply reqs_ext with s; auto. intros i k H HS. cbn. destruct (v_hold None s I k i H) as (_ & _ & AL & _). rewrite upd_other; [assumption|]. intros ->. rewrite (v_objs None s I) in AL by lia. discriminate.
Qed.
Lemma reqs_construct s kd svc async b conn (made : option Z) : Inv None s -> Reqs s -> match made with Some h => unused s h | None => True end ->
  Reqs (match made with Some h => construct (kernel_socket s h true) kd h svc async b conn | None => construct s kd invalid svc async b conn end).
Proof.
  intros I W U. pose proof (inv_built s kd async conn made I U) as I1. pose proof (reqs_built s kd async conn made I W U) as W1. cbn zeta in I1, W1.
  set (h := match made with Some h => h | None => invalid end) in *. set (s0 := match made with Some h => kernel_socket s h true | None => s end) in *.
  set (s1 := State _ _ _ _ _ _ _ _ _) in *.
  assert (EC : match made with Some h => construct (kernel_socket s h true) kd h svc async b conn | None => construct s kd invalid svc async b conn end =
    let s2 := set_io_mode s1 (n_objs s) async b in
    set_obj s2 (n_objs s) (Obj (o_alive (objs s2 (n_objs s))) (o_kind (objs s2 (n_objs s))) (o_handle (objs s2 (n_objs s))) svc (o_id (objs s2 (n_objs s))) (o_async (objs s2 (n_objs s))) (o_listening (objs s2 (n_objs s))) (o_conn (objs s2 (n_objs s))))).
  { subst s1 s0 h. destruct made; reflexivity. }
  rewrite EC. cbn zeta. clear EC. apply reqs_set_obj; [apply reqs_io_mode with (Some (n_objs s)); assumption|].
  assert (OS : o_service (objs (set_io_mode s1 (n_objs s) async b) (n_objs s)) = o_service (objs s1 (n_objs s))).
  { unfold set_io_mode, close, os_close. destruct (resolve s1 _) eqn:R; [destruct b|]; [cbn; now rewrite upd_same| |].
    - destruct (_ =? _)%Z; [reflexivity|]. replace (has_service s1 (n_objs s)) with false by (unfold has_service; subst s1; cbn; now rewrite upd_same). rewrite R. cbn. now rewrite !upd_same.
    - destruct (_ =? _)%Z; [reflexivity|]. replace (has_service s1 (n_objs s)) with false by (unfold has_service; subst s1; cbn; now rewrite upd_same). rewrite R. cbn. now rewrite !upd_same. }
  rewrite OS. subst s1. cbn. rewrite upd_same. discriminate.
Qed.
Lemma reqs_construct' s kd svc async b conn h : Inv None s -> Reqs s -> unused s h -> Reqs (construct (kernel_socket s h true) kd h svc async b conn).
Proof. intros I W U. exact (reqs_construct s kd svc async b conn (Some h) I W U). Qed.
Lemma reqs_move s i j n f rq : Inv None s -> Reqs s -> f i = moved_from (objs s i) \/ i = j -> (i <> j -> f j = moved_into (objs s i)) -> (forall l, l <> i -> l <> j -> f l = objs s l) ->
  (forall q, In q rq -> In q (requests s)) -> Reqs (State (n_ks s) (ks s) n f (next_id s) rq (service s) (next_call s) (hist s ++ [EMove i j])).
Proof.
  intros I W FI FJ FO RQ.
  assert (HS : forall k, holder (hist s ++ [EMove i j]) k = match holder (hist s) k with Some x => if Nat.eqb x j then None else if Nat.eqb x i then Some j else Some x | None => None end) by (intros k; rewrite holder_snoc; reflexivity).
  constructor; cbn [n_ks ks objs requests service hist].
  - intros k. rewrite overwritten_snoc, HS. intros [H|(a & b & E & H)].
    + destruct (w_over s W k H) as (A & B & C). rewrite B. auto.
    + injection E as <- <-. split; [now apply (held_below None s k j)|]. rewrite H. rewrite Nat.eqb_refl. split; [reflexivity|]. apply (v_hold None s I) in H. tauto.
  - intros q HQ RM SV. destruct (w_req s W q (RQ q HQ) RM SV) as [|(k & A & B & C)]; [auto|right]. exists k. cbn [ks hist objs]. repeat (split; [assumption|]). destruct C as [C|(l & C1 & C2)]; [left; now apply overwritten_app|].
    rewrite HS, C1. destruct (Nat.eqb_spec l j) as [->|NJ]; [left; apply overwritten_snoc; right; eauto|right]. destruct (Nat.eqb_spec l i) as [->|NI].
    + exists j. split; [reflexivity|]. rewrite FJ by assumption. exact C2.
    + exists l. split; [reflexivity|]. now rewrite FO.
Qed.
Lemma reqs_accept_async s i c : Inv None s -> Reqs s -> Reqs (accept_async s i c).
Proof.
  intros I [W1 W2]. unfold accept_async. destruct (has_service s i) eqn:HS; [|apply reqs_log; [now constructor|intros k o; reflexivity|discriminate]]. apply andb_true_iff in HS. destruct HS as [OS SV].
  constructor; cbn; [assumption|]. intros q HQ RM _. apply in_app_iff in HQ. destruct HQ as [HQ|[<-|[]]]; [exact (W2 q HQ RM SV)|]. cbn. destruct (Z.eq_dec (o_handle (objs s i)) invalid) as [|N]; [auto|right].
  destruct (v_open None s I i N) as (k & H). exists k. destruct (v_hold None s I k i H) as (A & _ & _ & B & _). split; [assumption|]. split; [symmetry; assumption|]. right. eauto.
Qed.
Lemma step_reqs s s' : Inv None s -> Reqs s -> step s s' -> Reqs s'.
Proof.
  intros I W H. pose proof (v_objs None s I) as HB. destruct H.
  - exact (reqs_construct s kd svc async false Disconnected None I W Logic.I).
  - now apply reqs_construct'.
  - unfold move_construct. assert (NE : i <> n_objs s) by (intros ->; unfold alive in H; rewrite HB in H by lia; discriminate).
    apply reqs_move; auto; [left; now rewrite upd_same|intros _; rewrite upd_other by congruence; now rewrite upd_same|intros l N1 N2; now rewrite !upd_other].
  - unfold move_assign, log, set_obj. cbn [n_ks ks n_objs objs next_id requests service next_call hist].
    apply reqs_move; auto; [left; now rewrite upd_same|intros _; rewrite upd_other by congruence; now rewrite upd_same|intros l N1 N2; now rewrite !upd_other].
  - unfold self_assign, log, set_obj. cbn [n_ks ks n_objs objs next_id requests service next_call hist]. apply reqs_move; [assumption|assumption|right; reflexivity|intros F; now contradiction F|intros l N1 N2; now rewrite upd_other|auto].
  - unfold destroy. apply reqs_log; [apply reqs_set_obj; [now apply reqs_close with None|auto]|intros k o; reflexivity|discriminate].
  - now apply reqs_close with None.
  - now apply reqs_io_mode with None.
  - unfold listen. destruct (resolve s _) as [k|]; [destruct ok0|]; (apply reqs_log; [|intros l o; reflexivity|discriminate]); [|apply reqs_set_obj; auto|apply reqs_set_obj; auto].
    apply reqs_set_obj; [|auto]. destruct W as [W1 W2]. constructor; cbn.
    { intros l HL. destruct (W1 l HL) as (A & B & C). repeat (split; [assumption|]). upd_at (ks s) k (Ksock (k_fd (ks s k)) (k_open (ks s k)) (k_own (ks s k)) (k_nonblock (ks s k)) true) l; [subst l|]; auto. }
    intros q HQ RM SV. destruct (W2 q HQ RM SV) as [|(l & A & B & C)]; [auto|right]. exists l. cbn.
    upd_at (ks s) k (Ksock (k_fd (ks s k)) (k_open (ks s k)) (k_own (ks s k)) (k_nonblock (ks s k)) true) l; [subst l|]; auto.
  - unfold connect. apply reqs_set_obj; [|auto]. destruct st; auto. now apply reqs_close with None.
  - destruct a; cbn [accept]; (apply reqs_log; [|intros k o; reflexivity|discriminate]); [apply reqs_construct'; [assumption|assumption|now apply may_unused with i]|now apply reqs_close with None|now apply reqs_close with None].
  - apply reqs_accept_async.
    + apply inv_ext with (log s [EAsync c i (has_service s i)]); try reflexivity. apply inv_log; [assumption|intros k o; reflexivity|exact Logic.I].
    + apply reqs_ext with (log s [EAsync c i (has_service s i)]); auto. apply reqs_log; [assumption|intros k o; reflexivity|discriminate].
  - assert (I' : Inv None (set_requests s (l ++ r))) by (now apply inv_ext with s).
    assert (W' : Reqs (set_requests s (l ++ r))). { apply reqs_ext with s; auto. cbn. intros q' HQ. rewrite H0. apply in_app_iff in HQ. apply in_app_iff. cbn. tauto. }
    destruct a; cbn [ready_to_accept].
    + apply reqs_log; [apply reqs_construct'; [assumption|assumption|exact (may_unused _ _ _ H2)]|intros k o; reflexivity|discriminate].
    + now apply reqs_accept_async.
    + apply reqs_log; [now apply reqs_close with None|intros k o; reflexivity|discriminate].
  - apply reqs_log; [|intros k o; reflexivity|discriminate]. apply reqs_ext with s; auto. cbn. intros q' HQ. rewrite H. apply in_app_iff in HQ. apply in_app_iff. cbn. tauto.
  - apply reqs_ext with s; auto. discriminate.
  - apply reqs_kernel_socket; [assumption|apply (v_ks None s I)].
  - destruct W as [W1 W2]. constructor; cbn.
    { intros l HL. destruct (W1 l HL) as (A & B & C). repeat (split; [assumption|]). rewrite upd_other; [assumption|congruence]. }
    intros q HQ RM SV. destruct (W2 q HQ RM SV) as [|(l & A & B & C)]; [auto|right]. exists l. cbn.
    destruct (Nat.eq_dec l k) as [->|NK]; [|rewrite upd_other by assumption; auto]. exfalso. destruct C as [C|(i & C1 & _)].
    + apply W1 in C. destruct C as (_ & _ & C). congruence.
    + apply (v_hold None s I) in C1. destruct C1 as (_ & C1 & _). congruence.
Qed.
Lemma no_overwritten k : ~ overwritten [] k.
Proof. intros (a & i & j & b & E & _). destruct a; discriminate. Qed.
Lemma reachable_reqs s : reachable s -> Reqs s.
Proof.
  induction 1 as [|s s' R IH ST]; [|apply step_reqs with s; auto; now apply reachable_inv]. constructor; cbn; [|contradiction]. intros k H. now apply no_overwritten in H.
Qed.

(** * What happens to the sockets of the operating system *)
Definition closes (l : list event) : list nat := flat_map (fun e => match e with EClose _ k => [k] | _ => [] end) l.
Record frame (s s' : state) : Prop := {
  f_n : n_ks s <= n_ks s';
  f_hist : exists l, hist s' = hist s ++ l /\ NoDup (closes l) /\ forall k, In k (closes l) -> (k_open (ks s k) = true \/ n_ks s <= k) /\ k < n_ks s' /\ k_open (ks s' k) = false;
  f_open : forall k, k < n_ks s -> k_open (ks s' k) = true -> k_open (ks s k) = true;
  f_own : forall k, k < n_ks s -> k_own (ks s' k) = k_own (ks s k);
  f_other : forall k, k < n_ks s -> k_own (ks s k) = false -> ks s' k = ks s k }.
Lemma closes_app a b : closes (a ++ b) = closes a ++ closes b.
Proof. apply flat_map_app. Qed.
Lemma frame_same s s' l : ks s' = ks s -> n_ks s' = n_ks s -> hist s' = hist s ++ l -> closes l = [] -> frame s s'.
Proof. intros E1 E2 E3 E4. constructor; rewrite ?E1, ?E2; auto. exists l. rewrite E4. split; [assumption|]. split; [constructor|intros k []]. Qed.
Lemma frame_refl s s' : ks s' = ks s -> n_ks s' = n_ks s -> hist s' = hist s -> frame s s'.
Proof. intros E1 E2 E3. apply frame_same with []; auto. now rewrite app_nil_r. Qed.
Lemma frame_trans a b c : frame a b -> frame b c -> frame a c.
Proof.
  intros [A1 (l & A2 & A3 & A4) A5 A6 A7] [B1 (m & B2 & B3 & B4) B5 B6 B7]. constructor.
  - lia.
  - exists (l ++ m). split; [rewrite B2, A2, app_assoc; reflexivity|]. rewrite closes_app. split.
    + assert (DJ : forall k, In k (closes l) -> ~ In k (closes m)). { intros k H1 H2. destruct (A4 k H1) as (_ & C1 & C2). destruct (B4 k H2) as ([C3|C3] & _); [congruence|lia]. }
      clear - A3 B3 DJ. induction (closes l) as [|x xs IH]; [assumption|]. cbn. inversion A3 as [|? ? N1 N2]. subst. constructor.
      * intros H. apply in_app_iff in H. destruct H as [H|H]; [contradiction|]. exact (DJ x (or_introl eq_refl) H).
      * apply IH; [assumption|]. intros k HK. apply DJ. now right.
    + intros k HK. apply in_app_iff in HK. destruct HK as [HK|HK].
      * destruct (A4 k HK) as (C1 & C2 & C3). split; [assumption|]. split; [lia|]. destruct (k_open (ks c k)) eqn:E; [|reflexivity]. apply B5 in E; [congruence|assumption].
      * destruct (B4 k HK) as (C1 & C2 & C3). split; [|auto]. destruct (Nat.lt_ge_cases k (n_ks a)) as [L|L]; [left|auto]. destruct C1 as [C1|C1]; [auto|lia].
  - intros k L O. apply A5; [assumption|]. apply B5; [lia|assumption].
  - intros k L. rewrite B6 by lia. auto.
  - intros k L O. rewrite B7; [auto|lia|]. rewrite A6 by assumption. assumption.
Qed.
Lemma frame_set_obj s i o : frame s (set_obj s i o).
Proof. now apply frame_refl. Qed.
Lemma frame_log s e : closes [e] = [] -> frame s (log s [e]).
Proof. intros E. now apply frame_same with [e]. Qed.
Lemma frame_kernel_socket s h b : frame s (kernel_socket s h b).
Proof.
  constructor; cbn; auto.
  - exists []. rewrite app_nil_r. split; [reflexivity|]. split; [constructor|intros k []].
  - intros k L. rewrite upd_other by lia. auto.
  - intros k L. now rewrite upd_other by lia.
  - intros k L _. now rewrite upd_other by lia.
Qed.
Lemma frame_close x s i : Inv x s -> frame s (close s i).
Proof.
  intros I. unfold close. destruct (Z.eqb_spec (o_handle (objs s i)) invalid) as [E|N]; [now apply frame_refl|].
  destruct (open_resolves x s I i N) as (k & R & H). destruct (v_hold x s I k i H) as (HO & HW & _). pose proof (held_below x s k i I H) as LK.
  set (s1 := if has_service s i then remove_socket s (o_handle (objs s i)) else s).
  assert (E1 : ks s1 = ks s /\ n_ks s1 = n_ks s /\ objs s1 = objs s /\ hist s1 = hist s /\ service s1 = service s /\ resolve s1 (o_handle (objs s i)) = Some k) by (subst s1; destruct (has_service s i); auto 20).
  clearbody s1. destruct E1 as (E1 & E2 & E3 & E4 & E5 & E6). unfold os_close. rewrite E6. unfold kernel_close, set_ks, log, set_obj. cbn [n_ks ks n_objs objs next_id requests service next_call hist].
  set (k' := Ksock _ _ _ _ _). constructor; cbn [n_ks ks hist]; rewrite ?E1, ?E2, ?E4.
  - lia.
  - exists [EClose i k]. split; [reflexivity|]. cbn. split; [constructor; [intros []|constructor]|]. intros l [<-|[]]. rewrite upd_same. auto.
  - intros l _. upd_at (ks s) k k' l; [intros F; discriminate F|auto].
  - intros l _. upd_at (ks s) k k' l; [subst l; unfold k'; cbn; now rewrite E1|reflexivity].
  - intros l _ O. rewrite upd_other; [reflexivity|congruence].
Qed.
Lemma frame_io_mode x s i a b : Inv x s -> frame s (set_io_mode s i a b).
Proof.
  intros I. pose proof (frame_close x s i I) as FC. unfold set_io_mode. destruct (resolve s _) as [k|] eqn:R; [|exact FC]. destruct b; [|exact FC].
  pose proof (resolves_to_held x s I i k R) as H. destruct (v_hold x s I k i H) as (HO & HW & _). set (k' := Ksock _ _ _ _ _). eapply frame_trans; [|apply frame_set_obj]. constructor; cbn [set_ks n_ks ks hist].
  - lia.
  - exists []. rewrite app_nil_r. split; [reflexivity|]. split; [constructor|intros l []].
  - intros l _. upd_at (ks s) k k' l; [subst l|]; auto.
  - intros l _. upd_at (ks s) k k' l; [subst l|]; auto.
  - intros l _ O. rewrite upd_other; [reflexivity|congruence].
Qed.
Lemma frame_construct s kd svc async b conn (made : option Z) : Inv None s -> match made with Some h => unused s h | None => True end ->
  frame s (match made with Some h => construct (kernel_socket s h true) kd h svc async b conn | None => construct s kd invalid svc async b conn end).
Proof.
  intros I U. pose proof (inv_built s kd async conn made I U) as I1. cbn zeta in I1.
  set (h := match made with Some h => h | None => invalid end) in *. set (s0 := match made with Some h => kernel_socket s h true | None => s end) in *. set (s1 := State _ _ _ _ _ _ _ _ _) in *.
  assert (F0 : frame s s0) by (subst s0; destruct made; [apply frame_kernel_socket|now apply frame_refl]).
  assert (F1 : frame s0 s1). { apply frame_same with (match resolve s0 h with Some k => [EOpen k (n_objs s)] | None => [] end); [reflexivity|reflexivity|reflexivity|]. now destruct (resolve s0 h). }
  assert (F2 : frame s1 (set_io_mode s1 (n_objs s) async b)) by (now apply frame_io_mode with (Some (n_objs s))).
  apply frame_trans with (set_io_mode s1 (n_objs s) async b); [apply frame_trans with s1; [apply frame_trans with s0; assumption|assumption]|].
  subst s1 s0 h. destruct made; now apply frame_refl.
Qed.
Lemma frame_construct' s kd svc async b conn h : Inv None s -> unused s h -> frame s (construct (kernel_socket s h true) kd h svc async b conn).
Proof. intros I U. exact (frame_construct s kd svc async b conn (Some h) I U). Qed.
Lemma frame_accept_async s i c : frame s (accept_async s i c).
Proof. unfold accept_async. destruct (has_service s i); [now apply frame_refl|now apply frame_log]. Qed.
Lemma step_frame s s' : Inv None s -> step s s' -> frame s s' \/ exists k, k_open (ks s k) = true /\ k_own (ks s k) = false /\ s' = kernel_close s k.
Proof.
  intros I H. destruct H; [..|right; eauto]; left.
  - exact (frame_construct s kd svc async false Disconnected None I Logic.I).
  - now apply frame_construct'.
  - now apply frame_same with [EMove i (n_objs s)].
  - now apply frame_same with [EMove i j].
  - now apply frame_same with [EMove i i].
  - unfold destroy. apply frame_trans with (close s i); [now apply frame_close with None|]. now apply frame_same with [EDestroy i].
  - now apply frame_close with None.
  - now apply frame_io_mode with None.
  - unfold listen. destruct (resolve s _) as [k|] eqn:R; [destruct ok0|]; [|now apply frame_same with [EListen i false]|now apply frame_same with [EListen i false]].
    pose proof (resolves_to_held None s I i k R) as H1. destruct (v_hold None s I k i H1) as (HO & HW & _). set (k' := Ksock _ _ _ _ _). eapply frame_trans; [|apply frame_log; reflexivity]. eapply frame_trans; [|apply frame_set_obj].
    constructor; cbn [set_ks n_ks ks hist].
    + lia.
    + exists []. rewrite app_nil_r. split; [reflexivity|]. split; [constructor|intros l []].
    + intros l _. upd_at (ks s) k k' l; [subst l|]; auto.
    + intros l _. upd_at (ks s) k k' l; [subst l|]; auto.
    + intros l _ O. rewrite upd_other; [reflexivity|congruence].
  - unfold connect. eapply frame_trans; [|apply frame_set_obj]. destruct st; [now apply frame_close with None|now apply frame_refl|now apply frame_refl].
  - destruct a; cbn [accept]; (eapply frame_trans; [|apply frame_log; reflexivity]); [apply frame_construct'; [assumption|now apply may_unused with i]|now apply frame_close with None|now apply frame_close with None].
  - eapply frame_trans; [|apply frame_accept_async]. now apply frame_same with [EAsync c i (has_service s i)].
  - assert (I' : Inv None (set_requests s (l ++ r))) by (now apply inv_ext with s). apply frame_trans with (set_requests s (l ++ r)); [now apply frame_refl|]. destruct a; cbn [ready_to_accept].
    + eapply frame_trans; [|apply frame_log; reflexivity]. apply frame_construct'; [assumption|exact (may_unused _ _ _ H2)].
    + apply frame_accept_async.
    + eapply frame_trans; [|apply frame_log; reflexivity]. now apply frame_close with None.
  - now apply frame_same with [ELost (q_call q)].
  - now apply frame_refl.
  - apply frame_kernel_socket.
Qed.
Lemma reachable_closes s : reachable s -> NoDup (closes (hist s)) /\ forall k, In k (closes (hist s)) -> k < n_ks s /\ k_open (ks s k) = false.
Proof.
  induction 1 as [|s s' R [IH1 IH2] ST]; [split; [constructor|intros k []]|]. destruct (step_frame s s' (reachable_inv s R) ST) as [[F1 (l & F2 & F3 & F4) F5 _ _]|(k & O & _ & ->)].
  - rewrite F2, closes_app. split.
    + assert (DJ : forall k, In k (closes (hist s)) -> ~ In k (closes l)). { intros k H1 H2. destruct (IH2 k H1) as (C1 & C2). destruct (F4 k H2) as ([C3|C3] & _); [congruence|lia]. }
      clear - IH1 F3 DJ. induction (closes (hist s)) as [|x xs IH]; [assumption|]. cbn. inversion IH1 as [|? ? N1 N2]. subst. constructor.
      * intros H. apply in_app_iff in H. destruct H as [H|H]; [contradiction|]. exact (DJ x (or_introl eq_refl) H).
      * apply IH; [assumption|]. intros k HK. apply DJ. now right.
    + intros k HK. apply in_app_iff in HK. destruct HK as [HK|HK]; [|destruct (F4 k HK) as (_ & A & B); auto]. destruct (IH2 k HK) as [A B]. split; [lia|]. destruct (k_open (ks s' k)) eqn:E; [|reflexivity]. apply F5 in E; [congruence|assumption].
  - cbn. split; [assumption|]. intros l HL. destruct (IH2 l HL) as [A B]. split; [assumption|]. set (k' := Ksock _ _ _ _ _). upd_at (ks s) k k' l; [reflexivity|assumption].
Qed.

(** * The properties *)
(** An object closes the sockets that it holds, and no others; no socket is closed twice. *)
Theorem closes_its_own : forall s a i b, reachable s ->
  (forall k, at_ (hist s) a (EClose i k) b -> holder a k = Some i) /\ ~ at_ (hist s) a (ECloseBad i) b.
Proof. intros s a i b R. pose proof (v_good None s (reachable_inv s R)) as G. split; [intros k E; exact (G a _ b E)|intros E; exact (G a _ b E)]. Qed.
Theorem closed_once : forall s a b c i j k, reachable s -> hist s <> a ++ EClose i k :: b ++ EClose j k :: c.
Proof.
  intros s a b c i j k R E. destruct (reachable_closes s R) as [N _]. rewrite E in N. change (EClose i k :: b ++ EClose j k :: c) with ([EClose i k] ++ b ++ [EClose j k] ++ c) in N.
  rewrite !closes_app in N. cbn [closes flat_map app] in N. apply NoDup_remove_2 in N. apply N. rewrite !in_app_iff. right. right. now left.
Qed.
(** The sockets of other parts of the program are not touched. *)
Theorem others_untouched : forall s s' k, reachable s -> step s s' -> k < n_ks s -> k_own (ks s k) = false ->
  ks s' k = ks s k \/ (s' = kernel_close s k /\ k_open (ks s k) = true).
Proof.
  intros s s' k R ST L O. destruct (step_frame s s' (reachable_inv s R) ST) as [F|(l & O1 & O2 & ->)]; [left; exact (f_other _ _ F k L O)|].
  destruct (Nat.eq_dec k l) as [->|N]; [auto|left]. cbn. now rewrite upd_other.
Qed.
(** An object is open if and only if it holds a socket; that is open, its descriptor is the object's handle, and no other object has it. *)
Theorem open_means_holds : forall s i, reachable s ->
  (is_open s i <-> exists k, holder (hist s) k = Some i) /\
  (forall k, holder (hist s) k = Some i -> alive s i /\ k_open (ks s k) = true /\ k_own (ks s k) = true /\ k_fd (ks s k) = o_handle (objs s i)) /\
  (forall j, is_open s i -> o_handle (objs s i) = o_handle (objs s j) -> i = j).
Proof.
  intros s i R. pose proof (reachable_inv s R) as I. split; [|split].
  - split; [apply (v_open None s I)|intros (k & H); now apply (holds_handle None s I) in H].
  - intros k H. destruct (v_hold None s I k i H) as (A & B & C & D & _). repeat split; auto.
  - intros j O E. destruct (open_resolves None s I i O) as (k & R1 & H1). rewrite E in R1. apply (resolves_to_held None s I) in R1. congruence.
Qed.
(** Every socket that was made for an object is held by a living object while it is open, unless its object was overwritten. *)
Theorem nothing_leaks : forall s k, reachable s -> k_own (ks s k) = true -> k_open (ks s k) = true -> ~ overwritten (hist s) k ->
  exists i, holder (hist s) k = Some i /\ alive s i.
Proof.
  intros s k R W O N. pose proof (reachable_inv s R) as I. destruct (holder (hist s) k) as [i|] eqn:H; [|now apply (v_lost None s I) in H]. exists i. split; [reflexivity|]. now apply (v_hold None s I) in H.
Qed.
Theorem all_closed_at_the_end : forall s, reachable s -> (forall i, ~ alive s i) -> (forall k, ~ overwritten (hist s) k) -> forall k, k_own (ks s k) = true -> k_open (ks s k) = false.
Proof. intros s R D N k W. destruct (k_open (ks s k)) eqn:O; [|reflexivity]. destruct (nothing_leaks s k R W O (N k)) as (i & _ & A). now apply D in A. Qed.
(** An open object's IO mode is the one its socket has; if it says that it listens its socket does. *)
Theorem io_mode_holds : forall s i k, reachable s -> holder (hist s) k = Some i ->
  k_nonblock (ks s k) = o_async (objs s i) /\ (o_listening (objs s i) = true -> k_listening (ks s k) = true).
Proof. intros s i k R H. destruct (v_hold None s (reachable_inv s R) k i H) as (_ & _ & _ & _ & A & B). split; [apply A; discriminate|assumption]. Qed.
(** Open objects have different identifiers. *)
Theorem ids_differ : forall s i j, reachable s -> is_open s i -> is_open s j -> o_id (objs s i) = o_id (objs s j) -> i = j.
Proof. intros s i j R. apply (v_ids None s (reachable_inv s R)). Qed.
(** close() leaves the object closed and closes the socket that it held; other objects and sockets stay as they are. *)
Theorem close_result : forall s i, reachable s -> let s' := close s i in
  ~ is_open s' i /\ (forall j, j <> i -> objs s' j = objs s j) /\ (forall k, holder (hist s) k = Some i -> k_open (ks s' k) = false) /\
  (forall k, holder (hist s) k <> Some i -> ks s' k = ks s k) /\ (~ is_open s i -> s' = s).
Proof.
  intros s i R. cbn zeta. pose proof (reachable_inv s R) as I. destruct (inv_close None s i I) as (_ & A & B & _). split; [unfold is_open; rewrite A; intros F; now apply F|]. split; [assumption|].
  unfold close. destruct (Z.eqb_spec (o_handle (objs s i)) invalid) as [E|N].
  { split; [intros k H; now apply (closed_holds s i I E) in H|auto]. }
  destruct (open_resolves None s I i N) as (k & R1 & H).
  set (s1 := if has_service s i then remove_socket s (o_handle (objs s i)) else s). assert (E1 : ks s1 = ks s /\ resolve s1 (o_handle (objs s i)) = Some k) by (subst s1; destruct (has_service s i); auto). clearbody s1. destruct E1 as [E1 E2].
  unfold os_close. rewrite E2. cbn. rewrite E1. split; [|split; [|contradiction]].
  - intros l HL. rewrite (one_socket None s I l k i HL H), upd_same. reflexivity.
  - intros l HL. rewrite upd_other; [reflexivity|congruence].
Qed.
(** A moved-from object is closed, does not listen and is not connected; the other one has what it had. *)
Theorem move_result : forall s i j s', reachable s -> alive s i -> i <> j ->
  (s' = move_construct s i /\ j = n_objs s) \/ (s' = move_assign s i j /\ alive s j) ->
  let o := objs s i in let a := objs s' i in let b := objs s' j in
  (o_handle b, o_service b, o_id b, o_async b, o_listening b, o_conn b) = (o_handle o, o_service o, o_id o, o_async o, o_listening o, o_conn o) /\
  ~ is_open s' i /\ o_listening a = false /\ o_conn a = Disconnected /\ alive s' j /\
  (forall k, holder (hist s) k = Some i -> holder (hist s') k = Some j) /\ (forall l, l <> i -> l <> j -> objs s' l = objs s l).
Proof.
  intros s i j s' R AL NE HS. pose proof (reachable_inv s R) as I.
  assert (E : objs s' i = moved_from (objs s i) /\ objs s' j = moved_into (objs s i) /\ hist s' = hist s ++ [EMove i j] /\ (forall l, l <> i -> l <> j -> objs s' l = objs s l)).
  { destruct HS as [[-> ->]|[-> _]]; cbn; rewrite upd_same, (upd_other _ i _ _ (not_eq_sym NE)), upd_same; (repeat split; auto; intros l N1 N2; now rewrite !upd_other). }
  destruct E as (E1 & E2 & E3 & E4). cbn zeta. unfold is_open, alive. rewrite E1, E2, E3. cbn. repeat (split; [auto|]); [|assumption].
  intros k H. rewrite holder_snoc, H. cbn. destruct (Nat.eqb_spec i j); [contradiction|]. now rewrite Nat.eqb_refl.
Qed.

(** ** Listening *)
(** A socket that was accepted is connected, has the IO mode of the listener, and is open unless that mode could not be set. *)
Theorem accepted_socket : forall s i h b, reachable s -> alive s i -> may_answer s i (Accepted h) ->
  forall s' j, (s' = accept s i (Accepted h) b \/ exists c, s' = ready_to_accept s i c (Accepted h) b) -> j = n_objs s ->
  alive s' j /\ ~ alive s j /\ o_kind (objs s' j) = Tcp /\ o_conn (objs s' j) = Connected /\ (o_handle (objs s' j) = h \/ ~ is_open s' j) /\
  (s' = accept s i (Accepted h) b -> o_async (objs s' j) = o_async (objs s i)) /\ objs s' i = objs s i.
Proof.
  intros s i h b R AL MA s' j HS ->. pose proof (reachable_inv s R) as I. pose proof (may_unused s i h MA) as U.
  assert (NE : i <> n_objs s) by (intros ->; unfold alive in AL; rewrite (v_objs None s I) in AL by lia; discriminate).
  assert (ND : ~ alive s (n_objs s)) by (unfold alive; rewrite (v_objs None s I) by lia; discriminate).
  destruct HS as [->|(c & ->)]; cbn [accept ready_to_accept].
  - destruct (inv_construct s Tcp false (o_async (objs s i)) b Connected (Some h) I U) as (_ & A1 & A2 & A3 & A4 & A5 & A6 & A7 & A8 & A9 & A10 & A11 & A12 & A13).
    cbn [log objs]. unfold alive, is_open. cbn [log objs]. split; [assumption|]. split; [assumption|]. split; [assumption|]. split; [assumption|]. split; [destruct (A13 h eq_refl) as [->| ->]; auto|]. split; [auto|now apply A1].
  - destruct (inv_construct s Tcp (has_service s i) true b Connected (Some h) I U) as (_ & A1 & A2 & A3 & A4 & A5 & A6 & A7 & A8 & A9 & A10 & A11 & A12 & A13).
    unfold alive, is_open. cbn [log objs]. split; [assumption|]. split; [assumption|]. split; [assumption|]. split; [assumption|]. split; [destruct (A13 h eq_refl) as [->| ->]; auto|]. split; [|now apply A1].
    intros E. apply (f_equal hist) in E. cbn [accept log hist] in E. apply (f_equal (fun l => last l (EDestroy 0))) in E. rewrite !last_last in E. discriminate.
Qed.
(** If accept() gives nothing, or a callback is given nothing, the listener is closed at that moment. *)
Theorem failed_accept_closed : forall s a i b, reachable s ->
  at_ (hist s) a (EAccept i None) b \/ (exists c, at_ (hist s) a (ECall c i None) b) -> forall k, holder a k <> Some i.
Proof. intros s a i b R [E|(c & E)]; exact (v_good None s (reachable_inv s R) a _ b E). Qed.
(** accept_async returns true if and only if the socket has a service.  Then its callback is invoked once, or destroyed, or still waits;
    otherwise it is destroyed. *)
Theorem each_call_ends_once : forall s c i b, reachable s -> In (EAsync c i b) (hist s) ->
  length (filter (ended c) (hist s)) <= 1 /\ (length (filter (ended c) (hist s)) = 1 <-> ~ is_pending s c) /\
  (forall j r, In (ECall c j r) (hist s) -> j = i /\ b = true).
Proof.
  intros s c i b R HA. destruct (reachable_calls s R) as [C1 C2 C3 C4 C5]. pose proof (C4 c i b HA) as L. specialize (C1 c). rewrite (proj2 (Nat.ltb_lt c (next_call s)) L) in C1. unfold count in C1.
  split; [lia|]. split.
  - assert (P : is_pending s c <-> waiting c (requests s) <> 0).
    { unfold is_pending, waiting. split.
      - intros (q & HQ & EQ) E. apply length_zero_iff_nil in E. assert (F : In q (filter (fun q => q_call q =? c) (requests s))) by (apply filter_In; rewrite EQ, Nat.eqb_refl; auto). rewrite E in F. destruct F.
      - intros N. destruct (filter _ (requests s)) as [|q l] eqn:E; [now contradiction N|]. assert (F : In q (filter (fun q => q_call q =? c) (requests s))) by (rewrite E; now left). apply filter_In in F. destruct F as [F1 F2]. apply Nat.eqb_eq in F2. eauto. }
    rewrite P. lia.
  - intros j r HC. apply C3 in HC. destruct (C5 _ _ _ _ _ HA HC) as [-> ->]. auto.
Qed.
Theorem async_true_with_service : forall s i, reachable s -> alive s i -> o_kind (objs s i) = Listen ->
  let b := o_service (objs s i) && service s in
  exists s', step s s' /\ In (EAsync (next_call s) i b) (hist s') /\ (is_pending s' (next_call s) <-> b = true) /\ objs s' = objs s /\ ks s' = ks s.
Proof.
  intros s i R AL K b. eexists. split; [exact (s_async s i AL K)|]. unfold accept_async, has_service. cbn [objs service]. fold b. destruct b.
  - cbn. split; [apply in_app_iff; right; now left|]. split; [|auto]. split; [auto|]. intros _. exists (Pending (next_call s) i (o_handle (objs s i)) false). split; [apply in_app_iff; right; now left|reflexivity].
  - cbn. split; [apply in_app_iff; left; apply in_app_iff; right; now left|]. split; [|auto]. split; [|discriminate]. intros (q & HQ & EQ). cbn in HQ.
    destruct (reachable_calls s R) as [_ C2 _ C4 _]. apply C2, C4 in HQ. lia.
Qed.
(** While the service exists, a request that it was not told to forget is for an open socket, unless the listener was closed when
    accept_async was called. *)
Theorem requests_are_for_open_sockets : forall s q, reachable s -> service s = true -> In q (requests s) -> q_removed q = false ->
  q_handle q = invalid \/ exists k, k_open (ks s k) = true /\ k_own (ks s k) = true /\ k_fd (ks s k) = q_handle q.
Proof.
  intros s q R SV HQ RM. pose proof (reachable_reqs s R) as W. destruct (w_req s W q HQ RM SV) as [|(k & A & B & C)]; [auto|right]. exists k. split; [assumption|]. split; [|assumption].
  destruct C as [C|(i & C & _)]; [now apply (w_over s W) in C|now apply (v_hold None s (reachable_inv s R)) in C].
Qed.

(** * What does not hold, and examples *)
Definition two_sockets : state := construct (kernel_socket (construct (kernel_socket initial 3 true) Tcp 3 false false true Disconnected) 4 true) Tcp 4 false false true Disconnected.
Lemma two_sockets_reachable : reachable two_sockets.
Proof.
  apply r_step with (construct (kernel_socket initial 3 true) Tcp 3 false false true Disconnected); [apply r_step with initial; [constructor|]|]; apply s_new; try discriminate; (split; [cbv; discriminate|reflexivity]).
Qed.
(** A socket that is assigned to while it is open: what it held is never closed. *)
Theorem assignment_leaks_refuted : exists s k, reachable s /\ (forall i, ~ alive s i) /\ k_own (ks s k) = true /\ k_open (ks s k) = true.
Proof.
  exists (destroy (destroy (move_assign two_sockets 0 1) 0) 1), 1.
  assert (R : reachable (destroy (destroy (move_assign two_sockets 0 1) 0) 1)).
  { apply r_step with (destroy (move_assign two_sockets 0 1) 0); [|apply s_destroy; reflexivity]. apply r_step with (move_assign two_sockets 0 1); [|apply s_destroy; reflexivity].
    apply r_step with two_sockets; [apply two_sockets_reachable|]. apply s_assign; [reflexivity|reflexivity|discriminate|reflexivity]. }
  split; [exact R|]. split; [|split; reflexivity]. intros i. unfold alive. destruct i as [|[|i]]; [discriminate|discriminate|]. rewrite (v_objs None _ (reachable_inv _ R)); [discriminate|]. change (2 <= S (S i)). lia.
Qed.
Definition listener : state := listen (construct (kernel_socket initial 3 true) Listen 3 true true true Disconnected) 0 true.
Lemma listener_reachable : reachable listener.
Proof.
  apply r_step with (construct (kernel_socket initial 3 true) Listen 3 true true true Disconnected); [apply r_step with initial; [constructor|]; apply s_new; [reflexivity|split; [cbv; discriminate|reflexivity]]|]. apply s_listen; reflexivity.
Qed.
(** is_listening() stays true after close(). *)
Theorem listening_after_close_refuted : exists s i, reachable s /\ alive s i /\ o_listening (objs s i) = true /\ ~ is_open s i.
Proof. exists (close listener 0), 0. split; [apply r_step with listener; [apply listener_reachable|apply s_close; reflexivity]|]. split; [reflexivity|]. split; [reflexivity|]. intros H. now apply H. Qed.
(** socket_id() of a moved-from object is that of the object it was moved into. *)
Theorem same_id_refuted : exists s i j, reachable s /\ alive s i /\ alive s j /\ i <> j /\ o_id (objs s i) = o_id (objs s j).
Proof. exists (move_construct listener 0), 0, 1. split; [apply r_step with listener; [apply listener_reachable|apply s_move; reflexivity]|]. repeat split; discriminate. Qed.
(** A socket that was accepted can be closed although it says that it is connected. *)
Theorem connected_but_closed_refuted : exists s i j, reachable s /\ In (EAccept i (Some j)) (hist s) /\ alive s j /\ o_conn (objs s j) = Connected /\ ~ is_open s j.
Proof.
  exists (accept listener 0 (Accepted 4) false), 0, 1. split.
  - apply r_step with listener; [apply listener_reachable|]. apply s_accept; [reflexivity|reflexivity|]. split; [split; [cbv; discriminate|reflexivity]|]. exists 0. split; reflexivity.
  - split; [vm_compute; tauto|]. split; [reflexivity|]. split; [reflexivity|]. intros H. now apply H.
Qed.
(** A listener accepts a socket for a callback; a second call still waits; the listener is closed, and all objects are destroyed in the end. *)
Definition with_calls : state :=
  let call s := accept_async (State (n_ks s) (ks s) (n_objs s) (objs s) (next_id s) (requests s) (service s) (S (next_call s)) (hist s ++ [EAsync (next_call s) 0 (has_service s 0)])) 0 (next_call s) in call (call listener).
Definition answered : state := ready_to_accept (set_requests with_calls [Pending 1 0 3 false]) 0 0 (Accepted 7) true.
Example example_accept : exists s, reachable s /\ In (EAsync 0 0 true) (hist s) /\ In (ECall 0 0 (Some 1)) (hist s) /\ holder (hist s) 1 = Some 1 /\ is_pending s 1 /\ is_open s 0 /\ is_open s 1 /\
  k_nonblock (ks s 1) = true /\
  exists s', reachable s' /\ In (ELost 1) (hist s') /\ (forall i, ~ alive s' i) /\ (forall k, ~ overwritten (hist s') k) /\ In (EClose 0 0) (hist s') /\ In (EClose 1 1) (hist s').
Proof.
  assert (R1 : reachable with_calls).
  { eapply r_step; [eapply r_step; [apply listener_reachable|apply (s_async listener 0); reflexivity]|]. apply (s_async _ 0); reflexivity. }
  assert (R2 : reachable answered).
  { apply r_step with with_calls; [assumption|]. apply (s_fire with_calls [] (Pending 0 0 3 false) [Pending 1 0 3 false] (Accepted 7) true); [reflexivity|reflexivity|reflexivity|].
    split; [split; [cbv; discriminate|reflexivity]|]. exists 0. split; reflexivity. }
  exists answered. split; [assumption|]. split; [vm_compute; tauto|]. split; [vm_compute; tauto|]. split; [reflexivity|]. split; [exists (Pending 1 0 3 false); split; [now left|reflexivity]|].
  split; [discriminate|]. split; [discriminate|]. split; [reflexivity|].
  set (s1 := close answered 0). assert (R3 : reachable s1) by (apply r_step with answered; [assumption|apply s_close; reflexivity]).
  set (s2 := log (set_requests s1 []) [ELost 1]). assert (R4 : reachable s2). { apply r_step with s1; [assumption|]. apply (s_forget s1 [] (Pending 1 0 3 true) []); [reflexivity|]. right. now left. }
  set (s3 := destroy (destroy s2 1) 0). assert (R5 : reachable s3). { apply r_step with (destroy s2 1); [|apply s_destroy; reflexivity]. apply r_step with s2; [assumption|apply s_destroy; reflexivity]. }
  exists s3. split; [assumption|]. split; [vm_compute; tauto|]. split; [|split; [|split; vm_compute; tauto]].
  - intros i. unfold alive. destruct i as [|[|i]]; [discriminate|discriminate|]. rewrite (v_objs None _ (reachable_inv _ R5)); [discriminate|]. change (2 <= S (S i)). lia.
  - intros k (a & i & j & b & E & _). assert (F : In (EMove i j) (hist s3)) by (rewrite E; apply in_app_iff; right; now left). vm_compute in F. repeat (destruct F as [F|F]; [discriminate|]). destruct F.
Qed.
(** Other parts of the program: their descriptor is used again after it was closed. *)
Example example_reuse : exists s, reachable s /\ k_own (ks s 0) = false /\ k_fd (ks s 0) = 5%Z /\ k_open (ks s 0) = false /\ holder (hist s) 1 = Some 0 /\ k_fd (ks s 1) = 5%Z.
Proof.
  exists (construct (kernel_socket (kernel_close (kernel_socket initial 5 false) 0) 5 true) Udp 5 false true true Disconnected). split.
  - apply r_step with (kernel_close (kernel_socket initial 5 false) 0).
    + apply r_step with (kernel_socket initial 5 false); [apply r_step with initial; [constructor|apply s_other_open; split; [cbv; discriminate|reflexivity]]|]. apply s_other_close; [cbn; lia|reflexivity|reflexivity].
    + apply s_new; [discriminate|split; [cbv; discriminate|reflexivity]].
  - repeat split.
Qed.
