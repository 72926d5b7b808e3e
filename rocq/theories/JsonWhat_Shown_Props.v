(** C78: which instance the exceptions of fly::Json and its iterators show. *)
From Coq Require Import String.
From Verif Require Import Common Lexer_Model Unicode_Model Format_Model Format_Spec Format_Proofs Format_Props FormatString_Model FormatString_Props Join_Spec Join_Props Unicode_Spec Unicode_Proofs Json_Model Json_Spec Json_String_Proofs Json_Props
  JsonApi_Model JsonWhat_Model JsonWhat_Spec JsonWhat_Props.
Import List.ListNotations.
Open Scope list_scope.
Open Scope Z_scope.
(** The reasons of an iterator's operation that moves by [o]: its own instance and offset; only an iterator without an instance shows none. *)
Definition shows (w : world) (it : iterator) (o : Z) (x : option reason) : Prop := forall r, x = Some r ->
  let its j := exists s, owner it = Some s /\ read w s = Some j in
  match r with
  | Nothing => owner it = None
  | NothingAt j | AtIterator _ j => its j
  | OutOfRange n j => n = o /\ its j
  | Bare _ | About _ _ | Different _ _ => False
  end.
Lemma shows_validated w it o f : (forall s j, owner it = Some s -> read w s = Some j -> shows w it o (f j)) -> shows w it o (explain_validated w it f).
Proof.
  intros H r E. unfold explain_validated in E. destruct (owner it) as [s|] eqn:EO; [|injection E as <-; cbn; auto]. destruct (read w s) as [j|] eqn:ER; [|discriminate]. pose proof (H s j eq_refl ER r E) as G. cbn zeta in *. rewrite EO in G. exact G.
Qed.
Lemma shows_advance w it o p s j : owner it = Some s -> read w s = Some j -> shows w it o (explain_advance p j o).
Proof. intros E1 E2 r. unfold explain_advance. destruct (_ <? _); [|discriminate]. intros E. injection E as <-. cbn. eauto. Qed.
Lemma shows_element w it o p s j : owner it = Some s -> read w s = Some j -> shows w it o (explain_element p j).
Proof. intros E1 E2 r. unfold explain_element. destruct (Nat.eqb _ _); [|discriminate]. intros E. injection E as <-. cbn. eauto. Qed.
Lemma shows_array w it o s j m x : owner it = Some s -> read w s = Some j -> shows w it o x -> shows w it o (only_array j m x).
Proof. intros E1 E2 H. unfold only_array. destruct j; try exact H; intros r E; injection E as <-; cbn; eauto. Qed.
Theorem iterator_shown : forall w it o,
  shows w it 0 (explain_deref w it) /\ shows w it 1 (explain_increment w it) /\ shows w it (-1) (explain_decrement w it) /\
  shows w it o (explain_add w it o) /\ shows w it o (explain_offset_by w it o) /\ shows w it 0 (explain_key w it).
Proof.
  intros w it o. split; [apply shows_validated; intros; eapply shows_element; eauto|]. split; [apply shows_validated; intros; eapply shows_advance; eauto|]. split; [apply shows_validated; intros; eapply shows_advance; eauto|].
  split; [apply shows_validated; intros; eapply shows_array; eauto; eapply shows_advance; eauto|]. split; apply shows_validated; intros s j E1 E2.
  - eapply shows_array; eauto. pose proof (shows_advance w it o (position it) s j E1 E2) as H. destruct (explain_advance (position it) j o) eqn:E; cbn [first_of]; [exact H|eapply shows_element; eauto].
  - destruct j; try (intros r E; injection E as <-; cbn; eauto). eapply shows_element; eauto.
Qed.
(** Two iterators: both instances, the left one first. *)
Theorem both_shown : forall w a b r, explain_equal w a b = Some r \/ explain_less w a b = Some r \/ explain_difference w a b = Some r ->
  match r with
  | Different x y => exists s t, owner a = Some s /\ owner b = Some t /\ read w s = Some x /\ read w t = Some y /\ s <> t
  | AtIterator _ j => exists s, owner a = Some s /\ read w s = Some j
  | Nothing => owner a = None \/ owner b = None
  | _ => False
  end.
Proof.
  intros w a b r H.
  assert (G : forall f, (forall j r, f j = Some r -> exists m, r = AtIterator m j) -> explain_validated2 w a b f = Some r -> match r with
    | Different x y => exists s t, owner a = Some s /\ owner b = Some t /\ read w s = Some x /\ read w t = Some y /\ s <> t
    | AtIterator _ j => exists s, owner a = Some s /\ read w s = Some j | Nothing => owner a = None \/ owner b = None | _ => False end).
  { intros f HF E. unfold explain_validated2 in E. destruct (owner a) as [s|]; [|injection E as <-; auto]. destruct (owner b) as [t|]; [|injection E as <-; auto].
    destruct (read w s) as [x|] eqn:E1; [|discriminate]. destruct (read w t) as [y|] eqn:E2; [|discriminate]. destruct (ref_dec s t) as [->|N].
    - destruct (HF x r E) as (m & ->). eauto.
    - injection E as <-. exists s, t. auto. }
  destruct H as [H|[H|H]]; (eapply G; [|exact H]); intros j r' E; [discriminate| |]; (destruct j; try discriminate; injection E as <-; eauto).
Qed.

Definition iterators_of (o : operation) : Prop := match o with InsertRange _ _ | InsertAt _ _ | InsertAtRange _ _ _ | EraseAt _ | EraseRange _ _ => True | _ => False end.
Definition key_given (o : operation) : option (list Z) :=
  match o with AtKey k | SubscriptKey k | InsertKey k _ | InsertOrAssign k _ | EmplaceKey k _ | EraseKey k | Count k | Find k | Contains k => Some k | _ => None end.
Definition mentions (j : json) (x : option (res reason)) : Prop := forall r, x = Some (Ok r) -> exists m, r = About m j \/ r = AtIterator m j \/ r = NothingAt j.
Lemma mentions_first j x y : mentions j x -> mentions j y -> mentions j (first_of x y). Proof. intros A B. destruct x; assumption. Qed.
Lemma mentions_text j (t : res (list Z)) : mentions j (Some (let! m := t in Ok (About m j))). Proof. destruct t as [m|]; intros r E; [injection E as <-; eauto|discriminate]. Qed.
Lemma mentions_index j sg l n : mentions j (index_reason sg j l n).
Proof. unfold index_reason. destruct (_ <=? n); [apply mentions_text|intros r E; discriminate]. Qed.
(** If neither the key nor an iterator is to blame, the instance is shown. *)
Theorem instance_shown : forall sg at_ self t o j r, ~ iterators_of o -> (forall k, key_given o = Some k -> Forall byte k /\ convert_to_string sg k <> None) ->
  explain sg at_ self t o j = Some (Ok r) -> exists m, r = About m j \/ r = AtIterator m j \/ r = NothingAt j.
Proof.
  intros sg at_ self t o j r HI HK. revert r. change (mentions j (explain sg at_ self t o j)).
  assert (KN : forall k, key_given o = Some k -> key_reason sg k = None).
  { intros k E. destruct (HK k E) as (HB & HC). pose proof (key_agrees sg k HB) as H. unfold key_of in H. destruct (key_reason sg k); [destruct H; congruence|reflexivity]. }
  destruct o; cbn [explain iterators_of key_given] in *; try contradiction; unfold want_object, want_array, need_object, need_array, in_array; try rewrite (KN _ eq_refl); cbn [first_of];
  repeat match goal with
  | |- mentions _ None => intros ? ?; discriminate
  | |- mentions _ (Some (Ok _)) => let E := fresh in intros ? E; injection E as <-; first [eexists; left; reflexivity | eexists; right; left; reflexivity | exists []; right; right; reflexivity]
  | |- mentions ?j (index_reason _ ?j _ _) => apply mentions_index
  | |- mentions ?j (Some (bind _ (fun m => Ok (About m ?j)))) => apply mentions_text
  | |- mentions _ (first_of _ _) => apply mentions_first
  | |- mentions _ (match ?x with _ => _ end) => is_var x; destruct x
  | |- mentions _ (match ?x with _ => _ end) => destruct x
  end.
Qed.

(** * Examples *)
Example shown_example : let w := fun x : nat => if Nat.eqb x 0 then JArray [JNull] else JArray [] in let a := Iterator (Some (0%nat, [])) 1 in let b := Iterator (Some (1%nat, [])) 0 in
  explain_add w a 3 = Some (OutOfRange 3 (JArray [JNull])) /\ explain_equal w a b = Some (Different (JArray [JNull]) (JArray [])) /\
  explain true (read w) (0%nat, []) ViewedKey (EraseIndex 4) (JArray [JNull]) = Some (Ok (About (words "Given index (4) not found") (JArray [JNull]))).
Proof. split; [reflexivity|]. split; [vm_compute; reflexivity|vm_compute; reflexivity]. Qed.
Print Assumptions instance_shown.
