(** C73: JSON arrays and the standard containers. *)
From Coq Require Import Permutation.
From Verif Require Import Common Format_Model Json_Spec Json_Model JsonApi_Model JsonConv_Model JsonSets_Model JsonSets_Spec JsonSets_Proofs.
From Verif Require Json_Order_Props.
Open Scope Z_scope.

(** * From JSON *)
(** Whatever the elements' own conversion does, converting an array ends in one of three ways: every element was converted and the container holds
    them; or some element could not be converted and the first that could not decides - its exception comes out, or the behaviour is undefined. *)
Theorem container_conversion : forall A P (k : kind A) f l o, usable P k -> (forall v x, In v l -> f v = Return x -> P x) ->
  to_container k f (JArray l) o ->
  match o with
  | Return c => exists xs, Forall2 (fun v x => f v = Return x) l xs /\ holds P k xs c
  | Throw _ | Undefined => exists a v b, l = a ++ v :: b /\
      match o with Throw e => f v = Throw e | _ => f v = Undefined end /\ Forall (fun w => exists x, f w = Return x) a
  end.
Proof.
  intros A P k f l o HU HP H. pose proof (filled_holds P k f l [] o HU H HP [] (Forall_nil _) (holds_nil P k)) as K. destruct o as [c|e|]; [|exact K|exact K].
  destruct K as (xs & F & _ & HH). exists xs. auto.
Qed.
Theorem container_conversion_total : forall A (k : kind A) f j, exists o, to_container k f j o.
Proof. intros A k f [|m|l| | | | |]; try (eexists; reflexivity). apply (filled_total k f l []). Qed.
Theorem container_conversion_refused : forall A (k : kind A) f j o, (forall l, j <> JArray l) -> (to_container k f j o <-> o = Throw JsonException).
Proof. intros A k f [|m|l| | | | |] o H; cbn; try reflexivity. now specialize (H l). Qed.
(** But for the unordered containers, whose order is the library's affair, the values decide the container. *)
Theorem container_determined : forall A P (k : kind A) xs c c', usable P k -> ~ hashed k -> Forall P xs -> holds P k xs c -> holds P k xs c' -> c = c'.
Proof. exact @holds_determined. Qed.

(** * To JSON *)
(** The array has the container's elements in iteration order; the size announced beforehand is their number. *)
Theorem container_to_json : forall A (k : kind A) (g : A -> outcome json) c,
  fst (of_container k g c) = length c /\
  match snd (of_container k g c) with
  | Return j => exists vs, j = JArray vs /\ Forall2 (fun x v => g x = Return v) c vs
  | Throw e => exists a x b, c = a ++ x :: b /\ g x = Throw e /\ Forall (fun y => exists v, g y = Return v) a
  | Undefined => exists a x b, c = a ++ x :: b /\ g x = Undefined /\ Forall (fun y => exists v, g y = Return v) a
  end.
Proof.
  intros A k g c. split; [apply array_size_length|]. unfold of_container. cbn [snd]. pose proof (push_all_ok g c []) as H.
  destruct (push_all g c []) as [l'|e|]; [|exact H|exact H]. destruct H as (vs & -> & F). exists vs. auto.
Qed.

(** * And back *)
(** A container whose elements survive the way to JSON and back survives it itself: unordered ones up to their order. *)
Theorem container_round_trip : forall A P (k : kind A) (f : json -> outcome A) g c, usable P k -> Forall P c -> valid k c ->
  (forall x, In x c -> exists v, g x = Return v /\ f v = Return x) ->
  exists j, snd (of_container k g c) = Return j /\
    forall o, to_container k f j o -> exists c', o = Return c' /\ Permutation c c' /\ (~ hashed k -> c' = c).
Proof.
  intros A P k f g c HU HP HV HG. destruct (container_to_json A k g c) as (_ & H). destruct (snd (of_container k g c)) as [j|e|].
  2,3: destruct H as (a & x & b & -> & E & _); destruct (HG x) as (v & E' & _); [apply in_or_app; right; now left|congruence].
  destruct H as (vs & -> & F). exists (JArray vs). split; [reflexivity|]. intros o HO.
  assert (F' : Forall2 (fun v x => f v = Return x) vs c).
  { clear -F HG. induction F as [|x v c vs E F IH]; constructor; [|apply IH; intros y I; apply HG; now right].
    destruct (HG x) as (w & E1 & E2); [now left|]. rewrite E in E1. now injection E1 as <-. }
  assert (DH : hashed k \/ ~ hashed k) by (destruct k; cbn; tauto). destruct DH as [DH|DH].
  - destruct (filled_hashed k f vs [] o DH HO [] c HV (perm_nil _) F') as (c' & -> & HP'). exists c'. split; [reflexivity|]. split; [exact HP'|]. contradiction.
  - assert (PV : forall v x, In v vs -> f v = Return x -> P x).
    { intros v x IV EV. clear -F' HP IV EV. induction F' as [|w y vs c E F IH]; [destruct IV|]. inversion_clear HP. destruct IV as [->|IV]; [|auto].
      rewrite E in EV. now injection EV as <-. }
    pose proof (container_conversion A P k f vs o HU PV HO) as K. destruct o as [c'|e|].
    + destruct K as (xs & FX & HH). assert (xs = c).
      { clear -F' FX. revert c F'. induction FX as [|v x vs xs E F IH]; intros c F'; inversion F'; subst; [reflexivity|]. f_equal; [congruence|]. match goal with H : Forall2 _ vs _ |- _ => now apply IH end. }
      subst xs. assert (c' = c). { apply (container_determined A P k c); auto. now apply holds_self. } subst c'. exists c. auto.
    + destruct K as (a & v & b & -> & E & _). exfalso. apply Forall2_app_inv_l in F'. destruct F' as (c1 & c2 & _ & F2 & _). inversion F2. congruence.
    + destruct K as (a & v & b & -> & E & _). exfalso. apply Forall2_app_inv_l in F'. destruct F' as (c1 & c2 & _ & F2 & _). inversion F2. congruence.
Qed.

(** * Elements that can be compared *)
(** Integers and JSON values holding signed integers only; not JSON values of all kinds, whose < is no order. *)
Theorem integers_usable : usable (fun _ : Z => True) (Sorted Z.ltb) /\ usable (fun _ : Z => True) (SortedMulti Z.ltb) /\ usable (fun _ : Z => True) (Hashed Z.eqb).
Proof.
  assert (W : weak_order (fun _ : Z => True) Z.ltb).
  { intros a b c _ _ _. split; [apply Z.ltb_irrefl|]. split; [rewrite !Z.ltb_lt; lia|]. unfold like. rewrite !Bool.andb_true_iff, !Bool.negb_true_iff, !Z.ltb_ge. lia. }
  split; [exact W|]. split; [exact W|]. intros a b c _ _ _. rewrite !Z.eqb_eq. repeat split; lia.
Qed.
Theorem json_set_usable_partial : forall ff, usable (all_numbers in_int64 never never) (Sorted (json_lt ff)).
Proof.
  intros ff a b c HA HB HC. destruct (Json_Order_Props.order_signed_partial ff a b c HA HB HC) as (I & T & E & _).
  destruct (Json_Order_Props.order_signed_partial ff b c a HB HC HA) as (_ & _ & E2 & _). destruct (Json_Order_Props.order_signed_partial ff a c b HA HC HB) as (_ & _ & E3 & _).
  destruct (Json_Order_Props.order_signed_partial ff a b c HA HB HC) as (_ & _ & _ & _ & _ & TR).
  split; [exact I|]. split; [exact T|]. unfold like. intros L1 L2. apply andb_prop in L1, L2. rewrite !Bool.negb_true_iff in L1, L2. apply E in L1. apply E2 in L2.
  apply andb_true_intro. rewrite !Bool.negb_true_iff. now apply E3, TR.
Qed.
Theorem json_set_refuted : ~ usable (fun _ => True) (Sorted (json_lt x87)).
Proof.
  intros H. destruct Json_Order_Props.order_asymmetric_refuted as (L1 & L2).
  destruct (H (JUnsigned 5) (JSigned (-1)) (JUnsigned 5) I I I) as (IR & TR & _). rewrite (TR L1 L2) in IR. discriminate.
Qed.

(** * The theorems apply *)
Definition to_int (j : json) : outcome Z := match j with JSigned z | JUnsigned z => Return z | _ => Throw JsonException end.
Definition of_int (z : Z) : outcome json := Return (JSigned z).
Definition numbers_of (l : list Z) : json := JArray (map JSigned l).
Example a_set : to_container (Sorted Z.ltb) to_int (numbers_of [3; 1; 3; 2]) (Return [1; 2; 3]).
Proof. repeat (eapply filled_more; [reflexivity|apply app_sorted|]). apply filled_end. Qed.
Example a_multiset : to_container (SortedMulti Z.ltb) to_int (numbers_of [3; 1; 3; 2]) (Return [1; 2; 3; 3]).
Proof. repeat (eapply filled_more; [reflexivity|apply app_multi|]). apply filled_end. Qed.
Example a_forward_list : to_container Forward to_int (numbers_of [3; 1; 3; 2]) (Return [3; 1; 3; 2]).
Proof. repeat (eapply filled_more; [reflexivity|apply app_forward|]). apply filled_end. Qed.
Example an_unordered_set : to_container (Hashed Z.eqb) to_int (numbers_of [3; 1; 3]) (Return [1; 3]).
Proof.
  eapply filled_more; [reflexivity|apply (app_hashed Z.eqb [] 3 [] []); reflexivity|]. eapply filled_more; [reflexivity|apply (app_hashed Z.eqb [3] 1 [] [3]); reflexivity|].
  eapply filled_more; [reflexivity|apply app_hashed_present; reflexivity|]. apply filled_end.
Qed.
Example a_bad_element : to_container Sequence to_int (JArray [JSigned 1; JNull; JSigned 2]) (Throw JsonException).
Proof. eapply filled_more; [reflexivity|apply app_sequence|]. now apply filled_throw. Qed.
Example values_held : holds (fun _ => True) (Sorted Z.ltb) [3; 1; 3; 2] [1; 2; 3] /\ valid (Hashed Z.eqb) [3; 1; 2].
Proof.
  split.
  - destruct integers_usable as (U & _). destruct (container_conversion Z (fun _ => True) (Sorted Z.ltb) to_int _ _ U (fun _ _ _ _ => I) a_set) as (xs & F & HH).
    assert (xs = [3; 1; 3; 2]); [|now subst]. repeat (inversion F as [|? ? ? ? E F']; subst; clear F; injection E as <-; rename F' into F; f_equal). now inversion F.
  - assert (H : forall l : list Z, NoDup l -> forall a x b y d, l = a ++ x :: b ++ y :: d -> Z.eqb y x = false).
    { intros l H a x b y d ->. apply NoDup_remove_2 in H. apply Z.eqb_neq. intros ->. apply H. apply in_or_app. right. apply in_or_app. right. now left. }
    cbn. apply H. repeat constructor; cbn; intuition discriminate.
Qed.
Example goes_back : exists j, snd (of_container (Sorted Z.ltb) of_int [1; 2; 3]) = Return j /\
  forall o, to_container (Sorted Z.ltb) to_int j o -> exists c', o = Return c' /\ Permutation [1; 2; 3] c' /\ (~ hashed (Sorted Z.ltb) -> c' = [1; 2; 3]).
Proof.
  destruct integers_usable as (U & _). apply (container_round_trip Z (fun _ => True)); [exact U|repeat constructor| |].
  - assert (H : forall a x b y d, [1; 2; 3] = a ++ x :: b ++ y :: d -> (x <? y) = true).
    { intros a x b y d E. destruct a as [|a0 [|a1 a]]; cbn in E; injection E as; subst.
      - destruct b as [|b0 [|b1 b]]; cbn in *; try (injection H0 as); subst; try reflexivity. destruct b; discriminate.
      - destruct b as [|b0 b]; cbn in *; try (injection H1 as); subst; try reflexivity. destruct b; discriminate.
      - destruct a as [|a2 a]; cbn in *; [injection H1 as; subst; destruct b; discriminate|]. injection H1 as; subst. destruct a; discriminate. }
    exact H.
  - intros x _. exists (JSigned x). split; reflexivity.
Qed.
