(** C51-C54: fly::Json as a container: objects are finite maps, arrays are sequences, iterators visit the elements in order, and a call
    changes only the instance it is made on. *)
From Coq Require Import SpecFloat.
From Verif Require Import Common Unicode_Spec Format_Spec Json_Spec Json_Model Json_Token_Proofs Json_String_Proofs JsonApi_Model JsonApi_Spec JsonApi_Proofs.
Open Scope nat_scope.

Section Api.
Variables (sg : bool) (me mb : Z) (at_ : ref -> option json) (self : ref).
Notation run := (run sg me mb at_ self).

Lemma key_of_names t k : Forall byte t -> names t k -> key_of sg t = Some k.
Proof. intros HB HN. now apply construct_iff. Qed.
Lemma key_of_nothing t : Forall byte t -> names_nothing t -> key_of sg t = None.
Proof. intros HB HN. destruct (key_of sg t) as [k|] eqn:E; [|reflexivity]. apply construct_iff in E; [|assumption]. now destruct (HN k). Qed.

(** * C51 Objects *)
(** at, count, contains and find look up the key that the given text names; none of them changes the object. *)
Theorem object_lookups : forall m t k, sorted_keys m -> Forall byte t -> names t k ->
  run (AtKey t) (JObject m) = (JObject m, match bound m k with Some _ => Return (RElement (Key k)) | None => Throw JsonException end) /\
  run (Count t) (JObject m) = (JObject m, Return (RSize (match bound m k with Some _ => 1 | None => 0 end))) /\
  run (Contains t) (JObject m) = (JObject m, Return (RBool (match bound m k with Some _ => true | None => false end))) /\
  (exists p, run (Find t) (JObject m) = (JObject m, Return (RIterator (Iterator (Some self) p))) /\
     match bound m k with Some v => nth_error m p = Some (k, v) | None => p = length m end) /\
  select (Key k) (JObject m) = bound m k.
Proof.
  intros m t k HS HB HN. pose proof (key_of_names t k HB HN) as EK. pose proof (map_find_spec k m HS) as HF. cbn [JsonApi_Model.run as_object]. rewrite !EK.
  cbn [select]. rewrite map_find_bound by assumption. destruct (map_find k m) as [[p v]|].
  - destruct HF as [EN ->]. repeat split. exists p. repeat split. assumption.
  - rewrite HF. repeat split. eexists. repeat split.
Qed.
(** What the updates do to the object, as a map, and what they return. *)
Definition inserted (m : list (list Z * json)) (k : list Z) (v : json) (x : json * outcome result) : Prop :=
  exists m' p, fst x = JObject m' /\ sorted_keys m' /\ nth_error m' p = Some (k, match bound m k with Some old => old | None => v end) /\
    snd x = Return (RInserted (Iterator (Some self) p) (match bound m k with Some _ => false | None => true end) v) /\
    (forall k', bound m' k' = match bound m k with Some _ => bound m k' | None => rebind (bound m) k (Some v) k' end).
Lemma inserted_spec m k v : sorted_keys m -> inserted m k v (let '(m', (p, new)) := map_insert k v m in (JObject m', Return (RInserted (here self p) new v))).
Proof.
  intros HS. pose proof (map_insert_spec k v m HS) as HI. destruct (map_insert k v m) as [m' [p new]]. destruct HI as (S1 & _ & HI). exists m', p. cbn [fst snd].
  split; [reflexivity|]. split; [assumption|]. destruct (bound m k) as [x|].
  - destruct HI as (-> & -> & E). auto.
  - destruct HI as (-> & E & B & _). auto.
Qed.
Theorem object_updates : forall m t k v, sorted_keys m -> Forall byte t -> names t k ->
  inserted m k v (run (InsertKey t v) (JObject m)) /\
  inserted m k v (run (EmplaceKey t v) (JObject m)) /\
  inserted [] k v (run (EmplaceKey t v) JNull) /\
  (exists m' p, run (InsertOrAssign t v) (JObject m) =
       (JObject m', Return (RInserted (Iterator (Some self) p) (match bound m k with Some _ => false | None => true end) (match bound m k with Some old => old | None => v end))) /\
     sorted_keys m' /\ nth_error m' p = Some (k, v) /\ forall k', bound m' k' = rebind (bound m) k (Some v) k') /\
  (exists m', run (EraseKey t) (JObject m) = (JObject m', Return (RSize (match bound m k with Some _ => 1 | None => 0 end))) /\
     sorted_keys m' /\ forall k', bound m' k' = rebind (bound m) k None k') /\
  (exists m', run (SubscriptKey t) (JObject m) = (JObject m', Return (RElement (Key k))) /\ sorted_keys m' /\
     forall k', bound m' k' = match bound m k with Some _ => bound m k' | None => rebind (bound m) k (Some JNull) k' end) /\
  run (SubscriptKey t) JNull = (JObject [(k, JNull)], Return (RElement (Key k))).
Proof.
  intros m t k v HS HB HN. pose proof (key_of_names t k HB HN) as EK. cbn [JsonApi_Model.run as_object promote_object]. rewrite !EK.
  split; [now apply inserted_spec|]. split; [now apply inserted_spec|]. split; [now apply (inserted_spec [])|].
  split.
  - pose proof (map_insert_spec k v m HS) as HI. destruct (map_insert k v m) as [m' [p new]]. destruct HI as (S1 & _ & HI).
    destruct (bound m k) as [x|] eqn:EB.
    + destruct HI as (-> & -> & E). destruct (insert_or_assign_spec k v m HS) as [S2 B2].
      exists (Json_Model.insert_or_assign k v m), p. rewrite E. cbn [snd]. split; [reflexivity|]. split; [assumption|]. split; [|assumption].
      clear - HS E. revert p E. induction m as [|[k0 v0] m IH]; intros p E; [destruct p; discriminate|]. cbn [Json_Model.insert_or_assign].
      destruct HS as [HF HS]. destruct p as [|p].
      * injection E as -> ->. now rewrite (proj2 (key_compare_eq k k) eq_refl).
      * cbn in E. assert (HL : key_lt k0 k) by (apply nth_error_In in E; rewrite Forall_forall in HF; exact (HF _ E)).
        rewrite (proj2 (key_compare_gt k k0) HL). cbn. now apply IH.
    + destruct HI as (-> & E & B & _). exists m', p. auto.
  - split; [|split].
    + pose proof (map_erase_spec k m HS) as HE. destruct (map_erase k m) as [m' n]. destruct HE as (S1 & _ & -> & B & _). exists m'. auto.
    + pose proof (map_insert_spec k JNull m HS) as HI. destruct (map_insert k JNull m) as [m' [p new]]. destruct HI as (S1 & _ & HI). exists m'. cbn [fst].
      split; [reflexivity|]. split; [assumption|]. destruct (bound m k); [now destruct HI as (-> & _)|]. now destruct HI as (_ & _ & B & _).
    + reflexivity.
Qed.
(** A text that is not a valid JSON string is refused by every operation on keys; null may have become an empty object. *)
Theorem bad_key_refused : forall o j, keyed o = true -> Forall byte (text_of o) -> names_nothing (text_of o) ->
  exists j', run o j = (j', Throw JsonException) /\ (j' = j \/ j = JNull /\ j' = JObject []).
Proof.
  intros o j HK HB HN. pose proof (key_of_nothing _ HB HN) as EK.
  destruct o; try discriminate; cbn [text_of] in EK; cbn [JsonApi_Model.run]; rewrite ?EK; destruct j; cbn [as_object promote_object]; eauto.
Qed.
(** insert(first, last): the entries in the range whose keys were not bound; the first of them wins. *)
Theorem object_insert_range : forall m es a b c r, sorted_keys m -> at_ r = Some (JObject es) -> es = a ++ b ++ c ->
  exists m', run (InsertRange (Iterator (Some r) (length a)) (Iterator (Some r) (length a + length b))) (JObject m) = (JObject m', Return RVoid) /\
    sorted_keys m' /\ forall k, bound m' k = match bound m k with Some v => Some v | None => bound b k end.
Proof.
  intros m es a b c r HS ER ->. cbn [JsonApi_Model.run]. unfold same_owner. cbn [owner position]. destruct (ref_dec r r); [|congruence]. cbn [negb]. rewrite ER. cbn [as_object].
  rewrite (proj2 (Nat.leb_le _ _)) by lia. rewrite (proj2 (Nat.leb_le _ _)) by (rewrite !app_length; lia). cbn [andb].
  replace (length a + length b - length a) with (length b) by lia. rewrite firstn_skipn_app. eexists. split; [reflexivity|].
  destruct (insert_all_spec b m HS) as (S1 & _ & B). split; assumption.
Qed.
(** erase(position) and erase(first, last) of an object: exactly those entries go. *)
Theorem object_erase_range : forall m a b c, m = a ++ b ++ c ->
  run (EraseRange (Iterator (Some self) (length a)) (Iterator (Some self) (length a + length b))) (JObject m) =
    (JObject (a ++ c), Return (RIterator (Iterator (Some self) (length a)))) /\
  (forall e, b = [e] -> run (EraseAt (Iterator (Some self) (length a))) (JObject m) = (JObject (a ++ c), Return (RIterator (Iterator (Some self) (length a))))).
Proof.
  intros m a b c ->. cbn [JsonApi_Model.run is_iterable negb]. unfold same_owner, owned. cbn [owner position]. destruct (ref_dec self self); [|congruence]. cbn [negb orb].
  split.
  - rewrite (proj2 (Nat.ltb_ge _ _)) by lia. cbn [size]. rewrite (proj2 (Nat.ltb_ge _ _)) by (rewrite !app_length; lia). cbn [orb]. now rewrite removed_app.
  - intros x ->. cbn [size]. rewrite (proj2 (Nat.eqb_neq _ _)) by (rewrite !app_length; cbn; lia). rewrite (proj2 (Nat.ltb_ge _ _)) by (rewrite !app_length; lia).
    cbn [app]. now rewrite removed_one.
Qed.
(** * C52 Arrays *)
Lemma u64_small n : (0 <= n < 2 ^ 64)%Z -> u64 n = n.
Proof. intros H. unfold u64. now apply Z.mod_small. Qed.
(** at, and operator[] within the bounds: that element. *)
Theorem array_at : forall l n, (0 <= n)%Z ->
  run (AtIndex n) (JArray l) = (JArray l, if (n <? Z.of_nat (length l))%Z then Return (RElement (Index (Z.to_nat n))) else Throw JsonException) /\
  ((n < Z.of_nat (length l))%Z ->
     run (SubscriptIndex n) (JArray l) = (JArray l, Return (RElement (Index (Z.to_nat n)))) /\
     select (Index (Z.to_nat n)) (JArray l) = nth_error l (Z.to_nat n) /\ nth_error l (Z.to_nat n) <> None).
Proof.
  intros l n Hn. cbn [JsonApi_Model.run as_array promote_array]. destruct (Z.ltb_spec n (Z.of_nat (length l))).
  - rewrite (proj2 (Z.leb_gt _ _)) by lia. repeat split. apply nth_error_Some. lia.
  - rewrite (proj2 (Z.leb_le _ _)) by lia. split; [reflexivity|lia].
Qed.
(** operator[] beyond the end: null elements are added, and nothing happens if the array would be too large. *)
Theorem array_subscript_beyond : forall l n, (Z.of_nat (length l) <= n < 2 ^ 64 - 1)%Z ->
  run (SubscriptIndex n) (JArray l) =
    (if (n + 1 <=? me)%Z then (JArray (l ++ repeat JNull (Z.to_nat n + 1 - length l)), Return (RElement (Index (Z.to_nat n))))
     else (JArray l, Throw StdLengthError)) /\
  (l = [] -> run (SubscriptIndex n) JNull = run (SubscriptIndex n) (JArray [])).
Proof.
  intros l n Hn. split; [|reflexivity]. cbn [JsonApi_Model.run promote_array]. cbv zeta. rewrite (proj2 (Z.leb_le _ _)) by lia. rewrite u64_small by lia.
  destruct (Z.leb_spec (n + 1) me).
  - rewrite (proj2 (Z.ltb_ge _ _)) by lia.
    assert (E : resized JNull l (Z.to_nat (n + 1)) = l ++ repeat JNull (Z.to_nat n + 1 - length l)).
    { unfold resized. rewrite firstn_all2 by lia. f_equal. f_equal. lia. }
    rewrite E, app_length, repeat_length. rewrite (proj2 (Z.leb_gt _ _)) by lia. reflexivity.
  - rewrite (proj2 (Z.ltb_lt _ _)) by lia. reflexivity.
Qed.
(** ... except at the largest index: the size wraps to zero, and the array is emptied before the exception. *)
Theorem array_subscript_keeps_refuted : (0 <= me < 2 ^ 64 - 1)%Z -> forall l, (Z.of_nat (length l) <= me)%Z ->
  run (SubscriptIndex (2 ^ 64 - 1)) (JArray l) = (JArray [], Throw StdOutOfRange).
Proof.
  intros Hme l Hl. cbn [JsonApi_Model.run promote_array]. cbv zeta. rewrite (proj2 (Z.leb_le _ _)) by lia.
  replace (u64 (2 ^ 64 - 1 + 1)) with 0%Z by reflexivity. rewrite (proj2 (Z.ltb_ge _ _)) by lia.
  assert (E : resized JNull l (Z.to_nat 0) = []) by reflexivity. rewrite E. rewrite (proj2 (Z.leb_le _ _)) by (cbn [length]; lia). reflexivity.
Qed.
Theorem array_resize : forall l n, (0 <= n)%Z ->
  run (Resize n) (JArray l) =
    (if (n <=? me)%Z then (JArray (firstn (Z.to_nat n) l ++ repeat JNull (Z.to_nat n - length l)), Return RVoid) else (JArray l, Throw StdLengthError)) /\
  run Size (JArray l) = (JArray l, Return (RSize (length l))) /\
  run Empty (JArray l) = (JArray l, Return (RBool (length l =? 0))).
Proof.
  intros l n Hn. cbn [JsonApi_Model.run size empty]. destruct (Z.leb_spec n me).
  - rewrite (proj2 (Z.ltb_ge _ _)) by lia. repeat split. now destruct l.
  - rewrite (proj2 (Z.ltb_lt _ _)) by lia. repeat split. now destruct l.
Qed.
(** insert(position, ...): the values go before the element at the position, in order; the result points to the first of them. *)
Theorem array_insert : forall a b vs,
  let fits n := (Z.of_nat (length a + length b + n) <=? me)%Z in
  run (InsertAt (Iterator (Some self) (length a)) vs) (JArray (a ++ b)) =
    (if fits (length vs) then (JArray (a ++ vs ++ b), Return (RIterator (Iterator (Some self) (length a)))) else (JArray (a ++ b), Throw StdLengthError)) /\
  (forall r c d e, r <> self -> at_ r = Some (JArray (c ++ d ++ e)) ->
     run (InsertAtRange (Iterator (Some self) (length a)) (Iterator (Some r) (length c)) (Iterator (Some r) (length c + length d))) (JArray (a ++ b)) =
       (if fits (length d) then (JArray (a ++ d ++ b), Return (RIterator (Iterator (Some self) (length a)))) else (JArray (a ++ b), Throw StdLengthError))).
Proof.
  intros a b vs fits. cbn [JsonApi_Model.run as_array]. unfold owned, same_owner. cbn [owner position]. destruct (ref_dec self self); [|congruence]. cbn [negb]. split.
  - rewrite (proj2 (Nat.ltb_ge _ _)) by (rewrite app_length; lia). rewrite app_length. unfold fits. destruct (Z.leb_spec (Z.of_nat (length a + length b + length vs)) me).
    + rewrite (proj2 (Z.ltb_ge _ _)) by lia. now rewrite spliced_app.
    + rewrite (proj2 (Z.ltb_lt _ _)) by lia. reflexivity.
  - intros r c d e' HR ER. destruct (ref_dec r r); [|congruence]. cbn [negb]. rewrite ER. cbn [as_array]. destruct (ref_dec r self); [congruence|].
    rewrite (proj2 (Nat.ltb_ge _ _)) by (rewrite app_length; lia). rewrite (proj2 (Nat.ltb_ge _ _)) by lia. rewrite (proj2 (Nat.ltb_ge _ _)) by (rewrite !app_length; lia).
    cbn [orb]. replace (length c + length d - length c) with (length d) by lia. rewrite firstn_skipn_app, app_length. unfold fits.
    destruct (Z.leb_spec (Z.of_nat (length a + length b + length d)) me).
    + rewrite (proj2 (Z.ltb_ge _ _)) by lia. now rewrite spliced_app.
    + rewrite (proj2 (Z.ltb_lt _ _)) by lia. reflexivity.
Qed.
Theorem array_push_pop : forall l v,
  run (PushBack v) (JArray l) = (if (Z.of_nat (S (length l)) <=? me)%Z then (JArray (l ++ [v]), Return RVoid) else (JArray l, Throw StdLengthError)) /\
  run (PushBack v) JNull = run (PushBack v) (JArray []) /\
  (Z.of_nat (length l) < 2 ^ 64 - 1 -> run PopBack (JArray (l ++ [v])) = (JArray l, Return RVoid))%Z /\
  run PopBack (JArray []) = (JArray [], Throw JsonException).
Proof.
  intros l v. repeat split.
  - cbn [JsonApi_Model.run promote_array]. destruct (Z.leb_spec (Z.of_nat (S (length l))) me).
    + now rewrite (proj2 (Z.ltb_ge _ _)) by lia.
    + now rewrite (proj2 (Z.ltb_lt _ _)) by lia.
  - intros HL. cbn [JsonApi_Model.run as_array size]. cbv zeta. rewrite app_length. cbn [length]. rewrite u64_small by lia.
    replace (Z.of_nat (length l + 1) - 1)%Z with (Z.of_nat (length l)) by lia. rewrite (proj2 (Z.leb_gt _ _)) by lia. rewrite Nat2Z.id.
    rewrite removed_one. now rewrite app_nil_r.
Qed.
Theorem array_erase : forall a b c,
  run (EraseRange (Iterator (Some self) (length a)) (Iterator (Some self) (length a + length b))) (JArray (a ++ b ++ c)) =
    (JArray (a ++ c), Return (RIterator (Iterator (Some self) (length a)))) /\
  (forall x, b = [x] ->
     run (EraseAt (Iterator (Some self) (length a))) (JArray (a ++ b ++ c)) = (JArray (a ++ c), Return (RIterator (Iterator (Some self) (length a)))) /\
     run (EraseIndex (Z.of_nat (length a))) (JArray (a ++ b ++ c)) = (JArray (a ++ c), Return RVoid)) /\
  (forall n l, (Z.of_nat (length l) <= n)%Z -> run (EraseIndex n) (JArray l) = (JArray l, Throw JsonException)) /\
  (forall l, run (EraseAt (Iterator (Some self) (length l))) (JArray l) = (JArray l, Throw JsonException)).
Proof.
  intros a b c. cbn [JsonApi_Model.run is_iterable negb as_array]. unfold same_owner, owned. cbn [owner position]. destruct (ref_dec self self); [|congruence]. cbn [negb orb].
  split; [|split; [|split]].
  - rewrite (proj2 (Nat.ltb_ge _ _)) by lia. cbn [size]. rewrite (proj2 (Nat.ltb_ge _ _)) by (rewrite !app_length; lia). cbn [orb]. now rewrite removed_app.
  - intros x ->. cbn [size]. rewrite (proj2 (Nat.eqb_neq _ _)) by (rewrite !app_length; cbn; lia). rewrite (proj2 (Nat.ltb_ge _ _)) by (rewrite !app_length; lia).
    rewrite (proj2 (Z.leb_gt _ _)) by (rewrite !app_length; cbn [length]; lia). rewrite Nat2Z.id. cbn [app]. now rewrite removed_one.
  - intros n l Hn. now rewrite (proj2 (Z.leb_le _ _)) by lia.
  - intros l. cbn [size]. now rewrite Nat.eqb_refl.
Qed.
(** front, back, begin, end of both containers: the first and last of the elements in order. *)
Theorem ends : forall j, container j ->
  run Front j = (j, match elements j with e :: _ => Return (RElement (fst e)) | [] => Throw NullJsonException end) /\
  run Back j = (j, match rev (elements j) with e :: _ => Return (RElement (fst e)) | [] => Throw NullJsonException end) /\
  run Begin j = (j, Return (RIterator (Iterator (Some self) 0))) /\
  run End j = (j, Return (RIterator (Iterator (Some self) (length (elements j))))) /\
  run Clear j = (match j with JObject _ => JObject [] | _ => JArray [] end, Return RVoid).
Proof.
  assert (SE : forall (T : Type) (l : list T) k, map Index (seq k (S (length l))) = map Index (seq k (length l)) ++ [Index (k + length l)]) by (intros T l k; now rewrite seq_S, map_app).
  intros j [[m ->]|[l ->]]; cbn [JsonApi_Model.run is_iterable selector_at elements size cleared].
  - split; [destruct m as [|[k v] m]; reflexivity|]. split; [|rewrite map_length; auto].
    destruct m as [|e m] using rev_ind; [reflexivity|]. rewrite map_app, rev_app_distr, app_length. cbn [map rev app length].
    replace (length m + 1 - 1) with (length m) by lia. rewrite nth_error_app2, Nat.sub_diag by lia. reflexivity.
  - split; [destruct l; reflexivity|]. rewrite combine_length, map_length, seq_length, Nat.min_id. split; [|auto].
    destruct l as [|e l] using rev_ind; [reflexivity|]. rewrite app_length. cbn [length]. rewrite Nat.add_1_r, SE.
    replace (S (length l) - 1) with (length l) by lia. rewrite nth_error_app2, Nat.sub_diag by lia. cbn [nth_error option_map].
    assert (EC : forall (a b : list selector) (c d : list json), length a = length c -> combine (a ++ b) (c ++ d) = combine a c ++ combine b d).
    { induction a as [|x a IH]; intros b [|y c] d E; cbn in *; try discriminate; [reflexivity|]. f_equal. apply IH. lia. }
    rewrite EC by (now rewrite map_length, seq_length). rewrite rev_app_distr. reflexivity.
Qed.

(** * Failures *)
(** An operation on a value of the wrong type throws and changes nothing. *)
Theorem wrong_type_refused : forall o j, valid_iterators at_ o -> ~ In (kind_of j) (works_on o) ->
  exists e, run o j = (j, Throw e) /\ (e = JsonException \/ e = JsonIteratorException).
Proof.
  intros o j HV HN.
  destruct o; destruct j; cbn [kind_of works_on] in HN; try (exfalso; apply HN; cbn [In]; tauto); cbn [JsonApi_Model.run as_object as_array promote_object promote_array is_iterable negb]; eauto;
    try (destruct (key_of sg key); eauto; fail); cbv zeta; eauto.
  all: destruct HV as [HV HO]; cbn [iterators_of ordered] in HV, HO.
  all: try (destruct (negb (same_owner first last)); [eauto|]; destruct (owner first) as [r|] eqn:EO; [|eauto];
    rewrite Forall_forall in HV; specialize (HV first ltac:(cbn [In]; tauto)); destruct (HV r EO) as (src & -> & _); destruct src; cbn [as_object as_array]; eauto; destruct (owned self first); eauto).
Qed.
(** With valid arguments nothing is undefined. *)
Theorem never_undefined : forall o j, at_ self = Some j -> valid_iterators at_ o -> snd (run o j) <> Undefined.
Proof.
  intros o j HS [HV HO]. rewrite Forall_forall in HV. unfold inside in HV.
  destruct o; cbn [JsonApi_Model.run]; cbv zeta; cbn [iterators_of ordered] in HV, HO.
  - destruct (as_object j); [|discriminate]. destruct (key_of sg key) as [k|]; [|discriminate]. destruct (map_find k l) as [[? ?]|]; discriminate.
  - destruct (as_array j); [|discriminate]. destruct (_ <=? _)%Z; discriminate.
  - destruct (promote_object j); [|discriminate]. destruct (key_of sg key); discriminate.
  - destruct (promote_array j); [|discriminate]. destruct (_ <=? _)%Z; [|discriminate]. destruct (_ <? _)%Z; [discriminate|]. destruct (_ <=? _)%Z; discriminate.
  - destruct (is_iterable j); [|discriminate]. cbn [snd]. destruct (selector_at j 0); discriminate.
  - destruct (is_iterable j); [|discriminate]. cbn [snd]. destruct (selector_at j _); discriminate.
  - destruct (is_iterable j); discriminate.
  - destruct (is_iterable j); discriminate.
  - discriminate.
  - discriminate.
  - destruct j; try discriminate; destruct (_ <? _)%Z; discriminate.
  - discriminate.
  - destruct (key_of sg key); [|discriminate]. destruct (as_object j); [|discriminate]. destruct (map_insert _ _ _) as [? [? ?]]. discriminate.
  - destruct (negb (same_owner first last)) eqn:ES; [discriminate|]. destruct (owner first) as [r|] eqn:EO; [|discriminate].
    assert (EL : owner last = Some r).
    { unfold same_owner in ES. rewrite EO in ES. destruct (owner last) as [r'|]; [|discriminate]. destruct (ref_dec r r'); [congruence|discriminate]. }
    destruct (HV last ltac:(cbn [In]; tauto) r EL) as (src & -> & HL). destruct (as_object src) as [es|] eqn:EM; [|discriminate]. destruct src; try discriminate. injection EM as ->.
    destruct (as_object j); [|discriminate]. cbn [size] in HL. rewrite EL in HO. specialize (HO eq_refl).
    rewrite (proj2 (Nat.leb_le _ _) HO), (proj2 (Nat.leb_le _ _) HL). discriminate.
  - destruct (key_of sg key); [|discriminate]. destruct (as_object j); [|discriminate]. destruct (map_insert _ _ _) as [? [? []]]; discriminate.
  - destruct (promote_object j); [|discriminate]. destruct (key_of sg key); [|discriminate]. destruct (map_insert _ _ _) as [? [? ?]]. discriminate.
  - destruct (as_array j) as [l|] eqn:EA; [|discriminate]. destruct j; try discriminate. injection EA as ->. destruct (owned self pos) eqn:EW; [|discriminate]. cbn [negb].
    unfold owned in EW. destruct (owner pos) as [r|] eqn:EO; [|discriminate]. destruct (ref_dec r self); [|discriminate]. subst r.
    destruct (HV pos ltac:(cbn [In]; tauto) self EO) as (src & E & HL). rewrite HS in E. injection E as <-. cbn [size] in HL.
    rewrite (proj2 (Nat.ltb_ge _ _) HL). destruct (_ <? _)%Z; discriminate.
  - destruct (negb (same_owner first last)) eqn:ES; [discriminate|]. destruct (owner first) as [r|] eqn:EO; [|discriminate].
    assert (EL : owner last = Some r).
    { unfold same_owner in ES. rewrite EO in ES. destruct (owner last) as [r'|]; [|discriminate]. destruct (ref_dec r r'); [congruence|discriminate]. }
    destruct (HV last ltac:(cbn [In]; tauto) r EL) as (src & -> & HL). destruct (as_array src) as [xs|] eqn:EM; [|discriminate]. destruct src; try discriminate. injection EM as ->.
    destruct (owned self first); [discriminate|]. destruct (as_array j) as [l|] eqn:EA; [|discriminate]. destruct j; try discriminate. injection EA as ->.
    destruct (owned self pos) eqn:EW; [|discriminate]. cbn [negb].
    unfold owned in EW. destruct (owner pos) as [r'|] eqn:EO'; [|discriminate]. destruct (ref_dec r' self); [|discriminate]. subst r'.
    destruct (HV pos ltac:(cbn [In]; tauto) self EO') as (src & E & HL'). rewrite HS in E. injection E as <-. cbn [size] in HL, HL'. rewrite EL in HO. specialize (HO eq_refl).
    rewrite (proj2 (Nat.ltb_ge _ _) HL'), (proj2 (Nat.ltb_ge _ _) HO), (proj2 (Nat.ltb_ge _ _) HL). cbn [orb]. destruct (_ <? _)%Z; discriminate.
  - destruct (promote_array j); [|discriminate]. destruct (_ <? _)%Z; discriminate.
  - destruct (as_array j); [|discriminate]. destruct (_ <=? _)%Z; discriminate.
  - destruct (as_object j); [|discriminate]. destruct (key_of sg key); [|discriminate]. destruct (map_erase _ _). discriminate.
  - destruct (as_array j); [|discriminate]. destruct (_ <=? _)%Z; discriminate.
  - destruct (negb (is_iterable j)); [discriminate|]. destruct (owned self pos) eqn:EW; [|discriminate]. cbn [negb].
    unfold owned in EW. destruct (owner pos) as [r|] eqn:EO; [|discriminate]. destruct (ref_dec r self); [|discriminate]. subst r.
    destruct (HV pos ltac:(cbn [In]; tauto) self EO) as (src & E & HL). rewrite HS in E. injection E as <-.
    destruct (_ =? _); [discriminate|]. rewrite (proj2 (Nat.ltb_ge _ _) HL). discriminate.
  - destruct (negb (is_iterable j)); [discriminate|]. destruct (owned self first) eqn:EW; [|discriminate]. cbn [negb orb]. destruct (same_owner first last) eqn:ES; [|discriminate]. cbn [negb].
    unfold owned in EW. destruct (owner first) as [r|] eqn:EO; [|discriminate]. destruct (ref_dec r self); [|discriminate]. subst r.
    assert (EL : owner last = Some self).
    { unfold same_owner in ES. rewrite EO in ES. destruct (owner last) as [r'|]; [|discriminate]. destruct (ref_dec self r'); [congruence|discriminate]. }
    destruct (HV last ltac:(cbn [In]; tauto) self EL) as (src & E & HL). rewrite HS in E. injection E as <-. rewrite EL in HO. specialize (HO eq_refl).
    rewrite (proj2 (Nat.ltb_ge _ _) HO), (proj2 (Nat.ltb_ge _ _) HL). discriminate.
  - destruct (as_object j); [|discriminate]. destruct (key_of sg key); discriminate.
  - destruct (as_object j); [|discriminate]. destruct (key_of sg key); discriminate.
  - destruct (as_object j); [|discriminate]. destruct (key_of sg key); discriminate.
  - discriminate.
Qed.
(** What an exception leaves behind: the value as it was, except that operator[], emplace and push_back may have made null an empty container,
    and that operator[] with the largest index empties the array (array_subscript_keeps_refuted). *)
Theorem exceptions_change_little : forall o j j' e, (0 <= number_of o < 2 ^ 64)%Z -> run o j = (j', Throw e) ->
  j' = j \/
  (j = JNull /\ j' = JObject [] /\ ((exists t, o = SubscriptKey t) \/ (exists t v, o = EmplaceKey t v))) \/
  (j = JNull /\ j' = JArray [] /\ ((exists n, o = SubscriptIndex n) \/ (exists v, o = PushBack v))) \/
  o = SubscriptIndex (2 ^ 64 - 1).
Proof.
  intros o j j' e HN E.
  assert (PO : forall m, promote_object j = Some m -> JObject m = j \/ j = JNull /\ JObject m = JObject []) by (destruct j; intros x Em; try discriminate; injection Em as <-; auto).
  assert (PA : forall l, promote_array j = Some l -> JArray l = j \/ j = JNull /\ JArray l = JArray []) by (destruct j; intros x Em; try discriminate; injection Em as <-; auto).
  destruct o; cbn [JsonApi_Model.run] in E; cbv zeta in E; cbn [number_of] in HN.
  - left. destruct (as_object j); [|congruence]. destruct (key_of sg key) as [k|]; [|congruence]. destruct (map_find k l) as [[? ?]|]; congruence.
  - left. destruct (as_array j); [|congruence]. destruct (_ <=? _)%Z; congruence.
  - destruct (promote_object j) as [m|]; [|left; congruence]. destruct (key_of sg key); [discriminate|]. injection E as <- <-.
    destruct (PO _ eq_refl) as [->|[-> ->]]; [auto|]. right. left. eauto.
  - destruct (promote_array j) as [l|]; [|left; congruence]. destruct (_ <=? _)%Z eqn:E1; [|discriminate]. destruct (_ <? _)%Z eqn:E2.
    + injection E as <- <-. destruct (PA _ eq_refl) as [->|[-> ->]]; [auto|]. right. right. left. eauto.
    + destruct (_ <=? _)%Z eqn:E3 in E; [|discriminate]. right. right. right. apply Z.leb_le in E3.
      destruct (Z.eq_dec n (2 ^ 64 - 1)) as [->|NE]; [reflexivity|]. exfalso. revert E3. rewrite u64_small by lia. unfold resized. rewrite app_length, firstn_length, repeat_length. lia.
  - left. destruct (is_iterable j); [|congruence]. destruct (selector_at j 0); congruence.
  - left. destruct (is_iterable j); [|congruence]. destruct (selector_at j _); congruence.
  - left. destruct (is_iterable j); congruence.
  - left. destruct (is_iterable j); congruence.
  - discriminate.
  - discriminate.
  - left. destruct j; try congruence; destruct (_ <? _)%Z; congruence.
  - discriminate.
  - left. destruct (key_of sg key); [|congruence]. destruct (as_object j); [|congruence]. destruct (map_insert _ _ _) as [? [? ?]]. congruence.
  - left. destruct (negb _); [congruence|]. destruct (owner first); [|congruence]. destruct (at_ r); [|congruence]. destruct (as_object j0); [|congruence].
    destruct (as_object j); [|congruence]. destruct (_ && _); congruence.
  - left. destruct (key_of sg key); [|congruence]. destruct (as_object j); [|congruence]. destruct (map_insert _ _ _) as [? [? []]]; congruence.
  - destruct (promote_object j) as [m|]; [|left; congruence]. destruct (key_of sg key); [destruct (map_insert _ _ _) as [? [? ?]]; discriminate|]. injection E as <- <-.
    destruct (PO _ eq_refl) as [->|[-> ->]]; [auto|]. right. left. eauto 6.
  - left. destruct (as_array j); [|congruence]. destruct (negb _); [congruence|]. destruct (_ <? _); [congruence|]. destruct (_ <? _)%Z; congruence.
  - left. destruct (negb _); [congruence|]. destruct (owner first); [|congruence]. destruct (at_ r); [|congruence]. destruct (as_array j0); [|congruence]. destruct (owned _ _); [congruence|].
    destruct (as_array j); [|congruence]. destruct (negb _); [congruence|]. destruct (_ || _); [congruence|]. destruct (_ <? _)%Z; congruence.
  - destruct (promote_array j) as [l|]; [|left; congruence]. destruct (_ <? _)%Z; [|discriminate]. injection E as <- <-. destruct (PA _ eq_refl) as [->|[-> ->]]; [auto|]. right. right. left. eauto.
  - left. destruct (as_array j); [|congruence]. destruct (_ <=? _)%Z; congruence.
  - left. destruct (as_object j); [|congruence]. destruct (key_of sg key); [|congruence]. destruct (map_erase _ _). congruence.
  - left. destruct (as_array j); [|congruence]. destruct (_ <=? _)%Z; congruence.
  - left. destruct (negb _); [congruence|]. destruct (negb _); [congruence|]. destruct (_ =? _); [congruence|]. destruct (_ <? _); congruence.
  - left. destruct (negb _); [congruence|]. destruct (_ || _); [congruence|]. destruct (_ || _); congruence.
  - left. destruct (as_object j); [|congruence]. destruct (key_of sg key); congruence.
  - left. destruct (as_object j); [|congruence]. destruct (key_of sg key); congruence.
  - left. destruct (as_object j); [|congruence]. destruct (key_of sg key); congruence.
  - discriminate.
Qed.
End Api.

(** That a failed operation changes nothing is wrong: operator[] and emplace with an invalid key leave an empty object where null was. *)
Theorem failed_operations_change_nothing_refuted : forall sg me mb at_ self v,
  run sg me mb at_ self (SubscriptKey [255%Z]) JNull = (JObject [], Throw JsonException) /\
  run sg me mb at_ self (EmplaceKey [255%Z] v) JNull = (JObject [], Throw JsonException) /\
  merge JNull (JArray []) = (JObject [], JArray [], Throw JsonException).
Proof. intros. destruct sg; repeat split. Qed.

(** merge moves the entries whose keys are not bound here, and leaves the others there. *)
Theorem merge_moves : forall m n, sorted_keys m -> sorted_keys n ->
  exists m' n', merge (JObject m) (JObject n) = (JObject m', JObject n', Return RVoid) /\ sorted_keys m' /\ sorted_keys n' /\
    (m = [] -> merge JNull (JObject n) = (JObject m', JObject n', Return RVoid)) /\
    (forall k, bound m' k = match bound m k with Some v => Some v | None => bound n k end) /\
    (forall k, bound n' k = match bound m k with Some _ => bound n k | None => None end).
Proof.
  intros m n HM HN. pose proof (map_merge_spec n m HM HN) as H. unfold merge. cbn [promote_object as_object]. destruct (map_merge m n) as [m' n'] eqn:EM.
  destruct H as (S1 & S2 & _ & _ & B1 & B2). exists m', n'. repeat split; try assumption. intros ->. now rewrite EM.
Qed.
(** The constructor from an initializer list: pairs with a string first make an object, in which the first entry of a key wins. *)
Theorem initializer_list : forall l,
  (forall es, l = map (fun e => JArray [JString (fst e); snd e]) es ->
     exists m, list_constructor l = JObject m /\ sorted_keys m /\ forall k, bound m k = bound es k) /\
  ((exists j, In j l /\ forall k v, j <> JArray [JString k; v]) -> list_constructor l = JArray l).
Proof.
  intros l. split.
  - intros es ->. unfold list_constructor.
    assert (EF : forallb is_object_like (map (fun e => JArray [JString (fst e); snd e]) es) = true) by (apply forallb_forall; intros x Hx; apply in_map_iff in Hx; destruct Hx as (e & <- & _); reflexivity).
    rewrite EF. eexists. split; [reflexivity|].
    assert (E : forall m, fold_left (fun m j => match j with JArray [JString k; v] => fst (map_insert k v m) | _ => m end) (map (fun e => JArray [JString (fst e); snd e]) es) m = insert_all m es).
    { clear EF. induction es as [|[k v] es IH]; intros m; [reflexivity|]. cbn [map fold_left fst snd]. rewrite IH. reflexivity. }
    rewrite E. destruct (insert_all_spec es [] I) as (S1 & _ & B). split; assumption.
  - intros (j & HI & HJ). unfold list_constructor. destruct (forallb is_object_like l) eqn:EF; [|reflexivity]. rewrite forallb_forall in EF. specialize (EF j HI).
    exfalso. destruct j as [| | |[|[] [|v []]]| | | |]; try discriminate. now apply (HJ s v).
Qed.
(** The constructor from a map: each text names its key, and the object binds what the entries bind. *)
Theorem map_constructor : forall sg es ks, Forall (fun e => Forall byte (fst e)) es -> Forall2 (fun e k => names (fst e) k) es ks ->
  exists m, object_constructor sg es [] = Return (JObject m) /\ sorted_keys m /\ forall k, bound m k = bound (combine ks (map snd es)) k.
Proof.
  intros sg es ks HB HF.
  assert (G : forall m, sorted_keys m -> object_constructor sg es m = Return (JObject (insert_all m (combine ks (map snd es))))).
  { induction HF as [|[t v] k es ks HN HF IH]; intros m HS; [reflexivity|]. inversion_clear HB as [|? ? HB1 HB2]. cbn [object_constructor].
    cbn [fst] in *. pose proof (key_of_names sg t k HB1 HN) as EK. unfold key_of in EK. rewrite EK. rewrite IH; [reflexivity|assumption|].
    pose proof (map_insert_spec k v m HS) as HI. destruct (map_insert k v m) as [m' [p new]]. now destruct HI. }
  eexists. split; [apply G; exact I|]. destruct (insert_all_spec (combine ks (map snd es)) [] I) as (S1 & _ & B). split; assumption.
Qed.
(** ... so a map copied out of an object and back is not that object if a key contains an escape sequence. *)
Theorem map_round_trip_refuted : forall sg,
  let o := [([92%Z; 110%Z], JNull)] in regular (JObject o) /\ object_constructor sg o [] = Return (JObject [([10%Z], JNull)]).
Proof.
  intros sg o. split; [|destruct sg; reflexivity]. apply regular_object. split; [split; [constructor|exact I]|]. constructor; [|constructor]. split; [|exact I].
  exists [92%Z; 110%Z]. split; [repeat constructor; unfold scalar; lia|reflexivity].
Qed.
(** The same with strings: swapping twice does not restore them. *)
Theorem swap_string_twice_refuted : forall sg, let '(j1, t1, _) := swap_string sg (JString [65%Z]) [92%Z; 110%Z] in
  let '(j2, t2, _) := swap_string sg j1 t1 in t1 = [65%Z] /\ j2 = JString [65%Z] /\ t2 = [10%Z].
Proof. intros []; repeat split. Qed.
(** push_back with the instance itself: null counts as an empty array. *)
Theorem push_back_self_refuted : fst (push_back_self JNull) = JArray [JArray []].
Proof. reflexivity. Qed.

(** * Examples *)
(** The text a\n names the key of "a" and a line feed; a quotation mark names nothing. *)
Example example_names : names [97; 92; 110]%Z [97; 10]%Z /\ (forall sg, key_of sg [34%Z] = None).
Proof. split; [apply (construct_iff true); [repeat constructor; unfold byte; lia|reflexivity]|]. now intros []. Qed.
Example example_names_nothing : names_nothing [34%Z].
Proof. intros k HN. apply (construct_iff true) in HN; [discriminate|]. repeat constructor; unfold byte; lia. Qed.
Example example_sorted : sorted_keys [([97%Z], JNull); ([98%Z], JBool true)].
Proof. cbn [sorted_keys fst key_lt]. repeat split; repeat constructor; cbn; lia. Qed.
Example example_valid : forall r, valid_iterators (fun _ => Some (JArray [JNull])) (EraseRange (Iterator (Some r) 0) (Iterator (Some r) 1)) /\
  ~ In (kind_of (JBool true)) (works_on (EraseRange (Iterator (Some r) 0) (Iterator (Some r) 1))).
Proof.
  intros r. split; [split; [|cbn; lia]|cbn; intuition discriminate]. cbn [iterators_of]. repeat constructor; intros r' _; eexists; (split; [reflexivity|cbn; lia]).
Qed.
