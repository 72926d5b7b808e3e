(** C53-C54: iterators visit the elements in order; a call changes only the instance it is made on. *)
From Coq Require Import SpecFloat.
From Verif Require Import Common Unicode_Spec Format_Spec Json_Spec Json_Model Json_Token_Proofs Json_String_Proofs JsonApi_Model JsonApi_Spec JsonApi_Proofs.
Open Scope nat_scope.

(** * C53 Iterators *)
Lemma elements_length j : container j -> length (elements j) = size j.
Proof. intros [[m ->]|[l ->]]; cbn [elements size]; [apply map_length|]. now rewrite combine_length, map_length, seq_length, Nat.min_id. Qed.
Lemma nth_seq_combine (l : list json) : forall k p, nth_error (combine (map Index (seq k (length l))) l) p = option_map (fun v => (Index (k + p), v)) (nth_error l p).
Proof.
  induction l as [|v l IH]; intros k [|p]; try reflexivity; cbn [length seq map combine nth_error].
  - cbn. now rewrite Nat.add_0_r.
  - rewrite IH. destruct (nth_error l p); [|reflexivity]. cbn. f_equal. f_equal. f_equal. lia.
Qed.
Lemma selector_elements j p : container j -> selector_at j p = option_map fst (nth_error (elements j) p).
Proof.
  intros [[m ->]|[l ->]]; cbn [elements selector_at].
  - rewrite nth_error_map. now destruct (nth_error m p) as [[k v]|].
  - rewrite nth_seq_combine. now destruct (nth_error l p).
Qed.
Lemma container_iterable j : container j -> is_iterable j = true.
Proof. now intros [[m ->]|[l ->]]. Qed.

Section Iter.
Variables (w : world) (r : ref) (j : json).
Hypotheses (HR : read w r = Some j) (HC : container j).
Notation it p := (Iterator (Some r) p).
Notation n := (length (elements j)).
Lemma validated_it A p (f : ref -> json -> outcome A) : p <= n -> validated w (it p) f = f r j.
Proof. intros HP. unfold validated. cbn [owner position]. rewrite HR, container_iterable by assumption. rewrite elements_length in HP by assumption. now rewrite (proj2 (Nat.leb_le _ _) HP). Qed.
Lemma validated2_it A p q (f : json -> outcome A) : p <= n -> q <= n -> validated2 w (it p) (it q) f = f j.
Proof.
  intros HP HQ. unfold validated2. cbn [owner position]. destruct (ref_dec r r); [|congruence]. rewrite validated_it by assumption.
  rewrite elements_length in HQ by assumption. now rewrite (proj2 (Nat.leb_le _ _) HQ).
Qed.
Lemma advance_it p o : p <= n -> (- 2 ^ 63 < o)%Z ->
  advance (it p) r j o = if ((0 <=? Z.of_nat p + o) && (Z.of_nat p + o <=? Z.of_nat n))%Z then Return (it (Z.to_nat (Z.of_nat p + o))) else Throw OutOfRangeJsonException.
Proof.
  intros HP HO. unfold advance. cbn [owner position]. rewrite (proj2 (Z.eqb_neq _ _)) by lia. rewrite elements_length in * by assumption.
  destruct (Z.leb_spec 0 o).
  - rewrite (proj2 (Z.leb_le 0 _)) by lia. cbn [andb]. destruct (Z.leb_spec (Z.of_nat p + o) (Z.of_nat (size j))).
    + now rewrite (proj2 (Z.ltb_ge _ _)) by lia.
    + now rewrite (proj2 (Z.ltb_lt _ _)) by lia.
  - rewrite (proj2 (Z.leb_le (Z.of_nat p + o) _)) by lia. rewrite andb_true_r. destruct (Z.leb_spec 0 (Z.of_nat p + o)).
    + now rewrite (proj2 (Z.ltb_ge _ _)) by lia.
    + now rewrite (proj2 (Z.ltb_lt _ _)) by lia.
Qed.
Lemma deref_it p : p <= n -> deref w (it p) = match nth_error (elements j) p with Some e => Return (element_ref r e) | None => Throw NullJsonException end.
Proof.
  intros HP. unfold deref. rewrite validated_it by assumption. unfold element. cbn [position]. rewrite selector_elements by assumption.
  now destruct (nth_error (elements j) p) as [[s v]|].
Qed.
Lemma increment_it p : p <= n -> increment w (it p) = if p <? n then Return (it (S p)) else Throw OutOfRangeJsonException.
Proof.
  intros HP. unfold increment. rewrite validated_it by assumption. rewrite advance_it by lia. rewrite (proj2 (Z.leb_le 0 _)) by lia. cbn [andb].
  destruct (Nat.ltb_spec p n).
  - rewrite (proj2 (Z.leb_le _ _)) by lia. now replace (Z.to_nat (Z.of_nat p + 1)) with (S p) by lia.
  - now rewrite (proj2 (Z.leb_gt _ _)) by lia.
Qed.
Lemma decrement_it p : p <= n -> decrement w (it p) = match p with S p' => Return (it p') | O => Throw OutOfRangeJsonException end.
Proof.
  intros HP. unfold decrement. rewrite validated_it by assumption. rewrite advance_it by lia. destruct p as [|p].
  - rewrite (proj2 (Z.leb_gt 0 _)) by lia. reflexivity.
  - rewrite (proj2 (Z.leb_le 0 _)) by lia. rewrite (proj2 (Z.leb_le _ (Z.of_nat n))) by lia. now replace (Z.to_nat (Z.of_nat (S p) + -1)) with p by lia.
Qed.
End Iter.

(** What ++, --, *, ==, key() do at a position; the elements are numbered from 0, and the end is the number of elements. *)
Theorem iterator_steps : forall w it r j p, points w it r j p ->
  deref w it = match nth_error (elements j) p with Some e => Return (element_ref r e) | None => Throw NullJsonException end /\
  increment w it = (if p <? length (elements j) then Return (Iterator (Some r) (S p)) else Throw OutOfRangeJsonException) /\
  decrement w it = match p with S p' => Return (Iterator (Some r) p') | O => Throw OutOfRangeJsonException end /\
  key w it = match j with
             | JObject m => match nth_error m p with Some e => Return (fst e) | None => Throw NullJsonException end
             | _ => Throw JsonIteratorException
             end /\
  (forall it' p', points w it' r j p' -> equal w it it' = Return (p =? p')).
Proof.
  intros w [o q] r j p (HO & HP & HR & HC & HL). cbn [owner position] in HO, HP. subst o q.
  split; [exact (deref_it w r j HR HC p HL)|]. split; [exact (increment_it w r j HR HC p HL)|]. split; [exact (decrement_it w r j HR HC p HL)|]. split.
  - unfold key. rewrite (validated_it w r j HR HC) by assumption. destruct HC as [[m ->]|[l ->]]; reflexivity.
  - intros [o' q'] p' (HO' & HP' & _ & _ & HL'). cbn [owner position] in *. subst o' q'. unfold equal. now rewrite (validated2_it w r j HR HC) by assumption.
Qed.
(** Every operation on pairs or offsets, for an array: arithmetic on positions.  Offsets that leave [begin, end] throw. *)
Theorem iterator_arithmetic : forall w it r l p o, points w it r (JArray l) p -> (- 2 ^ 63 < o < 2 ^ 63)%Z ->
  add w it o = (if ((0 <=? Z.of_nat p + o) && (Z.of_nat p + o <=? Z.of_nat (length l)))%Z then Return (Iterator (Some r) (Z.to_nat (Z.of_nat p + o))) else Throw OutOfRangeJsonException) /\
  subtract w it o = (if ((0 <=? Z.of_nat p - o) && (Z.of_nat p - o <=? Z.of_nat (length l)))%Z then Return (Iterator (Some r) (Z.to_nat (Z.of_nat p - o))) else Throw OutOfRangeJsonException) /\
  offset_by w it o = (if ((0 <=? Z.of_nat p + o) && (Z.of_nat p + o <? Z.of_nat (length l)))%Z then Return (fst r, snd r ++ [Index (Z.to_nat (Z.of_nat p + o))])
                      else if (Z.of_nat p + o =? Z.of_nat (length l))%Z then Throw NullJsonException else Throw OutOfRangeJsonException) /\
  (forall it' p', points w it' r (JArray l) p' ->
     difference w it it' = Return (Z.of_nat p - Z.of_nat p')%Z /\ less w it it' = Return (p <? p') /\ less_equal w it it' = Return (p <=? p') /\
     greater w it it' = Return (p' <? p) /\ greater_equal w it it' = Return (p' <=? p)).
Proof.
  intros w [o' q] r l p o (HO & HP & HR & HC & HL) Ho. cbn [owner position] in HO, HP. subst o' q.
  assert (EL : length (elements (JArray l)) = length l) by (apply (elements_length _ HC)).
  assert (HA : forall o, (- 2 ^ 63 < o < 2 ^ 63)%Z ->
    add w (Iterator (Some r) p) o = (if ((0 <=? Z.of_nat p + o) && (Z.of_nat p + o <=? Z.of_nat (length l)))%Z then Return (Iterator (Some r) (Z.to_nat (Z.of_nat p + o))) else Throw OutOfRangeJsonException)).
  { intros x Hx. unfold add. rewrite (validated_it w r _ HR HC) by assumption. rewrite (advance_it r _ HC) by lia. now rewrite EL. }
  split; [now apply HA|]. split.
  { unfold subtract. rewrite (proj2 (Z.eqb_neq _ _)) by lia. rewrite HA by lia. now replace (Z.of_nat p + - o)%Z with (Z.of_nat p - o)%Z by lia. }
  split.
  { unfold offset_by. rewrite (validated_it w r _ HR HC) by assumption. rewrite (advance_it r _ HC) by lia. rewrite EL. destruct (Z.leb_spec 0 (Z.of_nat p + o)); cbn [andb].
    - destruct (Z.leb_spec (Z.of_nat p + o) (Z.of_nat (length l))); cbn [position].
      + unfold element. cbn [selector_at]. destruct (Z.ltb_spec (Z.of_nat p + o) (Z.of_nat (length l))).
        * destruct (nth_error l (Z.to_nat (Z.of_nat p + o))) eqn:EN; [reflexivity|]. apply nth_error_None in EN. lia.
        * rewrite (proj2 (nth_error_None _ _)) by lia. cbn [option_map]. now rewrite (proj2 (Z.eqb_eq _ _)) by lia.
      + rewrite (proj2 (Z.ltb_ge _ _)) by lia. now rewrite (proj2 (Z.eqb_neq _ _)) by lia.
    - now rewrite (proj2 (Z.eqb_neq _ _)) by lia. }
  intros [o' q'] p' (HO' & HP' & _ & _ & HL'). cbn [owner position] in *. subst o' q'.
  unfold difference, greater_equal, greater, less_equal, less. rewrite !(validated2_it w r _ HR HC) by assumption. cbn [negate position]. rewrite !negb_involutive.
  repeat split; f_equal; [destruct (Nat.ltb_spec p' p), (Nat.leb_spec p p'); cbn; try reflexivity; lia|destruct (Nat.ltb_spec p p'), (Nat.leb_spec p' p); cbn; try reflexivity; lia].
Qed.
(** What is refused: iterators without an instance, iterators of different instances, offsets and order on objects. *)
Theorem iterator_refusals : forall w it r j p, points w it r j p ->
  (forall it', owner it' = None -> equal w it it' = Throw NullJsonException /\ equal w it' it = Throw NullJsonException /\ deref w it' = Throw NullJsonException /\ increment w it' = Throw NullJsonException) /\
  (forall it' r', owner it' = Some r' -> r' <> r -> equal w it it' = Throw BadJsonComparisonException /\ less w it it' = Throw BadJsonComparisonException /\ difference w it it' = Throw BadJsonComparisonException) /\
  (forall m o it' p', j = JObject m -> points w it' r j p' ->
     offset_by w it o = Throw JsonIteratorException /\ add w it o = Throw JsonIteratorException /\ less w it it' = Throw JsonIteratorException /\ difference w it it' = Throw JsonIteratorException).
Proof.
  intros w [o q] r j p (HO & HP & HR & HC & HL). cbn [owner position] in HO, HP. subst o q. split; [|split].
  - intros [o' q'] HO'. cbn [owner] in HO'. subst o'. repeat split.
  - intros [o' q'] r' HO' NE. cbn [owner] in HO'. subst o'. unfold equal, less, difference, validated2. cbn [owner]. destruct (ref_dec r r'); [congruence|]. repeat split.
  - intros m o [o' q'] p' EJ (HO' & HP' & _ & _ & HL'). cbn [owner position] in *. subst o' q'. unfold offset_by, add, less, difference.
    rewrite !(validated_it w r j HR HC), !(validated2_it w r j HR HC) by assumption. now subst j.
Qed.
Lemma skipn_nth {A} (l : list A) p x : nth_error l p = Some x -> skipn p l = x :: skipn (S p) l.
Proof. revert l. induction p as [|p IH]; intros [|y l] E; try discriminate; cbn in E; [now injection E as ->|]. cbn. now apply IH. Qed.
(** The loop over begin() .. end() visits every element once, in order, and nothing else, and it ends. *)
Theorem loop_visits : forall w r j, read w r = Some j -> container j ->
  forall xs, loop w (Iterator (Some r) (length (elements j))) (Iterator (Some r) 0) xs <-> xs = map (element_ref r) (elements j).
Proof.
  intros w r j HR HC. set (n := length (elements j)).
  assert (EQ : forall p, p <= n -> equal w (Iterator (Some r) p) (Iterator (Some r) n) = Return (p =? n)) by (intros p Hp; unfold equal; now rewrite (validated2_it w r j HR HC) by (fold n; lia)).
  assert (G : forall k p, p + k = n -> forall xs, loop w (Iterator (Some r) n) (Iterator (Some r) p) xs <-> xs = map (element_ref r) (skipn p (elements j))).
  { induction k as [|k IH]; intros p Hp xs.
    - replace p with n by lia. unfold n at 3. rewrite skipn_all. cbn [map]. split.
      + intros HL. inversion HL as [i E|i x it' xs' E]; [reflexivity|]. subst. rewrite EQ in E by lia. rewrite Nat.eqb_refl in E. discriminate.
      + intros ->. apply loop_done. rewrite EQ by lia. now rewrite Nat.eqb_refl.
    - assert (HP : p < n) by lia. destruct (nth_error (elements j) p) as [e|] eqn:EN; [|apply nth_error_None in EN; fold n in EN; lia].
      rewrite (skipn_nth _ _ _ EN). cbn [map].
      assert (ED : deref w (Iterator (Some r) p) = Return (element_ref r e)) by (rewrite (deref_it w r j HR HC) by (fold n; lia); now rewrite EN).
      assert (EI : increment w (Iterator (Some r) p) = Return (Iterator (Some r) (S p))) by (rewrite (increment_it w r j HR HC) by (fold n; lia); fold n; now rewrite (proj2 (Nat.ltb_lt _ _) HP)).
      split.
      + intros HL. inversion HL as [i E|i x it' xs' E E1 E2 HL']; subst; [rewrite EQ in E by lia; rewrite (proj2 (Nat.eqb_neq _ _)) in E by lia; discriminate|].
        rewrite ED in E1. injection E1 as <-. rewrite EI in E2. injection E2 as <-. f_equal. apply IH; [lia|assumption].
      + intros ->. eapply loop_more; [rewrite EQ by lia; now rewrite (proj2 (Nat.eqb_neq _ _)) by lia|exact ED|exact EI|]. apply IH; [lia|reflexivity]. }
  exact (G n 0 eq_refl).
Qed.
(** The reverse loop (rbegin() is end(), rend() is begin()) visits them backwards. *)
Theorem reverse_loop_visits : forall w r j, read w r = Some j -> container j ->
  forall xs, reverse_loop w (Iterator (Some r) 0) (Iterator (Some r) (length (elements j))) xs <-> xs = rev (map (element_ref r) (elements j)).
Proof.
  intros w r j HR HC. set (n := length (elements j)).
  assert (EQ : forall p, p <= n -> equal w (Iterator (Some r) p) (Iterator (Some r) 0) = Return (p =? 0)) by (intros p Hp; unfold equal; now rewrite (validated2_it w r j HR HC) by (fold n; lia)).
  assert (G : forall p, p <= n -> forall xs, reverse_loop w (Iterator (Some r) 0) (Iterator (Some r) p) xs <-> xs = rev (map (element_ref r) (firstn p (elements j)))).
  { induction p as [|p IH]; intros Hp xs.
    - cbn [firstn map rev]. split.
      + intros HL. inversion HL as [i E|i x it' xs' E]; [reflexivity|]. subst. rewrite EQ in E by lia. discriminate.
      + intros ->. apply reverse_done. now rewrite EQ by lia.
    - destruct (nth_error (elements j) p) as [e|] eqn:EN; [|apply nth_error_None in EN; fold n in EN; lia].
      assert (EF : firstn (S p) (elements j) = firstn p (elements j) ++ [e]).
      { apply nth_error_split in EN. destruct EN as (a & b & -> & <-). rewrite !firstn_app, firstn_all, Nat.sub_diag, firstn_O, app_nil_r.
        rewrite firstn_all2 by lia. f_equal. now replace (S (length a) - length a) with 1 by lia. }
      rewrite EF, map_app, rev_app_distr. cbn [map rev app].
      assert (EI : r_increment w (Iterator (Some r) (S p)) = Return (Iterator (Some r) p)) by (unfold r_increment; now rewrite (decrement_it w r j HR HC) by (fold n; lia)).
      assert (ED : r_deref w (Iterator (Some r) (S p)) = Return (element_ref r e)).
      { unfold r_deref. unfold r_increment in EI. rewrite EI. cbn [andthen]. rewrite (deref_it w r j HR HC) by (fold n; lia). now rewrite EN. }
      split.
      + intros HL. inversion HL as [i E|i x it' xs' E E1 E2 HL']; subst; [rewrite EQ in E by lia; discriminate|].
        rewrite ED in E1. injection E1 as <-. rewrite EI in E2. injection E2 as <-. f_equal. apply IH; [lia|assumption].
      + intros ->. eapply reverse_more; [now rewrite EQ by lia|exact ED|exact EI|]. apply IH; [lia|reflexivity]. }
  intros xs. rewrite (G n (le_n _) xs). unfold n. now rewrite firstn_all.
Qed.
(** What a visited reference denotes. *)
Theorem elements_read : forall w r j e, world_of stored w -> read w r = Some j -> In e (elements j) -> read w (element_ref r e) = Some (snd e).
Proof.
  intros w r j e HW HR HI. pose proof (read_hereditary _ _ hereditary_stored w r j HW HR) as HS. unfold read, element_ref in *. cbn [fst snd]. rewrite get_app, HR. cbn [get_at].
  destruct j; cbn [elements] in HI; try contradiction.
  - apply stored_object in HS. destruct HS as [HS _]. apply in_map_iff in HI. destruct HI as ([k v] & <- & HI). cbn [fst snd select]. rewrite map_find_bound by assumption.
    now rewrite (proj2 (bound_in m k v HS) HI).
  - apply In_nth_error in HI. destruct HI as (p & HI). rewrite nth_seq_combine in HI. destruct (nth_error l p) as [v|] eqn:EN; [|discriminate]. cbn in HI. injection HI as <-.
    cbn [fst snd select]. now rewrite EN.
Qed.
(** find() gives the place of the key; reverse key() and * are those of the element before the base. *)
Theorem reverse_steps : forall w it r j p, points w it r j p ->
  r_deref w it = match p with O => Throw NullJsonException | S p' => deref w (Iterator (Some r) p') end /\
  r_key w it = match p with O => Throw NullJsonException | S p' => key w (Iterator (Some r) p') end /\
  r_increment w it = match p with S p' => Return (Iterator (Some r) p') | O => Throw OutOfRangeJsonException end /\
  r_decrement w it = (if p <? length (elements j) then Return (Iterator (Some r) (S p)) else Throw OutOfRangeJsonException) /\
  (forall l it' p', j = JArray l -> points w it' r j p' -> r_difference w it it' = Return (Z.of_nat p' - Z.of_nat p)%Z).
Proof.
  intros w [o q] r j p HPt. destruct (iterator_steps _ _ _ _ _ HPt) as (_ & EI & ED & _). destruct HPt as (HO & HP & HR & HC & HL). cbn [owner position] in HO, HP. subst o q.
  unfold r_deref, r_key, r_increment, r_decrement. rewrite EI, ED. split; [|split; [|split; [reflexivity|split; [reflexivity|]]]].
  - destruct p as [|p]; [reflexivity|]. cbn [andthen]. rewrite (deref_it w r j HR HC) by lia. destruct (nth_error (elements j) p); reflexivity.
  - destruct p as [|p]; [reflexivity|]. cbn [andthen]. unfold key. rewrite (validated_it w r j HR HC) by lia. cbn [position]. destruct j; try reflexivity. now destruct (nth_error m p).
  - intros l [o' q'] p' EJ (HO' & HP' & _ & _ & HL'). cbn [owner position] in *. subst o' q'. unfold r_difference, difference. rewrite (validated2_it w r j HR HC) by assumption. now subst j.
Qed.

(** * C54 References *)
(** A call leaves every instance that neither contains nor is contained in its own as it was, and its own holds the result. *)
Theorem call_frame : forall sg me mb w r o w' x, world_of stored w -> Forall stored (values_of o) -> call sg me mb w r o = Some (w', x) ->
  world_of stored w' /\
  (exists j, read w r = Some j /\ read w' r = Some (fst (run sg me mb (read w) r o j)) /\ x = snd (run sg me mb (read w) r o j)) /\
  (forall r', apart r r' -> read w' r' = read w r').
Proof.
  intros sg me mb w r o w' x HW HV E. unfold call in E. destruct (read w r) as [j|] eqn:ER; [|discriminate]. destruct (run sg me mb (read w) r o j) as [j' x'] eqn:EX. injection E as <- <-.
  assert (HJ : stored j') by (replace j' with (fst (run sg me mb (read w) r o j)) by (now rewrite EX); apply run_stored; [intros; eapply (read_hereditary _ _ hereditary_stored); eassumption|exact (read_hereditary _ _ hereditary_stored w r j HW ER)|assumption]).
  split; [now apply (write_hereditary _ _ hereditary_stored)|]. split; [exists j; rewrite EX; repeat split; now apply (read_write w r j' j)|].
  intros r' HA. now apply (read_write_apart w r r' j' j).
Qed.
(** An instance that contains it keeps its other elements, their keys and their order. *)
Theorem call_ancestors : forall sg me mb w v p s q o w' x, world_of stored w -> Forall stored (values_of o) -> call sg me mb w (v, p ++ s :: q) o = Some (w', x) ->
  exists a a', read w (v, p) = Some a /\ read w' (v, p) = Some a' /\
    Forall2 (fun e e' => fst e = fst e' /\ (fst e <> s -> e = e')) (elements a) (elements a').
Proof.
  intros sg me mb w v p s q o w' x HW HV E. unfold call in E. destruct (read w (v, p ++ s :: q)) as [j|] eqn:ER; [|discriminate].
  destruct (run sg me mb (read w) (v, p ++ s :: q) o j) as [j' x'] eqn:EX. injection E as <- <-. unfold read in *. cbn [fst snd] in *.
  rewrite get_app in ER. destruct (get_at p (w v)) as [a|] eqn:EA; [|discriminate]. exists a. unfold write. cbn [fst snd]. rewrite Nat.eqb_refl.
  rewrite (set_app p (s :: q) j' (w v) a (HW v) EA). rewrite (get_set p _ (w v) a (HW v) EA). eexists. split; [reflexivity|]. split; [reflexivity|].
  cbn [set_at]. cbn [get_at] in ER. destruct (select s a) as [b|] eqn:ES; [|discriminate]. generalize (set_at q j' b). intros y.
  pose proof (get_hereditary _ _ hereditary_stored p (w v) a (HW v) EA) as HS. clear - ES HS. destruct s as [k|i]; destruct a; try discriminate; cbn [select] in ES.
  - cbn [replace]. apply stored_object in HS. destruct HS as [HS _]. pose proof (map_find_bound k m HS) as HB. rewrite ES in HB. destruct (map_find k m) as [[i z]|] eqn:EF; [|discriminate].
    cbn [elements]. clear EF ES i z. symmetry in HB. revert HS HB. induction m as [|[k0 v0] m IH]; intros HS HB; [discriminate|]. destruct HS as [HF HS]. rewrite bound_cons in HB. cbn [Json_Model.insert_or_assign].
    assert (RF : forall l : list (selector * json), Forall2 (fun e e' => fst e = fst e' /\ (fst e <> Key k -> e = e')) l l) by (induction l; constructor; auto).
    destruct (key_compare k k0) eqn:EC.
    + apply key_compare_eq in EC. subst k0. cbn [map]. constructor; [split; [reflexivity|intros NE; now destruct NE]|apply RF].
    + apply key_compare_lt in EC. destruct (same_key k k0) as [->|]; [now apply key_lt_irrefl in EC|]. rewrite bound_none in HB; [discriminate|]. eapply sorted_above; eassumption.
    + apply key_compare_gt in EC. destruct (same_key k k0) as [->|]; [now apply key_lt_irrefl in EC|]. cbn [map]. constructor; [auto|]. now apply IH.
  - cbn [replace]. assert (HL : i < length l) by (apply nth_error_Some; congruence). rewrite (proj2 (Nat.ltb_lt _ _) HL). cbn [elements].
    destruct (split_lt l i HL) as (c & z & d & -> & <-). rewrite replaced_app, !app_length. cbn [length].
    assert (G : forall c k, Forall2 (fun e e' : selector * json => fst e = fst e' /\ (fst e <> Index (k + length c) -> e = e'))
       (combine (map Index (seq k (length c + S (length d)))) (c ++ z :: d)) (combine (map Index (seq k (length c + S (length d)))) (c ++ y :: d))).
    { clear. induction c as [|c0 c IH]; intros k.
      - cbn [length app Nat.add seq map combine]. constructor; [split; [reflexivity|cbn; rewrite Nat.add_0_r; congruence]|].
        generalize (combine (map Index (seq (S k) (length d))) d). induction l; constructor; auto.
      - cbn [length app Nat.add seq map combine]. constructor; [auto|]. replace (k + S (length c)) with (S k + length c) by lia. apply IH. }
    exact (G c 0).
Qed.
(** Regular values stay regular: whatever is called with proper arguments, every variable serializes. *)
Theorem calls_stay_regular : forall sg me mb w os w', world_of regular w -> calls sg me mb w os w' ->
  world_of regular w' /\ forall v fp sg', exists text, serialize fp sg' (w' v) = Ok text.
Proof.
  intros sg me mb w os w' HW HC. assert (HR : world_of regular w').
  { induction HC as [w|w r o j x w' os w'' ER HP HCa E HC IH]; [assumption|]. apply IH. unfold call in E. rewrite ER in E.
    destruct (run sg me mb (read w) r o j) as [j' x'] eqn:EX. injection E as <- _. apply (write_hereditary _ _ hereditary_regular); [assumption|].
    replace j' with (fst (run sg me mb (read w) r o j)) by (now rewrite EX). apply run_regular; [|exact (read_hereditary _ _ hereditary_regular w r j HW ER)|assumption|assumption].
    intros r0 x0 E0. exact (read_hereditary _ _ hereditary_regular w r0 x0 HW E0). }
  split; [assumption|]. intros v fp sg'. apply serialize_regular. apply HR.
Qed.
(** ... but a string cut inside a character does not: serializing it is undefined. *)
Theorem resize_keeps_serializable_refuted : forall sg me mb at_ self fp sg', (3 <= mb)%Z ->
  let j := JString [226; 130; 172]%Z in let j' := JString [226; 130]%Z in
  regular j /\ run sg me mb at_ self (Resize 2) j = (j', Return RVoid) /\ serialize fp sg' j' = UB.
Proof.
  intros sg me mb at_ self fp sg' H j j'. split; [exists [8364%Z]; split; [repeat constructor; unfold scalar; lia|reflexivity]|].
  split; [cbn [run j]; rewrite (proj2 (Z.ltb_ge _ _)) by lia; reflexivity|]. destruct sg'; reflexivity.
Qed.

(** * Examples *)
(** {"a": [true, null], "b": 1} *)
Example example_object : json := JObject [([97%Z], JArray [JBool true; JNull]); ([98%Z], JSigned 1)].
Example example_world : world := fun v => match v with 0 => example_object | 1 => JArray [JNull; JBool false] | _ => JNull end.
Example example_regular : world_of regular example_world.
Proof.
  intros [|[|v]]; [|repeat split|exact I]. apply regular_object. split; [cbn [sorted_keys fst key_lt]; repeat split; repeat constructor; cbn; lia|].
  assert (U : forall c, (0 <= c < 128)%Z -> utf8_text [c]).
  { intros c Hc. exists [c]. split; [constructor; [unfold scalar; lia|constructor]|]. cbn [flat_map]. unfold utf8. now rewrite (proj2 (Z.ltb_lt _ _)) by lia. }
  constructor; [split; [apply U; lia|repeat split]|]. constructor; [split; [apply U; lia|unfold regular; cbn [snd]; lia]|constructor].
Qed.
Example example_points : points example_world (Iterator (Some (0, [])) 1) (0, []) example_object 1 /\
  points example_world (Iterator (Some (0, [Key [97%Z]])) 2) (0, [Key [97%Z]]) (JArray [JBool true; JNull]) 2.
Proof. repeat split; try (now left; eexists); try (now right; eexists); cbn; lia. Qed.
Example example_loop : loop example_world (Iterator (Some (0, [])) 2) (Iterator (Some (0, [])) 0) [(0, [Key [97%Z]]); (0, [Key [98%Z]])].
Proof. apply (loop_visits example_world (0, []) example_object eq_refl); [left; eexists; reflexivity|reflexivity]. Qed.
Example example_apart : apart (0, [Key [97%Z]; Index 0]) (0, [Key [97%Z]; Index 1]) /\ apart (0, [Key [97%Z]]) (1, [Index 0]) /\ ~ apart (0, [Key [97%Z]]) (0, []).
Proof.
  split; [right; split; intros x; discriminate|]. split; [left; cbn; lia|]. intros [H|[_ H]]; [now cbn in H|]. now apply (H [Key [97%Z]]).
Qed.
(** j["a"].push_back("x"); k.insert(begin, j["a"].begin(), j["a"].end()); j.erase("b") *)
Example example_calls : exists w', calls true 1000 1000 example_world
  [((0, [Key [97%Z]]), PushBack (JString [120%Z])); ((1, []), InsertAtRange (Iterator (Some (1, [])) 0) (Iterator (Some (0, [Key [97%Z]])) 0) (Iterator (Some (0, [Key [97%Z]])) 3)); ((0, []), EraseKey [98%Z])] w' /\
  w' 0 = JObject [([97%Z], JArray [JBool true; JNull; JString [120%Z]])] /\ w' 1 = JArray [JBool true; JNull; JString [120%Z]; JNull; JBool false].
Proof.
  eexists. split; [|split].
  - eapply calls_cons; [reflexivity| |exact I|reflexivity|].
    { split; [constructor; [|constructor]; exists [120%Z]; split; [constructor; [unfold scalar; lia|constructor]|reflexivity]|split; [constructor|cbn; lia]]. }
    eapply calls_cons; [reflexivity| |exact I|reflexivity|]. { repeat split; try constructor; cbn; lia. }
    eapply calls_cons; [reflexivity| |exact I|reflexivity|]. { split; [constructor|]. split; [constructor; [lia|constructor]|cbn; lia]. }
    apply calls_nil.
  - reflexivity.
  - reflexivity.
Qed.
