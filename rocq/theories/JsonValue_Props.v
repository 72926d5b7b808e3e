(** C51-C54, continued: size, clear, assignment, swap, refused merges and constructions, arithmetic of reverse iterators. *)
From Coq Require Import SpecFloat.
From Verif Require Import Common Unicode_Spec Format_Spec Json_Spec Json_Model Json_Token_Proofs Json_String_Proofs JsonApi_Model JsonApi_Spec JsonApi_Proofs JsonApi_Props JsonIter_Props.
Open Scope nat_scope.

(** size(): the bytes of a string, the elements of a container, none for null and one for every other value; empty(): the size is 0. *)
Theorem size_and_empty : forall sg me mb at_ self j, exists n,
  run sg me mb at_ self Size j = (j, Return (RSize n)) /\ run sg me mb at_ self Empty j = (j, Return (RBool (n =? 0))) /\
  match kind_of j with
  | Null => n = 0
  | Text => exists s, j = JString s /\ n = length s
  | Object | Array => n = length (elements j)
  | Scalar => n = 1
  end.
Proof.
  intros sg me mb at_ self j. exists (size j). split; [reflexivity|]. cbn [run]. split; [f_equal; f_equal; f_equal; destruct j as [|[|]|[|]|[|]| | | |]; reflexivity|].
  destruct j; cbn [kind_of]; try reflexivity; [eauto|..]; symmetry; apply elements_length; [left|right]; eauto.
Qed.
(** clear(): the same type, with nothing in it: the empty string or container, false, or zero. *)
Theorem clear_keeps_the_type : forall sg me mb at_ self j, exists j', run sg me mb at_ self Clear j = (j', Return RVoid) /\
  match j with
  | JNull => j' = JNull | JString _ => j' = JString [] | JObject _ => j' = JObject [] | JArray _ => j' = JArray []
  | JBool _ => j' = JBool false | JSigned _ => j' = JSigned 0 | JUnsigned _ => j' = JUnsigned 0 | JFloat _ => j' = JFloat (S754_zero false)
  end.
Proof. intros. eexists. split; [reflexivity|]. now destruct j. Qed.
(** Assignment, and swapping two instances. *)
Theorem assign_and_swap : forall sg me mb at_ self j v, run sg me mb at_ self (Assign v) j = (v, Return RVoid) /\ swap j v = (v, j).
Proof. intros. split; reflexivity. Qed.
(** Swapping a string with a std::string: the text is validated, its escape sequences replaced; otherwise nothing is swapped. *)
Theorem swap_string_exact : forall sg s t, Forall byte t ->
  (forall k, names t k -> swap_string sg (JString s) t = (JString k, s, Return RVoid)) /\
  (names_nothing t -> fst (fst (swap_string sg (JString s) t)) = JString s /\ snd (swap_string sg (JString s) t) = Throw JsonException) /\
  (forall j, (forall s', j <> JString s') -> swap_string sg j t = (j, t, Throw JsonException)).
Proof.
  intros sg s t HB. split; [|split].
  - intros k HN. unfold swap_string. apply (key_of_names sg) in HN; [|assumption]. unfold key_of in HN. now rewrite HN.
  - intros HN. unfold swap_string. apply (key_of_nothing sg) in HN; [|assumption]. unfold key_of in HN. now rewrite HN.
  - intros j HJ. destruct j; try reflexivity. now destruct (HJ s0).
Qed.

(** A map one of whose keys names nothing is refused. *)
Theorem map_constructor_refused : forall sg es, Forall (fun e => Forall byte (fst e)) es -> Exists (fun e => names_nothing (fst e)) es ->
  object_constructor sg es [] = Throw JsonException.
Proof.
  intros sg es HB HE. generalize (@nil (list Z * json)). induction HE as [[t v] es HN|[t v] es HE IH]; intros m; inversion_clear HB as [|? ? HB1 HB2]; cbn [object_constructor fst] in *.
  - apply (key_of_nothing sg) in HN; [|assumption]. unfold key_of in HN. now rewrite HN.
  - destruct (convert_to_string sg t); [now apply IH|reflexivity].
Qed.
(** A merge that is refused leaves both instances as they were, except that null becomes an empty object. *)
Theorem merge_refused : forall a b, ~ (In (kind_of a) [Object; Null] /\ kind_of b = Object) ->
  exists a', merge a b = (a', b, Throw JsonException) /\ (a' = a \/ a = JNull /\ a' = JObject []).
Proof.
  intros a b H. unfold merge. destruct a; cbn [promote_object kind_of] in *; eauto; destruct b; cbn [as_object kind_of] in *; eauto; exfalso; apply H; cbn [In]; auto.
Qed.

(** ** Reverse iterators of arrays: [p] is the number of elements that follow in reverse order. *)
Theorem reverse_arithmetic : forall w it r l p o, points w it r (JArray l) p -> (- 2 ^ 63 < o < 2 ^ 63)%Z ->
  r_add w it o = (if ((0 <=? Z.of_nat p - o) && (Z.of_nat p - o <=? Z.of_nat (length l)))%Z then Return (Iterator (Some r) (Z.to_nat (Z.of_nat p - o))) else Throw OutOfRangeJsonException) /\
  r_subtract w it o = (if ((0 <=? Z.of_nat p + o) && (Z.of_nat p + o <=? Z.of_nat (length l)))%Z then Return (Iterator (Some r) (Z.to_nat (Z.of_nat p + o))) else Throw OutOfRangeJsonException) /\
  r_offset_by w it o = (if ((1 <=? Z.of_nat p - o) && (Z.of_nat p - o <=? Z.of_nat (length l)))%Z then Return (fst r, snd r ++ [Index (Z.to_nat (Z.of_nat p - o - 1))])
                        else if (Z.of_nat p - o =? 0)%Z then Throw NullJsonException else Throw OutOfRangeJsonException).
Proof.
  intros w it r l p o HP Ho. destruct (iterator_arithmetic w it r l p o HP Ho) as (EA & ES & _). split; [exact ES|]. split; [exact EA|].
  unfold r_offset_by, r_add. rewrite ES. destruct HP as (HO & HP & HR & HC & HL). assert (EL : length (elements (JArray l)) = length l) by (apply (elements_length _ HC)).
  destruct (Z.leb_spec 0 (Z.of_nat p - o)); cbn [andb andthen].
  - destruct (Z.leb_spec (Z.of_nat p - o) (Z.of_nat (length l))); cbn [andb andthen].
    + unfold r_deref. rewrite (decrement_it w r _ HR HC) by lia. destruct (Z.leb_spec 1 (Z.of_nat p - o)); cbn [andb].
      * destruct (Z.to_nat (Z.of_nat p - o)) as [|q] eqn:EQ; [lia|]. cbn [andthen]. rewrite (deref_it w r _ HR HC) by lia. cbn [elements]. rewrite nth_seq_combine.
        destruct (nth_error l q) as [v|] eqn:EN; [|apply nth_error_None in EN; lia]. cbn [option_map null_if_out_of_range]. unfold element_ref. cbn [fst]. now replace (Z.to_nat (Z.of_nat p - o - 1)) with (0 + q) by lia.
      * rewrite (proj2 (Z.eqb_eq _ _)) by lia. now replace (Z.to_nat (Z.of_nat p - o)) with 0 by lia.
    + rewrite (proj2 (Z.eqb_neq _ _)) by lia. now rewrite andb_false_r.
  - rewrite (proj2 (Z.leb_gt 1 _)) by lia. cbn [andb]. now rewrite (proj2 (Z.eqb_neq _ _)) by lia.
Qed.

(** ** Examples *)
Example example_reverse : let w := fun _ : nat => JArray [JNull; JBool true; JBool false] in
  points w (Iterator (Some (0, [])) 3) (0, []) (w 0) 3 /\ r_offset_by w (Iterator (Some (0, [])) 3) 2 = Return (0, [Index 0]) /\ r_offset_by w (Iterator (Some (0, [])) 3) 3 = Throw NullJsonException.
Proof.
  split; [|split; reflexivity]. split; [reflexivity|]. split; [reflexivity|]. split; [reflexivity|]. split; [right; eauto|]. cbn. lia.
Qed.
Example example_refused : names_nothing [34%Z] /\ object_constructor true [([97%Z], JNull); ([34%Z], JNull)] [] = Throw JsonException.
Proof. split; [apply example_names_nothing|reflexivity]. Qed.
