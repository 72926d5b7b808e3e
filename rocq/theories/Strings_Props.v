(** Properties C22-C25: split, trim, replace_all, wildcard_match. *)
From Verif Require Import Common Bits Lexer_Model Lexer_Spec Strings_Model Strings_Spec Strings_Proofs.

(** * C22 *)

(** Without a limit, split never fails and returns the non-empty pieces between delimiters, in order. *)
Theorem split_pieces : forall s d ps, pieces_of d s ps -> split s d 0 = Ok (filter nonempty ps).
Proof. intros s d ps H. rewrite split_unlimited. now rewrite (pieces_of_unique d s _ _ H (pieces_ok d s)). Qed.

(** Every string has exactly one sequence of pieces. *)
Theorem pieces_exist_unique : forall s d, exists! ps, pieces_of d s ps.
Proof.
  intros s d. exists (pieces d s). split; [apply pieces_ok|]. intros ps H.
  eapply pieces_of_unique; [apply pieces_ok|exact H].
Qed.

(** With a limit: the first count-1 non-empty pieces, then one element made of the others joined by
    single delimiters. *)
Theorem split_count : forall s d count ps, (0 < count)%nat -> pieces_of d s ps ->
  let qs := filter nonempty ps in
  split s d count = Ok (if (length qs <=? count)%nat then qs
                        else firstn (count - 1) qs ++ [join d (skipn (count - 1) qs)]).
Proof.
  intros s d count ps Hc H. cbv zeta. rewrite split_fold, fold_push_filter.
  rewrite (pieces_of_unique d s _ _ (pieces_ok d s) H).
  pose proof (filter_nonempty ps) as HF. set (qs := filter nonempty ps) in *. clearbody qs. f_equal.
  destruct (Nat.leb_spec (length qs) count).
  - rewrite fold_push_more by (auto; cbn [length]; lia). reflexivity.
  - rewrite <- (firstn_skipn count qs) at 1. rewrite fold_left_app.
    rewrite <- (firstn_skipn count qs) in HF. apply Forall_app in HF. destruct HF as [HF1 HF2].
    assert (HL : length (firstn count qs) = count) by (rewrite firstn_length; lia).
    rewrite (fold_push_more count d (firstn count qs) []) by (auto; cbn [length]; lia). cbn [app].
    rewrite fold_push_full by assumption.
    assert (E : firstn count qs = firstn (count - 1) qs ++ [nth (count - 1) qs []]).
    { replace count with (count - 1 + 1)%nat at 1 by lia. rewrite firstn_add. f_equal.
      assert (HN : (count - 1 < length qs)%nat) by lia. revert HN. clear. generalize (count - 1)%nat.
      induction qs as [|q qs IH]; intros n Hn; [cbn in Hn; lia|]. destruct n; [reflexivity|]. cbn [skipn nth]. apply IH. cbn in Hn. lia. }
    rewrite E at 1 2. rewrite removelast_last, last_last. do 2 f_equal.
    replace (skipn (count - 1) qs) with (nth (count - 1) qs [] :: skipn count qs); [reflexivity|].
    assert (HN : (count - 1 < length qs)%nat) by lia. replace count with (S (count - 1)) at 2 by lia. revert HN. clear. generalize (count - 1)%nat.
    induction qs as [|q qs IH]; intros n Hn; [cbn in Hn; lia|]. destruct n; [reflexivity|]. cbn [nth]. rewrite IH by (cbn in Hn; lia). reflexivity.
Qed.

Theorem split_at_most_count : forall s d count ps, (0 < count)%nat -> split s d count = Ok ps ->
  (length ps <= count)%nat /\ Forall (fun p => p <> []) ps.
Proof.
  intros s d count ps Hc H. rewrite (split_count s d count _ Hc (pieces_ok d s)) in H.
  pose proof (filter_nonempty (pieces d s)) as HF. set (qs := filter nonempty (pieces d s)) in *. clearbody qs.
  assert (HN : forall l, Forall (fun p => nonempty p = true) l -> Forall (fun p : list Z => p <> []) l).
  { intros l Hl. eapply Forall_impl; [|exact Hl]. now intros [|]. }
  assert (OI : forall a b : list (list Z), Ok a = Ok b -> a = b) by congruence. apply OI in H. subst ps.
  destruct (Nat.leb_spec (length qs) count); [auto|]. split.
  - rewrite app_length, firstn_length. cbn [length]. lia.
  - rewrite <- (firstn_skipn (count - 1) qs) in HF. apply Forall_app in HF. destruct HF as [HF1 HF2].
    apply Forall_app. split; [auto|]. constructor; [|constructor].
    assert (HL : (0 < length (skipn (count - 1) qs))%nat) by (rewrite skipn_length; lia).
    destruct (skipn (count - 1) qs) as [|q r]; [cbn in HL; lia|]. inversion HF2; subst. destruct q; [discriminate|]. destruct r; discriminate.
Qed.

(** The documentation promises that past the limit "the rest of the string is appended to the last
    element"; that holds when no piece is empty, but empty pieces of the rest are dropped. *)
Theorem split_rest_partial : forall s d count ps out, (0 < count)%nat -> pieces_of d s ps ->
  Forall (fun p => p <> []) ps -> split s d count = Ok out -> join d out = s.
Proof.
  intros s d count ps out Hc H HF HS. rewrite (split_count s d count ps Hc H) in HS.
  assert (E : filter nonempty ps = ps).
  { clear - HF. induction HF as [|p ps Hp _ IH]; [reflexivity|]. cbn [filter]. destruct p; [congruence|]. cbn [nonempty]. now rewrite IH. }
  rewrite E in HS. destruct H as (H1 & H2 & ->).
  assert (OI : forall a b : list (list Z), Ok a = Ok b -> a = b) by congruence. apply OI in HS. subst out.
  destruct (Nat.leb_spec (length ps) count); [reflexivity|].
  destruct (firstn (count - 1) ps) as [|q r] eqn:EF.
  - assert (count - 1 = 0)%nat.
    { apply (f_equal (@length (list Z))) in EF. rewrite firstn_length in EF. cbn [length] in EF. lia. }
    rewrite H0. reflexivity.
  - rewrite <- EF. rewrite join_app by (rewrite ?EF; discriminate). cbn [join].
    rewrite <- join_app; [now rewrite firstn_skipn|rewrite EF; discriminate|].
    intros HS. apply (f_equal (@length (list Z))) in HS. rewrite skipn_length in HS. cbn [length] in HS. lia.
Qed.
Theorem split_rest_refuted : exists s d count out, (0 < count)%nat /\ split s d count = Ok out /\
  length out = count /\ nth 0 out [] = [107] /\ s = [107; d; 97; d; d; 98] /\ nth 1 out [] <> [97; d; d; 98].
Proof.
  (* "k=a==b" with limit 2 gives "k", "a=b" *)
  exists [107; 61; 97; 61; 61; 98], 61, 2%nat, [[107]; [97; 61; 98]]. repeat split; try lia. discriminate.
Qed.

Example C22_case : pieces_of 44 [97; 44; 44; 98; 44] [[97]; []; [98]; []] /\ split [97; 44; 44; 98; 44] 44 0 = Ok [[97]; [98]].
Proof.
  split; [|reflexivity]. split; [discriminate|]. split; [|reflexivity].
  repeat (constructor; [cbn; lia|]). constructor.
Qed.

(** * C23 *)
Theorem trim_exact : forall s r, trim s = r <->
  exists a b, s = a ++ r ++ b /\ Forall (fun c => is_space c = true) a /\ Forall (fun c => is_space c = true) b /\
    (r <> [] -> is_space (hd 0 r) = false /\ is_space (last r 0) = false).
Proof.
  intros s r. split.
  - intros <-. destruct (trim_spec s) as (a & b & H1 & H2 & H3 & H4). exists a, b. split; [exact H1|]. split; [exact H2|]. split; [exact H3|].
    intros Hr. destruct (trim s); [congruence|exact H4].
  - intros (a & b & H1 & H2 & H3 & H4). eapply trim_unique; eauto. destruct r; [exact I|]. apply H4. discriminate.
Qed.

Theorem trim_idempotent : forall s, trim (trim s) = trim s.
Proof.
  intros s. apply trim_exact. exists [], []. rewrite app_nil_r. split; [reflexivity|]. split; [constructor|]. split; [constructor|].
  intros Hr. destruct (proj1 (trim_exact s (trim s)) eq_refl) as (a & b & _ & _ & _ & H). auto.
Qed.

(** is_space is the whitespace of the C locale (C20). *)
Example C23_case : trim [32; 9; 97; 32; 98; 10; 13] = [97; 32; 98] /\ trim [32; 12; 11] = [] /\ trim [] = [].
Proof. repeat split. Qed.

(** * C24 *)

(** Whenever replace_all returns, no occurrence is left. *)
Theorem replace_all_removes : forall fuel target search replace out, search <> [] ->
  replace_all fuel target search replace = Some out -> ~ occurs search out.
Proof. exact replace_all_result. Qed.

(** It returns if some character of the search string is not in the replacement, or the replacement
    is shorter (missing: other replacements, for which the claim is false, below). *)
Theorem replace_all_terminates_partial : forall target search replace, search <> [] ->
  (exists c, In c search /\ ~ In c replace) \/ (length replace < length search)%nat ->
  exists n out, forall fuel, (n <= fuel)%nat -> replace_all fuel target search replace = Some out.
Proof.
  intros target search replace Hs H.
  assert (G : exists n out, replace_all n target search replace = Some out).
  { destruct H as [(c & Hin & Hnin)|Hlt].
    - exists (S (count_occ Z.eq_dec target c)). apply (replace_all_measure (fun l => count_occ Z.eq_dec l c)); [assumption| |lia].
      intros a b. rewrite !count_app. rewrite (proj1 (count_occ_not_In Z.eq_dec replace c) Hnin).
      apply (count_occ_In Z.eq_dec) in Hin. lia.
    - exists (S (length target)). apply (replace_all_measure (@length Z)); [assumption| |lia].
      intros a b. rewrite !app_length. lia. }
  destruct G as (n & out & E). exists n, out. intros fuel Hf. replace fuel with (n + (fuel - n))%nat by lia. now apply replace_all_mono.
Qed.

(** remove_all always terminates and leaves no occurrence. *)
Theorem remove_all_total : forall target search, search <> [] ->
  exists out, (forall fuel, (length target < fuel)%nat -> remove_all fuel target search = Some out) /\ ~ occurs search out.
Proof.
  intros target search Hs. unfold remove_all.
  assert (HM : forall a b : list Z, (length (a ++ [] ++ b) < length (a ++ search ++ b))%nat).
  { intros a b. rewrite !app_length. cbn [length]. destruct search; [congruence|cbn [length]; lia]. }
  destruct (replace_all_measure (@length Z) search [] Hs HM (S (length target)) target ltac:(lia)) as (out & E).
  exists out. split.
  - intros fuel Hf. replace fuel with (S (length target) + (fuel - S (length target)))%nat by lia. now apply replace_all_mono.
  - eapply replace_all_result; eassumption.
Qed.

(** The overload with a replacement character loops forever exactly when the search string is that
    character and occurs. *)
Theorem replace_all_char_exact : forall target search ch, search <> [] ->
  (forall fuel, replace_all_char fuel target search ch = None) <-> (search = [ch] /\ In ch target).
Proof.
  intros target search ch Hs. unfold replace_all_char. split.
  - intros H.
    destruct (list_eq_dec Z.eq_dec search [ch]) as [->|Hne].
    + split; [reflexivity|]. specialize (H 0%nat). rewrite replace_all_unfold in H.
      destruct (find_here target [ch]) as [i|] eqn:E; [|discriminate].
      apply find_here_some in E. destruct E as (E & _). rewrite E. apply in_or_app. right. now left.
    + exfalso.
      assert (HC : (exists c, In c search /\ ~ In c [ch]) \/ (length [ch] < length search)%nat).
      { destruct search as [|c [|c2 search]]; [congruence| |right; cbn [length]; lia].
        left. exists c. split; [now left|]. intros [->|[]]. congruence. }
      destruct (replace_all_terminates_partial target search [ch] Hs HC) as (n & out & E).
      specialize (H n). rewrite E in H by lia. discriminate.
  - intros [-> Hin] fuel. apply replace_all_diverges; [discriminate|now exists [], []|].
    apply in_split in Hin. destruct Hin as (a & b & ->). now exists a, b.
Qed.

(** The claim is false in general: if the replacement contains the search string (say "a" -> "aa")
    and the target contains it, replace_all never returns. *)
Theorem replace_all_refuted : forall target search replace, search <> [] ->
  occurs search replace -> occurs search target -> forall fuel, replace_all fuel target search replace = None.
Proof. intros target search replace Hs Hr Ht fuel. now apply replace_all_diverges. Qed.
Example replace_all_refuted_meets : [97] <> [] /\ occurs [97] [97; 97] /\ occurs [97] [98; 97].
Proof. split; [discriminate|]. split; [now exists [], [97]|now exists [98], []]. Qed.

(** An empty search string leaves the target alone. *)
Theorem replace_all_empty_search : forall fuel target replace, replace_all fuel target [] replace = Some target.
Proof. intros [|fuel] target replace; reflexivity. Qed.

Example C24_case : replace_all 9 [97; 98; 99; 97; 98] [97; 98] [120; 121; 122] = Some [120; 121; 122; 99; 120; 121; 122] /\
  (exists c, In c [97; 98] /\ ~ In c [120; 121; 122]) /\ remove_all 9 [97; 97; 98; 98] [97; 98] = Some [].
Proof. split; [reflexivity|]. split; [|reflexivity]. exists 97. cbn. lia. Qed.

(** * C25 *)

(** Every text matching a non-empty pattern is accepted, and no exception or undefined behaviour occurs. *)
Theorem wildcard_match_complete : forall source search, search <> [] -> wild search source ->
  wildcard_match source search = Ok true.
Proof. exact wildcard_complete. Qed.
Theorem wildcard_match_total : forall source search, exists b, wildcard_match source search = Ok b.
Proof.
  intros source search. unfold wildcard_match. unfold s_wildcard. rewrite split_unlimited. cbn [bind].
  destruct search; [eauto|]. destruct (filter nonempty (pieces 42 (z :: search))); eauto.
Qed.

(** Exactly the matches are accepted for patterns consisting only of stars, and for patterns with one
    literal part and at least one star (missing: other patterns, where the converse fails, below). *)
Theorem wildcard_match_exact_partial : forall source m seg n, ~ In 42 seg -> (0 < m + n)%nat ->
  let search := repeat 42 m ++ seg ++ repeat 42 n in
  wildcard_match source search = Ok true <-> wild search source.
Proof.
  intros source m seg n H Hmn. cbv zeta. destruct seg as [|c seg].
  - cbn [app]. rewrite <- repeat_app. destruct (m + n)%nat as [|k]; [lia|].
    split; [intros _; apply wild_stars|]. intros _. apply wildcard_complete; [discriminate|apply wild_stars].
  - apply wildcard_single; [assumption|discriminate|assumption].
Qed.

(** What an accepted pattern guarantees in general: the literal parts occur in order, but possibly
    overlapping. *)
Theorem wildcard_match_guarantee : forall source search, wildcard_match source search = Ok true ->
  search <> [] /\ forall ps, pieces_of 42 search ps -> chain source 0 (filter nonempty ps).
Proof.
  intros source search H. apply wildcard_char in H. destruct H as [Hs H]. split; [assumption|]. intros ps HP.
  assert (E : filter nonempty ps = segments_of search).
  { unfold segments_of. now rewrite (pieces_of_unique 42 search _ _ HP (pieces_ok 42 search)). }
  rewrite E. destruct H as [->|(_ & _ & H)]; [constructor|exact H].
Qed.

(** Exactly which texts are accepted, for every pattern: with [segs] the non-empty literal parts of the pattern, in order, the text begins with the
    first one unless the pattern begins with a star, ends with the last one unless it ends with a star, and contains them at positions that do not
    decrease; parts may overlap, which is where this differs from [wild]. *)
Theorem wildcard_match_iff : forall source search ps, pieces_of 42 search ps ->
  let segs := filter nonempty ps in
  wildcard_match source search = Ok true <->
  search <> [] /\ (segs = [] \/
    ((forall r, search <> 42 :: r) -> exists r, source = hd [] segs ++ r) /\
    ((forall r, search <> r ++ [42]) -> exists r, source = r ++ last segs []) /\
    chain source 0 segs).
Proof.
  intros source search ps HP. cbv zeta.
  replace (filter nonempty ps) with (segments_of search) by (unfold segments_of; now rewrite (pieces_of_unique 42 search _ _ HP (pieces_ok 42 search))).
  rewrite wildcard_char.
  assert (HD : nth 0 (segments_of search) [] = hd [] (segments_of search)) by now destruct (segments_of search).
  rewrite HD.
  assert (F : search <> [] -> (nth 0 search 0 <> 42 <-> (forall r, search <> 42 :: r))).
  { intros N. destruct search as [|c r]; [congruence|]. cbn [nth]. split; [intros H s E; congruence|]. intros H ->. now apply (H r). }
  assert (L : search <> [] -> (last search 0 <> 42 <-> (forall r, search <> r ++ [42]))).
  { intros N. destruct (exists_last N) as (x & c & ->). rewrite last_last. split; [intros H s E; apply app_inj_tail in E as [_ E]; congruence|]. intros H ->. now apply (H x). }
  split; intros (N & H); (split; [exact N|]); specialize (F N); specialize (L N); tauto.
Qed.

(** False matches: "aa" against "a", "ab" against "ab*b"; and the empty pattern rejects the empty text. *)
Theorem wildcard_match_refuted :
  (wildcard_match [97; 97] [97] = Ok true /\ ~ wild [97] [97; 97]) /\
  (wildcard_match [97; 98] [97; 98; 42; 98] = Ok true /\ ~ wild [97; 98; 42; 98] [97; 98]) /\
  (wildcard_match [] [] = Ok false /\ wild [] []).
Proof.
  split; [|split].
  - split; [reflexivity|]. intros H. inversion H as [|? ? ? _ H'|]; subst. inversion H'.
  - split; [reflexivity|]. intros H. inversion H as [|? ? ? _ H'|]; subst. inversion H' as [|? ? ? _ H''|]; subst.
    inversion H'' as [| |p a s Hw E1 E2]; subst.
    match goal with E : _ ++ _ = [] |- _ => apply app_eq_nil in E; destruct E as [-> ->] end. inversion Hw.
  - split; [reflexivity|constructor].
Qed.

Example C25_case : wild [97; 42; 99] [97; 98; 99] /\ wildcard_match [97; 98; 99] [97; 42; 99] = Ok true /\
  wildcard_match [97; 98; 99] [97; 42; 120] = Ok false.
Proof.
  split; [|split; reflexivity]. apply wild_char; [lia|]. apply (wild_star [99] [98] [99]). apply wild_char; [lia|constructor].
Qed.

Print Assumptions split_pieces.
Print Assumptions pieces_exist_unique.
Print Assumptions split_count.
Print Assumptions split_at_most_count.
Print Assumptions split_rest_partial.
Print Assumptions split_rest_refuted.
Print Assumptions trim_exact.
Print Assumptions trim_idempotent.
Print Assumptions replace_all_removes.
Print Assumptions replace_all_terminates_partial.
Print Assumptions remove_all_total.
Print Assumptions replace_all_char_exact.
Print Assumptions replace_all_refuted.
Print Assumptions wildcard_match_complete.
Print Assumptions wildcard_match_total.
Print Assumptions wildcard_match_exact_partial.
Print Assumptions wildcard_match_guarantee.
Print Assumptions wildcard_match_iff.
Print Assumptions wildcard_match_refuted.
