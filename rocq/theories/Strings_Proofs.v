(** Proofs about the string model. *)
From Verif Require Import Common Bits Lexer_Model Lexer_Spec Strings_Model Strings_Spec.

(** * find_if *)
Lemma find_if_none p s : find_if p s = None <-> Forall (fun c => p c = false) s.
Proof.
  induction s as [|c s IH]; cbn [find_if]; [split; auto|]. destruct (p c) eqn:E.
  - split; [discriminate|]. intros H. inversion H; congruence.
  - destruct (find_if p s); cbn [option_map]; split; try discriminate; intros H.
    + inversion H as [|? ? ? H']. apply IH in H'. discriminate.
    + constructor; [assumption|]. now apply IH.
    + reflexivity.
Qed.
Lemma find_if_some p s i : find_if p s = Some i <->
  exists c r, s = firstn i s ++ c :: r /\ r = skipn (S i) s /\ p c = true /\ Forall (fun c => p c = false) (firstn i s) /\ (i < length s)%nat.
Proof.
  revert i; induction s as [|c s IH]; intros i; cbn [find_if].
  - split; [discriminate|]. intros (? & ? & _ & _ & _ & _ & H). cbn in H. lia.
  - destruct (p c) eqn:E.
    + split.
      * intros H. injection H as <-. exists c, s. cbn. repeat split; auto. lia.
      * intros (c' & r & H1 & H2 & H3 & H4 & H5). destruct i as [|i]; [reflexivity|]. cbn [firstn] in H4. inversion H4; congruence.
    + destruct (find_if p s) as [j|] eqn:EF; cbn [option_map].
      * split.
        -- intros H. injection H as <-. destruct (proj1 (IH j) eq_refl) as (c' & r & H1 & H2 & H3 & H4 & H5).
           exists c', r. cbn [firstn skipn app length]. rewrite <- H1. repeat split; auto. lia.
        -- intros (c' & r & H1 & H2 & H3 & H4 & H5). destruct i as [|i].
           ++ cbn in H1. injection H1 as -> _. congruence.
           ++ f_equal. f_equal. cbn [firstn skipn app length] in *. injection H1 as H1.
              assert (HS : Some j = Some i). { apply IH. exists c', r. inversion H4; subst. repeat split; auto. lia. }
              congruence.
      * split; [discriminate|]. intros (c' & r & H1 & H2 & H3 & H4 & H5). destruct i as [|i].
        -- cbn in H1. injection H1 as -> _. congruence.
        -- cbn [firstn skipn app length] in *. injection H1 as H1.
           assert (HS : None = Some i). { apply IH. exists c', r. inversion H4; subst. repeat split; auto. lia. } discriminate.
Qed.

(** * split *)
Fixpoint pieces (d : Z) (s : list Z) : list (list Z) :=
  match s with
  | [] => [[]]
  | c :: r => if c =? d then [] :: pieces d r
              else match pieces d r with p :: ps => (c :: p) :: ps | [] => [[c]] end
  end.
Lemma pieces_nonempty d s : pieces d s <> [].
Proof. destruct s as [|c s]; cbn [pieces]; [discriminate|]. destruct (c =? d); [discriminate|]. destruct (pieces d s); discriminate. Qed.
Lemma pieces_ok d s : pieces_of d s (pieces d s).
Proof.
  unfold pieces_of. induction s as [|c s (IH1 & IH2 & IH3)]; cbn [pieces].
  - repeat split; [discriminate|]. constructor; [now intros []|constructor].
  - destruct (Z.eqb_spec c d) as [->|Hne].
    + split; [discriminate|]. split; [constructor; [now intros []|assumption]|]. rewrite IH3 at 1.
      cbn [join]. destruct (pieces d s); [congruence|reflexivity].
    + destruct (pieces d s) as [|p ps]; [congruence|]. inversion IH2; subst. split; [discriminate|].
      split; [constructor; [intros [|]; auto|assumption]|]. destruct ps; reflexivity.
Qed.
Lemma pieces_none d s : find_if (fun c => c =? d) s = None -> pieces d s = [s].
Proof.
  induction s as [|c s IH]; cbn [find_if pieces]; [reflexivity|]. destruct (c =? d); [discriminate|].
  destruct (find_if (fun c0 => c0 =? d) s) as [?|]; [discriminate|]. intros _. now rewrite IH.
Qed.
Lemma pieces_some d s i : find_if (fun c => c =? d) s = Some i -> pieces d s = firstn i s :: pieces d (skipn (S i) s).
Proof.
  revert i; induction s as [|c s IH]; intros i; cbn [find_if pieces]; [discriminate|].
  destruct (c =? d) eqn:E.
  - intros H. injection H as <-. reflexivity.
  - destruct (find_if (fun c0 => c0 =? d) s) as [j|] eqn:EF; [|discriminate]. cbn [option_map]. intros H. injection H as <-.
    rewrite (IH j eq_refl). reflexivity.
Qed.
Lemma pieces_join d : forall ps, ps <> [] -> Forall (fun p => ~ In d p) ps -> pieces d (join d ps) = ps.
Proof.
  assert (P1 : forall p, ~ In d p -> pieces d p = [p]).
  { intros p Hp. apply pieces_none. apply find_if_none. rewrite Forall_forall. intros c Hc. apply Z.eqb_neq. intros ->. auto. }
  assert (P2 : forall p s, ~ In d p -> pieces d (p ++ d :: s) = p :: pieces d s).
  { intros p s Hp. rewrite (pieces_some d _ (length p)).
    - rewrite firstn_app, firstn_all, Nat.sub_diag, firstn_O, app_nil_r. f_equal. f_equal.
      rewrite skipn_app, skipn_all2 by lia. replace (S (length p) - length p)%nat with 1%nat by lia. reflexivity.
    - apply find_if_some. exists d, s. rewrite firstn_app, firstn_all, Nat.sub_diag, firstn_O, app_nil_r.
      split; [reflexivity|]. split; [|split; [apply Z.eqb_refl|split]].
      + rewrite skipn_app, skipn_all2 by lia. replace (S (length p) - length p)%nat with 1%nat by lia. reflexivity.
      + rewrite Forall_forall. intros c Hc. apply Z.eqb_neq. intros ->. auto.
      + rewrite app_length. cbn [length]. lia. }
  induction ps as [|p ps IH]; intros Hne HF; [congruence|]. inversion HF as [|? ? Hp HF']; subst.
  destruct ps as [|q ps]; [now apply P1|]. change (join d (p :: q :: ps)) with (p ++ d :: join d (q :: ps)).
  rewrite P2 by assumption. rewrite IH by (assumption || discriminate). reflexivity.
Qed.
Lemma pieces_of_unique d s a b : pieces_of d s a -> pieces_of d s b -> a = b.
Proof. intros (A1 & A2 & A3) (B1 & B2 & B3). rewrite <- (pieces_join d a), <- (pieces_join d b) by assumption. congruence. Qed.

Lemma split_loop_pieces input d count : forall fuel start elements, (start <= length input)%nat ->
  (length input - start < fuel)%nat ->
  split_loop fuel input d count start (find_char input d start) elements =
  Ok (fold_left (push_item count d) (pieces d (skipn start input)) elements).
Proof.
  induction fuel as [|fuel IH]; intros start elements Hs Hf; [lia|].
  unfold find_char. destruct (find_if (fun c => c =? d) (skipn start input)) as [i|] eqn:E; cbn [option_map split_loop]; unfold substr;
    (destruct (Nat.leb_spec start (length input)); [|lia]); cbn [bind].
  - pose proof E as E2. apply find_if_some in E2. destruct E2 as (c & r & H1 & H2 & H3 & H4 & H5). rewrite skipn_length in H5.
    rewrite (pieces_some d _ i E). replace (start + i - start)%nat with i by lia.
    rewrite IH by lia. cbn [fold_left]. rewrite skipn_add. do 2 f_equal. f_equal. f_equal. lia.
  - rewrite (pieces_none d _ E). reflexivity.
Qed.

Lemma split_fold input d count : split input d count = Ok (fold_left (push_item count d) (pieces d input) []).
Proof. unfold split. rewrite split_loop_pieces by lia. reflexivity. Qed.

Lemma push_item_empty count d el : push_item count d el [] = el.
Proof. reflexivity. Qed.
Lemma fold_push_filter count d ps : forall el, fold_left (push_item count d) ps el = fold_left (push_item count d) (filter nonempty ps) el.
Proof.
  induction ps as [|p ps IH]; intros el; [reflexivity|]. cbn [fold_left filter]. destruct p; cbn [nonempty]; rewrite IH; reflexivity.
Qed.
Lemma fold_push_0 d ps : forall el, Forall (fun p => nonempty p = true) ps -> fold_left (push_item 0 d) ps el = el ++ ps.
Proof.
  induction ps as [|p ps IH]; intros el HF; [now rewrite app_nil_r|]. inversion HF; subst. cbn [fold_left].
  rewrite IH by assumption. destruct p; [discriminate|]. unfold push_item. cbn [Nat.ltb Nat.leb andb]. now rewrite <- app_assoc.
Qed.
Lemma fold_push_more count d ps : forall el, Forall (fun p => nonempty p = true) ps ->
  (0 < count)%nat -> (length el + length ps <= count)%nat -> fold_left (push_item count d) ps el = el ++ ps.
Proof.
  induction ps as [|p ps IH]; intros el HF Hc Hl; [now rewrite app_nil_r|]. inversion HF; subst. cbn [fold_left length] in *.
  destruct p as [|c p]; [discriminate|]. unfold push_item at 2.
  destruct (Nat.eqb_spec (length el) count); [lia|]. rewrite andb_false_r.
  rewrite IH by (auto; rewrite ?app_length; cbn [length]; lia). now rewrite <- app_assoc.
Qed.
Lemma fold_push_full count d ps : forall el, Forall (fun p => nonempty p = true) ps ->
  (0 < count)%nat -> length el = count ->
  fold_left (push_item count d) ps el = removelast el ++ [join d (last el [] :: ps)].
Proof.
  induction ps as [|p ps IH]; intros el HF Hc Hl.
  - cbn [fold_left join]. apply app_removelast_last. intros ->. cbn in Hl. lia.
  - inversion HF; subst. cbn [fold_left]. destruct p as [|c p]; [discriminate|]. unfold push_item at 2.
    rewrite Nat.eqb_refl. destruct (Nat.ltb_spec 0 (length el)); [|lia]. cbn [andb].
    rewrite IH; auto.
    + rewrite removelast_last, last_last. f_equal. f_equal. cbn [join]. destruct ps; [reflexivity|]. now rewrite <- app_assoc.
    + rewrite app_length. cbn [length]. destruct el as [|x el] using rev_ind; [cbn in *; lia|]. rewrite removelast_last, app_length. cbn [length]. lia.
Qed.

Lemma filter_nonempty ps : Forall (fun p => nonempty p = true) (filter nonempty ps).
Proof. apply Forall_forall. intros p H. now apply filter_In in H. Qed.

(** * trim *)
Lemma firstn_rev {A} n (l : list A) : firstn n (rev l) = rev (skipn (length l - n) l).
Proof.
  destruct (Nat.leb_spec n (length l)).
  - rewrite <- (rev_involutive (firstn n (rev l))). f_equal.
    pose proof (firstn_skipn (length l - n) l) as E. apply (f_equal (@rev A)) in E. rewrite rev_app_distr in E.
    rewrite <- E at 1. rewrite firstn_app, rev_length, skipn_length. replace (n - (length l - (length l - n)))%nat with 0%nat by lia.
    rewrite firstn_O, app_nil_r, firstn_all2 by (rewrite rev_length, skipn_length; lia). apply rev_involutive.
  - rewrite firstn_all2 by (rewrite rev_length; lia). replace (length l - n)%nat with 0%nat by lia. reflexivity.
Qed.

Definition space_ends (r : list Z) : Prop :=
  match r with [] => True | c :: _ => is_space c = false /\ is_space (last r 0) = false end.

Lemma rev_last (l : list Z) c r : rev l = c :: r -> last l 0 = c.
Proof. intros H. apply (f_equal (@rev Z)) in H. rewrite rev_involutive in H. subst. cbn [rev]. apply last_last. Qed.

Lemma trim_spec s : exists a b, s = a ++ trim s ++ b /\ Forall (fun c => is_space c = true) a /\ Forall (fun c => is_space c = true) b /\ space_ends (trim s).
Proof.
  unfold trim. cbv zeta. set (p := fun ch => negb (is_space ch)).
  assert (HP : forall l, Forall (fun c => p c = false) l -> Forall (fun c => is_space c = true) l).
  { intros l H. eapply Forall_impl; [|exact H]. unfold p. intros c Hc. now apply negb_false_iff. }
  destruct (find_if p s) as [i|] eqn:E1.
  - apply find_if_some in E1. destruct E1 as (c & r & H1 & H2 & H3 & H4 & H5).
    assert (ET : skipn i s = c :: r).
    { rewrite H1 at 1. rewrite skipn_app, skipn_all2, firstn_length by (rewrite firstn_length; lia). rewrite Nat.min_l by lia. now rewrite Nat.sub_diag. }
    rewrite ET. set (t := c :: r) in *.
    destruct (find_if p (rev t)) as [j|] eqn:E2.
    + apply find_if_some in E2. destruct E2 as (c' & r' & G1 & G2 & G3 & G4 & G5). rewrite rev_length in G5.
      exists (firstn i s), (skipn (length t - j) t). split; [|split; [|split]].
      * rewrite firstn_skipn. exact H1.
      * now apply HP.
      * rewrite firstn_rev in G4. apply HP in G4. apply Forall_rev in G4. now rewrite rev_involutive in G4.
      * assert (EL : last (firstn (length t - j) t) 0 = c').
        { apply rev_last with r'. rewrite G2. rewrite <- (rev_involutive (skipn (S j) (rev t))).
          assert (EQ : rev t = rev (skipn (length t - j) t) ++ rev (firstn (length t - j) t)) by (now rewrite <- rev_app_distr, firstn_skipn).
          rewrite firstn_rev in G1.
          rewrite EQ in G1 at 1. apply app_inv_head in G1. rewrite G1, G2. now rewrite rev_involutive. }
        destruct (length t - j)%nat as [|m] eqn:EM; [exact I|]. unfold t at 1. cbn [firstn space_ends].
        change (c :: firstn m r) with (firstn (S m) t). rewrite EL. unfold p in *. split; now apply negb_true_iff.
    + exfalso. apply find_if_none in E2. rewrite Forall_forall in E2. specialize (E2 c). rewrite <- in_rev in E2.
      specialize (E2 ltac:(now left)). congruence.
  - cbn [rev find_if]. exists s, []. rewrite !app_nil_r. split; [reflexivity|]. split; [apply HP; now apply find_if_none|].
    split; [constructor|exact I].
Qed.

Lemma trim_unique s r a b : s = a ++ r ++ b -> Forall (fun c => is_space c = true) a -> Forall (fun c => is_space c = true) b ->
  space_ends r -> (r = [] -> True) -> trim s = r.
Proof.
  intros -> Ha Hb Hr _. unfold trim. cbv zeta. set (p := fun ch => negb (is_space ch)).
  assert (HPF : forall l, Forall (fun c => is_space c = true) l -> Forall (fun c => p c = false) l).
  { intros l H. eapply Forall_impl; [|exact H]. unfold p. intros c Hc. now rewrite Hc. }
  destruct r as [|c r].
  - cbn [app]. replace (find_if p (a ++ b)) with (@None nat); [reflexivity|]. symmetry. apply find_if_none. apply Forall_app; auto.
  - destruct Hr as [Hc Hl].
    assert (E1 : find_if p (a ++ (c :: r) ++ b) = Some (length a)).
    { apply find_if_some. exists c, (r ++ b). rewrite firstn_app, firstn_all, Nat.sub_diag, firstn_O, app_nil_r.
      split; [reflexivity|]. split; [|split; [unfold p; now rewrite Hc|split; [now apply HPF|rewrite !app_length; cbn [length]; lia]]].
      rewrite skipn_app, skipn_all2 by lia. replace (S (length a) - length a)%nat with 1%nat by lia. reflexivity. }
    rewrite E1. rewrite skipn_app, skipn_all2, Nat.sub_diag by lia. cbn [app skipn]. change (c :: r ++ b) with ((c :: r) ++ b).
    set (t := c :: r) in *. rewrite rev_app_distr.
    assert (HR : rev t = last t 0 :: tl (rev t)).
    { destruct (rev t) as [|x y] eqn:ER; [apply (f_equal (@length Z)) in ER; rewrite rev_length in ER; discriminate|]. now rewrite (rev_last t x y ER). }
    assert (E2 : find_if p (rev b ++ rev t) = Some (length b)).
    { apply find_if_some. exists (last t 0), (tl (rev t)). rewrite <- (rev_length b). rewrite firstn_app, firstn_all, Nat.sub_diag, firstn_O, app_nil_r.
      split; [now rewrite <- HR|]. split; [|split; [unfold p; now rewrite Hl|split; [apply HPF, Forall_rev; assumption|rewrite HR, app_length; cbn [length]; lia]]].
      rewrite skipn_app, skipn_all2 by lia. replace (S (length (rev b)) - length (rev b))%nat with 1%nat by lia. rewrite HR. reflexivity. }
    rewrite E2. rewrite app_length. replace (length t + length b - length b)%nat with (length t) by lia.
    rewrite firstn_app, firstn_all, Nat.sub_diag, firstn_O, app_nil_r. reflexivity.
Qed.

(** * Searching *)
Lemma starts_with_iff s p : starts_with s p = true <-> exists r, s = p ++ r.
Proof.
  revert s; induction p as [|x p IH]; intros s; cbn [starts_with]; [split; [intros _; now exists s|reflexivity]|].
  destruct s as [|c s]; [split; [intros H; discriminate H|intros (r & H); discriminate H]|].
  rewrite andb_true_iff, Z.eqb_eq, IH. split.
  - intros (-> & r & ->). now exists r.
  - intros (r & H). cbn [app] in H. injection H as -> ->. split; [reflexivity|now exists r].
Qed.
Lemma ends_with_iff s p : ends_with s p = true <-> exists r, s = r ++ p.
Proof.
  unfold ends_with. rewrite starts_with_iff. split; intros (r & H).
  - exists (rev r). apply (f_equal (@rev Z)) in H. now rewrite rev_involutive, rev_app_distr, rev_involutive in H.
  - exists (rev r). subst. now rewrite rev_app_distr.
Qed.
Lemma find_here_none s str : find_here s str = None <-> ~ occurs str s.
Proof.
  split.
  - intros H (a & b & E). subst s. revert H. induction a as [|x a IH].
    + cbn [app]. destruct (str ++ b) eqn:E; cbn [find_here]; rewrite <- E; rewrite (proj2 (starts_with_iff (str ++ b) str)) by eauto; discriminate.
    + cbn [app find_here]. destruct (starts_with (x :: a ++ str ++ b) str); [discriminate|]. destruct (find_here (a ++ str ++ b) str); [discriminate|auto].
  - induction s as [|x s IH]; intros H; cbn [find_here].
    + destruct (starts_with [] str) eqn:E; [|reflexivity]. apply starts_with_iff in E. destruct E as (r & E). exfalso. apply H. now exists [], r.
    + destruct (starts_with (x :: s) str) eqn:E.
      * apply starts_with_iff in E. destruct E as (r & E). exfalso. apply H. now exists [], r.
      * rewrite IH; [reflexivity|]. intros (a & b & Eab). apply H. exists (x :: a), b. now rewrite Eab.
Qed.
Lemma find_here_some s str i : find_here s str = Some i ->
  s = firstn i s ++ str ++ skipn (i + length str) s /\ (i + length str <= length s)%nat /\
  forall j, (j < i)%nat -> starts_with (skipn j s) str = false.
Proof.
  revert i; induction s as [|x s IH]; intros i; cbn [find_here].
  - destruct (starts_with [] str) eqn:E; [|discriminate]. intros H. injection H as <-. apply starts_with_iff in E. destruct E as (r & E).
    destruct str; [|discriminate]. repeat split; auto. intros; lia.
  - destruct (starts_with (x :: s) str) eqn:E.
    + intros H. injection H as <-. apply starts_with_iff in E. destruct E as (r & E). rewrite E. cbn [firstn plus app].
      split; [|split; [rewrite app_length; lia|intros; lia]].
      rewrite skipn_app, skipn_all, Nat.sub_diag. reflexivity.
    + destruct (find_here s str) as [k|] eqn:EF; cbn [option_map]; [|discriminate]. intros H. injection H as <-.
      destruct (IH k eq_refl) as (H1 & H2 & H3). cbn [firstn plus skipn app length]. split; [now rewrite <- H1|]. split; [lia|].
      intros [|j] Hj; [exact E|]. apply H3. lia.
Qed.
Lemma find_str_0 s str : find_str s str 0 = find_here s str.
Proof. unfold find_str. cbn [Nat.leb skipn]. destruct (find_here s str); reflexivity. Qed.

(** * replace_all *)
Lemma replace_all_unfold fuel target search replace : replace_all fuel target search replace =
  match search, find_here target search with
  | [], _ => Some target
  | _, None => Some target
  | _, Some index =>
      match fuel with
      | O => None
      | S f => replace_all f (firstn index target ++ replace ++ skipn (index + length search) target) search replace
      end
  end.
Proof. destruct fuel, search; cbn [replace_all]; rewrite ?find_str_0; reflexivity. Qed.

Lemma replace_all_result fuel : forall target search replace out, search <> [] ->
  replace_all fuel target search replace = Some out -> ~ occurs search out.
Proof.
  induction fuel as [|fuel IH]; intros target search replace out Hs H; rewrite replace_all_unfold in H;
    destruct search as [|x search]; try congruence; destruct (find_here target (x :: search)) as [i|] eqn:E;
    try discriminate; try (injection H as <-; now apply find_here_none).
  eapply IH; [exact Hs|exact H].
Qed.

(** Any measure that every replacement decreases bounds the number of iterations. *)
Lemma replace_all_measure (m : list Z -> nat) search replace : search <> [] ->
  (forall a b, m (a ++ replace ++ b) < m (a ++ search ++ b))%nat ->
  forall fuel target, (m target < fuel)%nat -> exists out, replace_all fuel target search replace = Some out.
Proof.
  intros Hs Hm. induction fuel as [|fuel IH]; intros target Hf; [lia|].
  rewrite replace_all_unfold. destruct search as [|x search]; [congruence|].
  destruct (find_here target (x :: search)) as [i|] eqn:E; [|eauto].
  apply find_here_some in E. destruct E as (E & _). apply IH.
  specialize (Hm (firstn i target) (skipn (i + length (x :: search)) target)). rewrite <- E in Hm. lia.
Qed.

Lemma replace_all_mono fuel : forall k target search replace out,
  replace_all fuel target search replace = Some out -> replace_all (fuel + k) target search replace = Some out.
Proof.
  induction fuel as [|fuel IH]; intros k target search replace out H; rewrite replace_all_unfold in *;
    destruct search as [|x search]; auto; destruct (find_here target (x :: search)) as [i|]; auto; try discriminate.
  cbn [plus]. now apply IH.
Qed.

Lemma replace_all_diverges search replace : search <> [] -> occurs search replace ->
  forall fuel target, occurs search target -> replace_all fuel target search replace = None.
Proof.
  intros Hs (u & v & HR). induction fuel as [|fuel IH]; intros target HT; rewrite replace_all_unfold;
    destruct search as [|x search]; try congruence; destruct (find_here target (x :: search)) as [i|] eqn:E; auto;
    try (apply find_here_none in E; contradiction).
  apply IH. exists (firstn i target ++ u), (v ++ skipn (i + length (x :: search)) target). rewrite HR. now rewrite <- !app_assoc.
Qed.

Lemma count_app c a b : count_occ Z.eq_dec (a ++ b) c = (count_occ Z.eq_dec a c + count_occ Z.eq_dec b c)%nat.
Proof. induction a as [|x a IH]; [reflexivity|]. cbn [app count_occ]. destruct (Z.eq_dec x c); lia. Qed.

(** * wildcard_match *)
Lemma split_unlimited input d : split input d 0 = Ok (filter nonempty (pieces d input)).
Proof. rewrite split_fold, fold_push_filter, fold_push_0 by apply filter_nonempty. reflexivity. Qed.

Lemma chain_weaken s i segs : chain s i segs -> forall j, (j <= i)%nat -> chain s j segs.
Proof. intros H j Hj. destruct H as [|idx i seg r H1 H2 H3]; [constructor|]. econstructor; [|eassumption..]. lia. Qed.
Lemma chain_shift a s i segs : chain s i segs -> chain (a ++ s) (length a + i) segs.
Proof.
  induction 1 as [|idx i seg r H1 (u & v & -> & H2) H3 IH]; [constructor|].
  apply chain_cons with (length a + i)%nat; [lia| |assumption]. exists (a ++ u), v. rewrite app_length, <- app_assoc. split; [reflexivity|lia].
Qed.
Lemma chain_filter s i segs : chain s i segs -> chain s i (filter nonempty segs).
Proof.
  induction 1 as [|idx i seg r H1 H2 H3 IH]; [constructor|]. cbn [filter]. destruct (nonempty seg).
  - econstructor; eassumption.
  - eapply chain_weaken; eassumption.
Qed.

Lemma at_pos_starts s seg i : at_pos s seg i <-> (i <= length s)%nat /\ starts_with (skipn i s) seg = true.
Proof.
  rewrite starts_with_iff. split.
  - intros (a & r & -> & <-). split; [rewrite app_length; lia|]. exists r. rewrite skipn_app, skipn_all, Nat.sub_diag. reflexivity.
  - intros (Hi & r & E). exists (firstn i s), r. split; [rewrite <- E; now rewrite firstn_skipn|]. rewrite firstn_length. lia.
Qed.
Lemma find_str_least s seg idx i : at_pos s seg i -> (idx <= i)%nat ->
  exists j, find_str s seg idx = Some j /\ (idx <= j <= i)%nat /\ at_pos s seg j.
Proof.
  intros H Hi. apply at_pos_starts in H. destruct H as [Hl H]. unfold find_str.
  destruct (Nat.leb_spec idx (length s)); [|lia].
  destruct (find_here (skipn idx s) seg) as [k|] eqn:E; cbn [option_map].
  - exists (idx + k)%nat. apply find_here_some in E. destruct E as (E1 & E2 & E3). split; [reflexivity|].
    rewrite skipn_length in E2. split; [split; [lia|]|].
    + destruct (Nat.leb_spec k (i - idx)); [lia|]. specialize (E3 (i - idx)%nat ltac:(lia)). rewrite skipn_add in E3.
      replace (idx + (i - idx))%nat with i in E3 by lia. congruence.
    + exists (firstn idx s ++ firstn k (skipn idx s)), (skipn (k + length seg) (skipn idx s)).
      split; [rewrite <- app_assoc, <- E1; now rewrite firstn_skipn|]. rewrite app_length, !firstn_length, skipn_length. lia.
  - apply find_here_none in E. exfalso. apply E. apply starts_with_iff in H. destruct H as (r & H).
    exists (firstn (i - idx) (skipn idx s)), r. rewrite <- H. replace i with (idx + (i - idx))%nat at 2 by lia. rewrite <- skipn_add. now rewrite firstn_skipn.
Qed.
Lemma find_str_at s seg idx j : find_str s seg idx = Some j -> (idx <= j)%nat /\ at_pos s seg j.
Proof.
  unfold find_str. destruct (Nat.leb_spec idx (length s)); [|discriminate].
  destruct (find_here (skipn idx s) seg) as [k|] eqn:E; cbn [option_map]; [|discriminate]. intros H1. injection H1 as <-.
  apply find_here_some in E. destruct E as (E1 & E2 & _). split; [lia|]. rewrite skipn_length in E2.
  exists (firstn idx s ++ firstn k (skipn idx s)), (skipn (k + length seg) (skipn idx s)).
  split; [rewrite <- app_assoc, <- E1; now rewrite firstn_skipn|]. rewrite app_length, !firstn_length, skipn_length. lia.
Qed.
Lemma match_segments_chain s segs : forall idx, match_segments s segs idx = true <-> chain s idx segs.
Proof.
  induction segs as [|seg segs IH]; intros idx; cbn [match_segments]; [split; [constructor|reflexivity]|]. split.
  - destruct (find_str s seg idx) as [j|] eqn:E; [|discriminate]. intros H. apply find_str_at in E. destruct E.
    apply chain_cons with j; auto. now apply IH.
  - intros H. inversion H as [|? i ? ? H1 H2 H3]; subst. destruct (find_str_least s seg idx i H2 H1) as (j & -> & Hj & _).
    apply IH. eapply chain_weaken; [eassumption|lia].
Qed.

(** Exactly what wildcard_match computes. *)
Definition segments_of (search : list Z) : list (list Z) := filter nonempty (pieces 42 search).
Lemma wildcard_char source search : wildcard_match source search = Ok true <->
  search <> [] /\ (segments_of search = [] \/
    (nth 0 search 0 <> 42 -> exists r, source = nth 0 (segments_of search) [] ++ r) /\
    (last search 0 <> 42 -> exists r, source = r ++ last (segments_of search) []) /\
    chain source 0 (segments_of search)).
Proof.
  unfold wildcard_match. unfold s_wildcard. rewrite split_unlimited. cbn [bind]. fold (segments_of search).
  destruct search as [|f search]; [split; [discriminate|tauto]|]. destruct (segments_of (f :: search)) as [|seg0 segs] eqn:ES.
  - split; [intros _; split; [discriminate|now left]|reflexivity].
  - cbn [nth]. rewrite <- match_segments_chain. split.
    + intros H. split; [discriminate|]. right. assert (OI : forall a b : bool, Ok a = Ok b -> a = b) by congruence. apply OI in H. rewrite !andb_true_iff in H. destruct H as [[H1 H2] H3].
      split; [|split; [|assumption]].
      * intros Hn. destruct (Z.eqb_spec f 42); [contradiction|]. now apply starts_with_iff.
      * intros Hn. destruct (Z.eqb_spec (last (f :: search) 0) 42); [contradiction|]. now apply ends_with_iff.
    + intros [_ [H|(H1 & H2 & H3)]]; [discriminate|]. f_equal. rewrite !andb_true_iff. split; [split|assumption].
      * destruct (Z.eqb_spec f 42); [reflexivity|]. apply starts_with_iff. auto.
      * destruct (Z.eqb_spec (last (f :: search) 0) 42); [reflexivity|]. apply ends_with_iff. auto.
Qed.

Lemma wild_pieces p s : wild p s -> exists q0 qs, pieces 42 p = q0 :: qs /\
  (qs = [] -> s = q0) /\ (exists r, s = q0 ++ r) /\ (exists r, s = r ++ last (q0 :: qs) []) /\ chain s 0 (q0 :: qs).
Proof.
  induction 1 as [|c p s Hc H (q0 & qs & E & H1 & (r1 & H2) & (r2 & H3) & H4)|p a s H (q0 & qs & E & H1 & (r1 & H2) & (r2 & H3) & H4)].
  - exists [], []. repeat split; try (now exists []). apply chain_cons with 0%nat; [lia|now exists [], []|constructor].
  - exists (c :: q0), qs. cbn [pieces]. destruct (Z.eqb_spec c 42); [contradiction|]. rewrite E. split; [reflexivity|].
    split; [intros Hq; now rewrite H1|]. split; [exists r1; now rewrite H2|]. split.
    + destruct qs as [|q qs]; [exists []; now rewrite H1|]. exists (c :: r2). cbn [last app] in *. now rewrite H3.
    + inversion H4 as [|? i ? ? G1 G2 G3]; subst. apply chain_cons with 0%nat; [lia|exists [], r1; now split|].
      apply (chain_shift [c]) in G3. eapply chain_weaken; [eassumption|lia].
  - exists [], (q0 :: qs). cbn [pieces]. change (42 =? 42) with true. cbv iota. rewrite E. split; [reflexivity|].
    split; [discriminate|]. split; [now exists (a ++ s)|]. split; [exists (a ++ r2); cbn [last] in *; rewrite H3 at 1; now rewrite <- app_assoc|].
    apply chain_cons with 0%nat; [lia|now exists [], (a ++ s)|]. apply (chain_shift a) in H4. eapply chain_weaken; [eassumption|lia].
Qed.

Lemma pieces_head p c : nth 0 p c <> 42 -> p <> [] -> exists q0 qs, pieces 42 p = q0 :: qs /\ nonempty q0 = true.
Proof.
  destruct p as [|x p]; [congruence|]. cbn [nth pieces]. intros H _. destruct (Z.eqb_spec x 42); [contradiction|].
  destruct (pieces 42 p) as [|q qs]; eauto.
Qed.
Lemma filter_head q0 qs : nonempty q0 = true -> nth 0 (filter nonempty (q0 :: qs)) [] = q0.
Proof. intros H. cbn [filter]. rewrite H. reflexivity. Qed.

Lemma join_app d ps qs : ps <> [] -> qs <> [] -> join d (ps ++ qs) = join d ps ++ d :: join d qs.
Proof.
  induction ps as [|p ps IH]; intros H1 H2; [congruence|]. destruct ps as [|p' ps].
  - cbn [app join]. destruct qs; [congruence|reflexivity].
  - change (join d ((p :: p' :: ps) ++ qs)) with (p ++ d :: join d ((p' :: ps) ++ qs)).
    rewrite IH by (congruence || discriminate). change (join d (p :: p' :: ps)) with (p ++ d :: join d (p' :: ps)).
    now rewrite <- app_assoc.
Qed.
Lemma pieces_last p : last p 0 <> 42 -> p <> [] -> nonempty (last (pieces 42 p) []) = true.
Proof.
  intros Hl Hp. destruct (pieces_ok 42 p) as (H1 & H2 & H3). destruct (pieces 42 p) as [|q qs] eqn:E using rev_ind; [congruence|].
  rewrite last_last. destruct q as [|c q]; [|reflexivity]. exfalso. destruct qs as [|q qs].
  - cbn in H3. congruence.
  - rewrite join_app in H3 by discriminate. cbn [join] in H3. apply Hl. rewrite H3. now rewrite last_last.
Qed.
Lemma filter_last ps : ps <> [] -> nonempty (last ps []) = true -> last (filter nonempty ps) [] = last ps [].
Proof.
  intros Hp H. destruct ps as [|q ps] using rev_ind; [congruence|]. rewrite last_last in *. rewrite filter_app.
  cbn [filter]. rewrite H. now rewrite last_last.
Qed.

Lemma wildcard_complete source search : search <> [] -> wild search source -> wildcard_match source search = Ok true.
Proof.
  intros Hs HW. apply wildcard_char. split; [assumption|]. right. unfold segments_of.
  destruct (wild_pieces search source HW) as (q0 & qs & E & H1 & H2 & H3 & H4). rewrite E in *. split; [|split].
  - intros Hn. destruct (pieces_head search 0 Hn Hs) as (q0' & qs' & E' & HN). rewrite E in E'. injection E' as <- <-.
    rewrite filter_head by assumption. exact H2.
  - intros Hn. rewrite filter_last; [exact H3|discriminate|]. rewrite <- E. now apply pieces_last.
  - now apply chain_filter.
Qed.

(** Patterns without any literal text. *)
Lemma pieces_stars n : pieces 42 (repeat 42 n) = repeat [] (S n).
Proof. induction n as [|n IH]; [reflexivity|]. cbn [repeat pieces]. change (42 =? 42) with true. cbv iota. now rewrite IH. Qed.
Lemma wild_stars n s : wild (repeat 42 (S n)) s.
Proof.
  revert s; induction n as [|n IH]; intros s.
  - cbn [repeat]. rewrite <- (app_nil_r s). constructor. constructor.
  - change (repeat 42 (S (S n))) with (42 :: repeat 42 (S n)). rewrite <- (app_nil_l s). constructor. apply IH.
Qed.
Lemma wild_lit seg p s : ~ In 42 seg -> wild p s -> wild (seg ++ p) (seg ++ s).
Proof.
  induction seg as [|c seg IH]; intros H HW; [assumption|]. cbn [app]. constructor; [intros ->; apply H; now left|].
  apply IH; [|assumption]. intros Hi. apply H. now right.
Qed.
Lemma pieces_single m seg n : ~ In 42 seg -> seg <> [] ->
  segments_of (repeat 42 m ++ seg ++ repeat 42 n) = [seg].
Proof.
  intros H Hne. unfold segments_of.
  assert (E : pieces 42 (repeat 42 m ++ seg ++ repeat 42 n) = repeat [] m ++ seg :: repeat [] n).
  { induction m as [|m IH].
    - cbn [repeat app]. destruct n as [|n].
      + cbn [repeat]. rewrite app_nil_r. apply pieces_none, find_if_none. rewrite Forall_forall. intros c Hc. apply Z.eqb_neq. intros ->. auto.
      + pose proof (pieces_join 42 (seg :: repeat [] (S n))) as P. cbn [repeat] in *.
        change (join 42 (seg :: [] :: repeat [] n)) with (seg ++ 42 :: join 42 ([] :: repeat [] n)) in P.
        assert (EJ : forall k, join 42 ([] :: repeat [] k) = repeat 42 k).
        { clear. induction k as [|k IH]; [reflexivity|]. cbn [repeat]. change (join 42 ([] :: [] :: repeat [] k)) with (42 :: join 42 ([] :: repeat [] k)). now rewrite IH. }
        rewrite EJ in P. apply P; [discriminate|]. constructor; [assumption|]. constructor; [now intros []|].
        clear. induction n; cbn [repeat]; constructor; auto.
    - cbn [repeat app pieces]. change (42 =? 42) with true. cbv iota. now rewrite IH. }
  rewrite E, filter_app. cbn [filter].
  assert (F : forall k, filter nonempty (repeat [] k) = []) by (clear; induction k; cbn; auto).
  rewrite !F. destruct seg; [congruence|reflexivity].
Qed.
Lemma last_stars (x : list Z) n : last (x ++ repeat 42 (S n)) 0 = 42.
Proof.
  assert (E : repeat 42 (S n) = repeat 42 n ++ [42]) by (clear; induction n; cbn [repeat app] in *; congruence).
  rewrite E, app_assoc. apply last_last.
Qed.
Lemma nth_last_lit m seg : ~ In 42 seg -> seg <> [] -> last (repeat 42 m ++ seg) 0 <> 42.
Proof.
  intros H Hne. destruct seg as [|c seg] using rev_ind; [congruence|]. rewrite app_assoc, last_last. intros ->. apply H, in_or_app. right. now left.
Qed.

Lemma wildcard_single m seg n source : ~ In 42 seg -> seg <> [] -> (0 < m + n)%nat ->
  wildcard_match source (repeat 42 m ++ seg ++ repeat 42 n) = Ok true <-> wild (repeat 42 m ++ seg ++ repeat 42 n) source.
Proof.
  intros H Hne Hmn. split; [|apply wildcard_complete; destruct m, seg; cbn; congruence].
  intros HM. apply wildcard_char in HM. destruct HM as [_ HM]. rewrite pieces_single in HM by assumption.
  destruct HM as [|(H1 & H2 & H3)]; [discriminate|]. cbn [nth last] in *.
  inversion H3 as [|? i ? ? _ (a & r & -> & _) _]; subst. clear H3.
  destruct m as [|m], n as [|n].
  - lia.
  - assert (HF : nth 0 (repeat 42 0 ++ seg ++ repeat 42 (S n)) 0 <> 42).
    { destruct seg as [|c seg]; [congruence|]. cbn. intros ->. apply H. now left. }
    destruct (H1 HF) as (r' & E). rewrite E. change (repeat 42 0) with (@nil Z). cbn [app]. apply wild_lit; [assumption|]. apply wild_stars.
  - assert (HL : last (repeat 42 (S m) ++ seg ++ repeat 42 0) 0 <> 42).
    { cbn [repeat]. rewrite app_nil_r. apply (nth_last_lit (S m)); assumption. }
    destruct (H2 HL) as (r' & E). rewrite E. cbn [repeat]. rewrite app_nil_r.
    assert (W : forall k b, wild seg b -> wild (repeat 42 k ++ seg) b).
    { induction k as [|k IH]; intros b Hb; [assumption|]. cbn [repeat app]. rewrite <- (app_nil_l b). constructor. auto. }
    change (42 :: repeat 42 m ++ seg) with (42 :: (repeat 42 m ++ seg)). constructor. apply W.
    rewrite <- (app_nil_r seg). apply wild_lit; [assumption|constructor].
  - assert (W : forall k b, wild (seg ++ repeat 42 (S n)) b -> wild (repeat 42 k ++ seg ++ repeat 42 (S n)) b).
    { induction k as [|k IH]; intros b Hb; [assumption|]. cbn [repeat app]. rewrite <- (app_nil_l b). constructor. auto. }
    cbn [repeat app]. constructor. apply W. apply wild_lit; [assumption|]. apply wild_stars.
Qed.
