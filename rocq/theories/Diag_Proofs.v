(** Proofs for C66: positions and warnings of the parsers. *)
From Verif Require Import Common Bits Unicode_Model Strings_Model Json_Model Ini_Model Json_Parser_Proofs Diag_Model Diag_Spec.

Arguments get : simpl never.
Arguments log : simpl never.

Definition bytes (l : list Z) : Prop := Forall (fun c => 0 <= c < 256) l.
Lemma bytes_tl l : bytes l -> bytes (tl l).
Proof. intros H. destruct H; [constructor|assumption]. Qed.

Section generic.
  Context {M : Type}.
  Implicit Type s : stream M.

  Lemma get_symbol s : fst (get s) = peek s.
  Proof. reflexivity. Qed.
  Lemma get_rest s : s_rest (snd (get s)) = tl (s_rest s).
  Proof. unfold get. cbn [snd]. destruct (peek s =? 10); reflexivity. Qed.
  Lemma discard_rest s : s_rest (discard s) = tl (s_rest s).
  Proof. apply get_rest. Qed.
  Lemma get_log s : s_log (snd (get s)) = s_log s.
  Proof. unfold get. cbn [snd]. destruct (peek s =? 10); reflexivity. Qed.
  Lemma discard_log s : s_log (discard s) = s_log s.
  Proof. apply get_log. Qed.
  Lemma get_eq s : get s = (peek s, discard s).
  Proof. unfold discard. rewrite (surjective_pairing (get s)). reflexivity. Qed.
  Lemma log_rest m s : s_rest (log m s) = s_rest s.
  Proof. reflexivity. Qed.
  Lemma peek_cons s c r : s_rest s = c :: r -> peek s = c.
  Proof. intros H. unfold peek. now rewrite H. Qed.
  Lemma peek_nil s : s_rest s = [] -> peek s = s_eof.
  Proof. intros H. unfold peek. now rewrite H. Qed.
  Lemma at_end_iff s : bytes (s_rest s) -> (at_end s = true <-> s_rest s = []).
  Proof.
    intros H. unfold at_end. rewrite Z.eqb_eq. destruct (s_rest s) as [|c r] eqn:E.
    - rewrite peek_nil by assumption. tauto.
    - rewrite (peek_cons s c r E). inversion H; subst. unfold s_eof. split; [lia|discriminate].
  Qed.
End generic.

(** * Positions *)
Lemma newlines_app a b : newlines (a ++ b) = newlines a + newlines b.
Proof. unfold newlines. rewrite count_occ_app. lia. Qed.
Lemma newlines_nonneg a : 0 <= newlines a.
Proof. unfold newlines. lia. Qed.
Lemma since_snoc p c : since_newline (p ++ [c]) = if c =? 10 then 0 else since_newline p + 1.
Proof. unfold since_newline. now rewrite fold_left_app. Qed.

Lemma firstn_snoc (input : list Z) n c r : skipn n input = c :: r -> firstn (S n) input = firstn n input ++ [c].
Proof.
  revert input. induction n as [|n IH]; intros input H.
  - destruct input; [discriminate|]. injection H as -> ->. reflexivity.
  - destruct input as [|x input]; [discriminate|]. cbn [skipn] in H. cbn [firstn app]. f_equal. now apply IH.
Qed.
Lemma skipn_succ (input : list Z) n : skipn (S n) input = tl (skipn n input).
Proof. revert input. induction n as [|n IH]; intros input; [reflexivity|]. destruct input; [reflexivity|]. cbn [skipn]. apply IH. Qed.
Lemma skipn_cons_lt (input : list Z) n c r : skipn n input = c :: r -> (n < length input)%nat.
Proof. intros H. destruct (Nat.lt_ge_cases n (length input)); [assumption|]. rewrite skipn_all2 in H by assumption. discriminate. Qed.
Lemma skipn_nil_ge (input : list Z) n : skipn n input = [] -> (length input <= n)%nat.
Proof. intros H. apply (f_equal (@length Z)) in H. rewrite skipn_length in H. cbn in H. lia. Qed.

Section positions.
  Context {M : Type}.
  Implicit Type s : stream M.
  Variable input : list Z.

  Definition At (n : nat) s : Prop :=
    s_rest s = skipn n input /\ s_line s = u32 (counted_line input n) /\ s_column s = u32 (counted_column input n).

  Lemma at_start : At 0 (start_stream input).
  Proof. split; [reflexivity|]. split; [reflexivity|]. reflexivity. Qed.

  Lemma at_peek n s : At n s -> peek s = symbol_at input n.
  Proof.
    intros (E & _ & _). unfold peek, symbol_at. rewrite E. destruct (skipn n input) as [|c r] eqn:ES.
    - rewrite nth_overflow; [reflexivity|]. now apply skipn_nil_ge.
    - rewrite <- (firstn_skipn n input) at 1. rewrite app_nth2; rewrite firstn_length_le; try (apply skipn_cons_lt in ES; lia).
      rewrite Nat.sub_diag, ES. reflexivity.
  Qed.

  Lemma at_get n s : At n s -> At (S n) (discard s).
  Proof.
    intros HA. pose proof (at_peek n s HA) as HP. destruct HA as (E & EL & EC). unfold discard, get. cbn [snd].
    unfold At, counted_line, counted_column in *.
    destruct (skipn n input) as [|c r] eqn:ES.
    - pose proof (skipn_nil_ge _ _ ES) as HL. rewrite (peek_nil s E). change (s_eof =? 10) with false. cbv iota.
      cbn [s_rest s_line s_column]. split; [now rewrite skipn_succ, ES, E|].
      rewrite (@firstn_all2 _ n input) in EL, EC by lia. rewrite (@firstn_all2 _ (S n) input) by lia. split; [assumption|].
      rewrite EC. unfold u32, wrap. rewrite Zplus_mod_idemp_l. f_equal. lia.
    - pose proof (skipn_cons_lt _ _ _ _ ES) as HL. rewrite (peek_cons s c r E).
      rewrite (firstn_snoc _ _ _ _ ES), newlines_app, since_snoc.
      unfold newlines at 2 4. cbn [count_occ].
      destruct (Z.eqb_spec c 10) as [->|Hc].
      + cbn [s_rest s_line s_column]. split; [now rewrite skipn_succ, ES, E|].
        destruct (Z.eq_dec 10 10) as [_|N]; [|congruence].
        split; [rewrite EL; unfold u32, wrap; rewrite Zplus_mod_idemp_l; f_equal; lia|].
        replace (newlines (firstn n input) + Z.of_nat 1 =? 0) with false
          by (symmetry; apply Z.eqb_neq; pose proof (newlines_nonneg (firstn n input)); lia).
        replace (S n - length input)%nat with O by lia. reflexivity.
      + cbn [s_rest s_line s_column]. split; [now rewrite skipn_succ, ES, E|].
        destruct (Z.eq_dec c 10) as [N|_]; [congruence|]. change (Z.of_nat 0) with 0. rewrite !Z.add_0_r.
        split; [assumption|]. rewrite EC. unfold u32, wrap. rewrite Zplus_mod_idemp_l. f_equal.
        replace (S n - length input)%nat with O by lia. replace (n - length input)%nat with O by lia. lia.
  Qed.

  Lemma at_log n m s : At n s -> At n (log m s).
  Proof. intros H. exact H. Qed.
  Lemma at_bytes n s : bytes input -> At n s -> bytes (s_rest s).
  Proof.
    intros HB (E & _). rewrite E. unfold bytes in *. rewrite Forall_forall in *. intros x Hx. apply HB.
    rewrite <- (firstn_skipn n input). apply in_or_app. auto.
  Qed.
End positions.

(** * The results are those of Json_Model *)
Lemma whitespace_eof : is_whitespace s_eof = false.
Proof. reflexivity. Qed.

Lemma skip_erase : forall fuel s, (length (s_rest s) <= fuel)%nat ->
  s_rest (skip_whitespace fuel s) = consume_whitespace (s_rest s).
Proof.
  induction fuel as [|fuel IH]; intros s Hf.
  - destruct (s_rest s) eqn:E; [|cbn in Hf; lia]. exact E.
  - cbn [skip_whitespace]. destruct (s_rest s) as [|c r] eqn:E.
    + rewrite peek_nil, whitespace_eof by assumption. exact E.
    + rewrite (peek_cons s c r E). cbn [consume_whitespace]. destruct (is_whitespace c); [|exact E].
      rewrite IH; rewrite discard_rest, E; cbn [tl length] in *; [reflexivity|lia].
Qed.
Lemma whitespace_erase s : s_rest (j_consume_whitespace s) = consume_whitespace (s_rest s).
Proof. now apply skip_erase. Qed.

Lemma line_comment_erase : forall fuel s, bytes (s_rest s) -> (length (s_rest s) <= fuel)%nat ->
  s_rest (j_line_comment fuel s) = line_comment (s_rest s).
Proof.
  induction fuel as [|fuel IH]; intros s HB Hf; cbn [j_line_comment]; rewrite get_eq.
  - destruct (s_rest s) eqn:E; [|cbn in Hf; lia]. rewrite peek_nil by assumption. cbn. rewrite discard_rest, E. reflexivity.
  - destruct (s_rest s) as [|c r] eqn:E.
    + rewrite peek_nil by assumption. cbn. rewrite discard_rest, E. reflexivity.
    + rewrite (peek_cons s c r E). inversion HB as [|? ? Hc HB']; subst.
      replace (c =? s_eof) with false by (symmetry; apply Z.eqb_neq; unfold s_eof; lia). cbn [orb line_comment].
      destruct (c =? 10); [rewrite discard_rest, E; reflexivity|].
      cbn [length] in Hf. rewrite IH; rewrite discard_rest, E; cbn [tl]; auto. lia.
Qed.

Lemma block_comment_erase : forall fuel s, bytes (s_rest s) -> (length (s_rest s) <= fuel)%nat ->
  fst (j_block_comment fuel s) = fst (block_comment (s_rest s)) /\
  s_rest (snd (j_block_comment fuel s)) = snd (block_comment (s_rest s)).
Proof.
  induction fuel as [|fuel IH]; intros s HB Hf; cbn [j_block_comment]; rewrite get_eq.
  - destruct (s_rest s) eqn:E; [|cbn in Hf; lia]. rewrite peek_nil by assumption. cbn. rewrite discard_rest, E. split; reflexivity.
  - destruct (s_rest s) as [|c r] eqn:E.
    + rewrite peek_nil by assumption. cbn. rewrite discard_rest, E. split; reflexivity.
    + rewrite (peek_cons s c r E). inversion HB as [|? ? Hc HB']; subst. cbn [block_comment].
      assert (ER : s_rest (discard s) = r) by (rewrite discard_rest, E; reflexivity).
      assert (HE : (c =? s_eof) = false) by (apply Z.eqb_neq; unfold s_eof; lia).
      cbn [length] in Hf. destruct r as [|d r'].
      * rewrite (peek_nil (discard s)) by assumption. rewrite andb_false_r, HE.
        destruct (IH (discard s)) as [IH1 IH2]; [now rewrite ER|rewrite ER; apply Nat.le_0_l|].
        rewrite ER in IH1, IH2. cbn [block_comment fst snd] in *. auto.
      * rewrite (peek_cons (discard s) d r' ER). destruct ((c =? 42) && (d =? 47)) eqn:EC.
        -- cbn [fst snd]. rewrite discard_rest, ER. split; reflexivity.
        -- rewrite HE. rewrite <- ER. apply IH; rewrite ER; [assumption|lia].
Qed.

Definition erases (r : parse_state * jstream) (e : parse_state * list Z) : Prop := fst r = fst e /\ s_rest (snd r) = snd e.

Lemma comment_erase o s r : bytes (s_rest s) -> s_rest s = 47 :: r -> erases (j_consume_comment o s) (consume_comment o (s_rest s)).
Proof.
  intros HB E. unfold j_consume_comment, consume_comment. destruct (negb (allow_comments o)); [split; reflexivity|].
  rewrite get_eq. assert (E1 : s_rest (discard s) = r) by (rewrite discard_rest, E; reflexivity).
  rewrite E. cbn [tl]. rewrite E in HB. inversion HB as [|? ? _ HB']; subst.
  destruct (s_rest (discard s)) as [|c r] eqn:E2.
  - rewrite peek_nil by assumption. change (s_eof =? 47) with false. change (s_eof =? 42) with false. cbv iota.
    split; [reflexivity|]. cbn [snd]. rewrite log_rest, discard_rest, E2. reflexivity.
  - rewrite (peek_cons _ c r E2). inversion HB' as [|? ? _ HB'']; subst.
    assert (E3 : s_rest (discard (discard s)) = r) by (rewrite discard_rest, E2; reflexivity).
    destruct (c =? 47); [split; [reflexivity|]; cbn [snd]; rewrite line_comment_erase, E3; auto; now rewrite E3|].
    destruct (c =? 42); [|split; [reflexivity|]; cbn [snd]; rewrite log_rest; exact E3].
    unfold erases. rewrite <- E3. apply block_comment_erase; rewrite E3; auto.
Qed.


(** * What each function reads and logs *)
Section json.
  Variables (input : list Z) (fp : fp_text) (sg : bool) (o : features).
  Notation At := (At input).

  Definition Truth (w : warning message) : Prop := exists n, logged_at input n w /\ truthful fp sg input n (w_message w).
  Definition is_start (w : warning message) : Prop := allow_comments o = true /\ exists c, w_message w = MCommentStart c.

  Lemma log_at n s m : At n s -> s_log (log m s) = Warning (s_line s) (s_column s) m :: s_log s /\
    (truthful fp sg input n m -> Truth (Warning (s_line s) (s_column s) m)).
  Proof. intros (_ & HL & HC). split; [reflexivity|]. intros HT. exists n. split; [split; assumption|exact HT]. Qed.

  Lemma skip_at : forall fuel n s, At n s -> exists n', (n <= n')%nat /\ At n' (skip_whitespace fuel s) /\ s_log (skip_whitespace fuel s) = s_log s.
  Proof.
    induction fuel as [|fuel IH]; intros n s HA; cbn [skip_whitespace]; [eauto|].
    destruct (is_whitespace (peek s)); [|eauto]. destruct (IH (S n) (discard s) (at_get _ _ _ HA)) as (n' & Hn & HA' & HL).
    exists n'. rewrite HL, discard_log. split; [lia|]. auto.
  Qed.
  Lemma ws_at n s : At n s -> exists n', (n <= n')%nat /\ At n' (j_consume_whitespace s) /\ s_log (j_consume_whitespace s) = s_log s.
  Proof. apply skip_at. Qed.
  Lemma ws_stuck s : is_whitespace (peek s) = false -> j_consume_whitespace s = s.
  Proof. intros H. unfold j_consume_whitespace. destruct (length (s_rest s)); cbn [skip_whitespace]; [reflexivity|]. now rewrite H. Qed.

  Lemma line_comment_at : forall fuel n s, At n s -> exists n', (n <= n')%nat /\ At n' (j_line_comment fuel s) /\ s_log (j_line_comment fuel s) = s_log s.
  Proof.
    induction fuel as [|fuel IH]; intros n s HA; cbn [j_line_comment]; rewrite get_eq; pose proof (at_get _ _ _ HA) as HG;
      destruct ((peek s =? s_eof) || (peek s =? 10)).
    - exists (S n). rewrite discard_log. auto.
    - exists (S n). rewrite discard_log. auto.
    - exists (S n). rewrite discard_log. auto.
    - destruct (IH (S n) (discard s) HG) as (n' & Hn & HA' & HL). exists n'. rewrite HL, discard_log. split; [lia|auto].
  Qed.

  Definition quiet_end (st : parse_state) (s' : jstream) : Prop := st = Invalid -> s_rest s' = [].
  Lemma block_comment_at : forall fuel n s, At n s -> (length (s_rest s) <= fuel)%nat -> bytes input ->
    exists n', (n <= n')%nat /\ At n' (snd (j_block_comment fuel s)) /\ s_log (snd (j_block_comment fuel s)) = s_log s /\
      quiet_end (fst (j_block_comment fuel s)) (snd (j_block_comment fuel s)).
  Proof.
    intros fuel n s HA Hf HB.
    assert (K : exists n', (n <= n')%nat /\ At n' (snd (j_block_comment fuel s)) /\ s_log (snd (j_block_comment fuel s)) = s_log s).
    { clear Hf. revert n s HA. induction fuel as [|fuel IH]; intros n s HA; cbn [j_block_comment]; rewrite get_eq; pose proof (at_get _ _ _ HA) as HG;
        pose proof (at_get _ _ _ HG) as HG2;
        (destruct ((peek s =? 42) && (peek (discard s) =? 47)); [exists (S (S n)); cbn [snd]; rewrite !discard_log; auto|]);
        (destruct (peek s =? s_eof); [exists (S n); cbn [snd]; rewrite discard_log; auto|]).
      - exists (S n). cbn [snd]. rewrite discard_log. auto.
      - destruct (IH (S n) (discard s) HG) as (n' & Hn & HA' & HL). exists n'. rewrite HL, discard_log. split; [lia|auto]. }
    destruct K as (n' & H1 & H2 & H3). exists n'. repeat (split; [assumption|]).
    destruct (block_comment_erase fuel s (at_bytes _ _ _ HB HA) Hf) as [E1 E2]. unfold quiet_end. rewrite E1, E2.
    clear. generalize (s_rest s). induction l as [|c [|d r] IH]; cbn [block_comment fst snd]; auto.
    destruct ((c =? 42) && (d =? 47)); cbn [fst]; [discriminate|]. exact IH.
  Qed.

  Definition Post (n : nat) (s : jstream) (st : parse_state) (s' : jstream) : Prop :=
    exists n' new, (n <= n')%nat /\ At n' s' /\ s_log s' = new ++ s_log s /\ Forall Truth new /\
      (st <> Invalid -> new = []) /\ (st = Invalid -> new <> [] \/ s_rest s' = []).

  Lemma post_same n s n' s' st : (n <= n')%nat -> At n' s' -> s_log s' = s_log s -> (st = Invalid -> s_rest s' = []) -> Post n s st s'.
  Proof. intros H1 H2 H3 H4. exists n', []. split; [assumption|]. split; [exact H2|]. split; [exact H3|]. split; [constructor|]. split; [reflexivity|]. intros; right; auto. Qed.
  Lemma post_log n s n' s' m : (n <= n')%nat -> At n' s' -> s_log s' = s_log s -> truthful fp sg input n' m -> Post n s Invalid (log m s').
  Proof.
    intros H1 H2 H3 H4. destruct (log_at n' s' m H2) as [E HT].
    exists n', [Warning (s_line s') (s_column s') m]. split; [assumption|]. split; [exact H2|]. split; [rewrite E, H3; reflexivity|].
    split; [constructor; [auto|constructor]|]. split; [congruence|]. intros _. left. discriminate.
  Qed.
  Lemma post_trans n s n1 s1 st s' : (n <= n1)%nat -> s_log s1 = s_log s -> Post n1 s1 st s' -> Post n s st s'.
  Proof. intros H1 H2 (n' & new & H3 & H4 & H5 & H6). exists n', new. split; [lia|]. split; [assumption|]. rewrite H5, H2. auto. Qed.

  Hypothesis HB : bytes input.

  Lemma comment_at n s : At n s -> peek s = 47 -> Post (if allow_comments o then S n else n) s (fst (j_consume_comment o s)) (snd (j_consume_comment o s)).
  Proof.
    intros HA HP. unfold j_consume_comment. destruct (allow_comments o); cbn [negb].
    2: { cbn [fst snd]. apply (post_log n s n s MComment); auto. cbn [truthful]. now rewrite <- (at_peek _ _ _ HA). }
    rewrite get_eq. pose proof (at_get _ _ _ HA) as H1. pose proof (at_get _ _ _ H1) as H2.
    assert (EL : s_log (discard (discard s)) = s_log s) by (rewrite !discard_log; reflexivity).
    destruct (Z.eqb_spec (peek (discard s)) 47) as [E1|E1].
    { cbn [fst snd]. destruct (line_comment_at (length (s_rest (discard (discard s)))) _ _ H2) as (n' & Hn & HA' & HL).
      apply (post_same (S n) s n'); auto; lia || congruence || discriminate. }
    destruct (Z.eqb_spec (peek (discard s)) 42) as [E2|E2].
    { destruct (block_comment_at _ _ _ H2 (le_n _) HB) as (n' & Hn & HA' & HL & HQ).
      apply (post_same (S n) s n'); auto; lia || congruence. }
    cbn [fst snd]. apply (post_log (S n) s (S (S n))); auto.
    cbn [truthful]. replace (S (S n) - 1)%nat with (S n) by lia. replace (S (S n) - 2)%nat with n by lia.
    rewrite <- (at_peek _ _ _ HA), <- (at_peek _ _ _ H1). repeat split; auto; lia.
  Qed.

  Lemma ws_done (s : jstream) : is_whitespace (peek (j_consume_whitespace s)) = false.
  Proof.
    unfold peek. rewrite whitespace_erase. generalize (s_rest s). induction l as [|c r IH]; [reflexivity|].
    cbn [consume_whitespace]. destruct (is_whitespace c) eqn:E; [exact IH|exact E].
  Qed.

  Definition skipped (r : parse_state * jstream) : Prop :=
    (fst r = KeepParsing /\ is_whitespace (peek (snd r)) = false /\ peek (snd r) <> 47) \/ fst r = Invalid.
  Lemma wsc_at : forall fuel n s, At n s -> (length (s_rest s) <= fuel)%nat ->
    Post n s (fst (j_whitespace_and_comments fuel o s)) (snd (j_whitespace_and_comments fuel o s)) /\
    skipped (j_whitespace_and_comments fuel o s).
  Proof.
    induction fuel as [|fuel IH]; intros n s HA Hf; cbn [j_whitespace_and_comments];
      destruct (ws_at n s HA) as (n1 & Hn1 & HA1 & HL1); pose proof (ws_done s) as HW.
    - destruct (Z.eqb_spec (peek (j_consume_whitespace s)) 47) as [E|E].
      + exfalso. assert (ER : s_rest s = []) by (destruct (s_rest s); [reflexivity|cbn in Hf; lia]).
        revert E. unfold peek. rewrite whitespace_erase, ER. cbn. unfold s_eof. lia.
      + split; [|left; auto]. apply (post_same n s n1); auto. discriminate.
    - destruct (Z.eqb_spec (peek (j_consume_whitespace s)) 47) as [E|E].
      + pose proof (comment_at n1 _ HA1 E) as HC.
        destruct (j_consume_comment o (j_consume_whitespace s)) as [st s2] eqn:EC. cbn [fst snd] in HC.
        assert (HI : st = Invalid -> Post n s Invalid s2 /\ skipped (Invalid, s2)).
        { intros ->. split; [|right; reflexivity]. apply (post_trans n s n1 (j_consume_whitespace s)); auto.
          destruct HC as (n' & new & H1 & H2). exists n', new. split; [destruct (allow_comments o); lia|exact H2]. }
        assert (HK : st <> Invalid ->
          Post n s (fst (j_whitespace_and_comments fuel o s2)) (snd (j_whitespace_and_comments fuel o s2)) /\
          skipped (j_whitespace_and_comments fuel o s2)).
        { intros HS. destruct HC as (n' & new & H1 & H2 & H3 & _ & H5 & _).
          assert (HAC : allow_comments o = true).
          { destruct (allow_comments o) eqn:EA; [reflexivity|]. unfold j_consume_comment in EC. rewrite EA in EC. cbn in EC. congruence. }
          rewrite HAC in H1. rewrite (H5 HS) in H3. cbn [app] in H3.
          destruct (IH n' s2 H2) as [HP HSk].
          { destruct H2 as (-> & _). destruct HA as (ER & _). rewrite ER in Hf. rewrite skipn_length in *.
            assert (n < length input)%nat; [|lia].
            destruct (Nat.lt_ge_cases n1 (length input)); [lia|].
            destruct HA1 as (ER1 & _). rewrite skipn_all2 in ER1 by lia. rewrite (peek_nil _ ER1) in E. discriminate. }
          split; [|exact HSk]. apply (post_trans n s n' s2); auto; [lia|congruence]. }
        destruct st; [apply HI; reflexivity|apply HK; discriminate|apply HK; discriminate].
      + split; [|left; auto]. apply (post_same n s n1); auto. discriminate.
  Qed.
  Lemma skip_comments_at n s : At n s -> Post n s (fst (j_skip o s)) (snd (j_skip o s)) /\ skipped (j_skip o s).
  Proof. intros HA. now apply wsc_at. Qed.

  Lemma at_eof_rest n (s : jstream) : At n s -> (peek s = s_eof <-> s_rest s = []).
  Proof. intros HA. pose proof (at_end_iff s (at_bytes _ _ _ HB HA)) as H. unfold at_end in H. now rewrite Z.eqb_eq in H. Qed.

  Lemma state_at t n s : At n s -> t <> s_eof ->
    Post n s (fst (j_state o t s)) (snd (j_state o t s)) /\
    (fst (j_state o t s) = StopParsing -> exists n', At (S n') (snd (j_state o t s)) /\ symbol_at input n' = t).
  Proof.
    intros HA Ht. unfold j_state. destruct (skip_comments_at n s HA) as [HP HS]. destruct (j_skip o s) as [st s1].
    cbn [fst snd] in *. destruct st.
    - split; [exact HP|discriminate].
    - destruct HS as [[? _]|?]; discriminate.
    - destruct HP as (n' & new & H1 & H2 & H3 & _ & H5 & _). rewrite (H5 ltac:(discriminate)) in H3. cbn [app] in H3.
      destruct (Z.eqb_spec (peek s1) t) as [E|E]; cbn [fst snd].
      + split; [apply (post_same n s (S n')); [lia|now apply at_get|now rewrite discard_log|discriminate]|].
        intros _. exists n'. split; [now apply at_get|]. now rewrite <- (at_peek _ _ _ H2).
      + destruct (Z.eqb_spec (peek s1) s_eof) as [E2|E2]; cbn [fst snd]; (split; [|discriminate]).
        * apply (post_same n s n'); auto. intros _. now apply (at_eof_rest n').
        * apply (post_same n s n'); auto. discriminate.
  Qed.

  Lemma token_at t n s : At n s -> Post n s (fst (j_consume_token t s)) (snd (j_consume_token t s)).
  Proof.
    intros HA. unfold j_consume_token. destruct (ws_at n s HA) as (n1 & Hn1 & HA1 & HL1). rewrite get_eq.
    pose proof (at_get _ _ _ HA1) as HG. destruct (Z.eqb_spec (peek (j_consume_whitespace s)) t) as [E|E]; cbn [negb fst snd].
    - apply (post_same n s (S n1)); auto; [now rewrite discard_log|discriminate].
    - apply (post_log n s (S n1)); auto; [now rewrite discard_log|]. cbn [truthful]. replace (S n1 - 1)%nat with n1 by lia.
      rewrite <- (at_peek _ _ _ HA1). repeat split; auto; lia.
  Qed.
  Lemma token_state t s : fst (j_consume_token t s) = Invalid \/ fst (j_consume_token t s) = KeepParsing.
  Proof. unfold j_consume_token. rewrite get_eq. destruct (negb _); auto. Qed.

  (** Comments are not allowed and the next symbol is a solidus: nothing can be read. *)
  Definition stuck (s : jstream) : Prop := allow_comments o = false /\ peek s = 47.
  Lemma skip_invalid s : fst (j_skip o s) = Invalid ->
    stuck (snd (j_skip o s)) \/ allow_comments o = true.
  Proof.
    unfold j_skip. generalize (length (s_rest s)). intros fuel. destruct (allow_comments o) eqn:EA; [auto|]. intros H. left. split; [assumption|].
    revert H. destruct fuel; cbn [j_whitespace_and_comments]; destruct (Z.eqb_spec (peek (j_consume_whitespace s)) 47) as [E|E]; cbn [fst snd]; auto; try discriminate.
    unfold j_consume_comment. rewrite EA. cbn [negb fst snd]. auto.
  Qed.
  Lemma skip_new n s : At n s -> allow_comments o = true -> exists new, s_log (snd (j_skip o s)) = new ++ s_log s /\ Forall is_start new.
  Proof.
    intros HA EA. unfold j_skip. generalize (length (s_rest s)). intros fuel. revert n s HA.
    induction fuel as [|fuel IH]; intros n s HA; cbn [j_whitespace_and_comments]; destruct (ws_at n s HA) as (n1 & Hn1 & HA1 & HL1);
      destruct (Z.eqb_spec (peek (j_consume_whitespace s)) 47) as [E|E]; cbn [snd]; try (exists []; split; [exact HL1|constructor]).
    destruct (j_consume_comment o (j_consume_whitespace s)) as [st s2] eqn:EC.
    pose proof (comment_at n1 _ HA1 E) as HC. rewrite EC in HC. cbn [fst snd] in HC.
    assert (HI : st = Invalid -> exists new, s_log s2 = new ++ s_log s /\ Forall is_start new).
    { intros ->. unfold j_consume_comment in EC. rewrite EA in EC. cbn [negb] in EC. rewrite get_eq in EC.
      destruct (peek (discard (j_consume_whitespace s)) =? 47); [discriminate|].
      destruct (peek (discard (j_consume_whitespace s)) =? 42).
      - pose proof (at_get _ _ _ (at_get _ _ _ HA1)) as H2.
        destruct (block_comment_at _ _ _ H2 (le_n _) HB) as (n' & _ & _ & HL & _). rewrite EC in HL. cbn [snd] in HL.
        exists []. rewrite HL, !discard_log, HL1. split; [reflexivity|constructor].
      - injection EC as <-. exists [Warning (s_line (discard (discard (j_consume_whitespace s)))) (s_column (discard (discard (j_consume_whitespace s)))) (MCommentStart (peek (discard (j_consume_whitespace s))))].
        split; [cbn [app]; unfold log; cbn [s_log]; now rewrite !discard_log, HL1|].
        constructor; [|constructor]. split; [assumption|]. cbn [w_message]. eauto. }
    destruct HC as (n' & new & H1 & H2 & H3 & _ & H5 & _).
    destruct st; [apply HI; reflexivity| |]; (destruct (IH n' s2 H2) as (nw & HE & HF); exists nw; split; [|assumption];
      rewrite HE, H3, (H5 ltac:(discriminate)); cbn [app]; now rewrite HL1).
  Qed.

  (** ** Erasure *)
  Lemma wsc_erase : forall fuel n s, At n s -> (length (s_rest s) <= fuel)%nat ->
    exists r, whitespace_and_comments fuel o (s_rest s) = Some r /\ erases (j_whitespace_and_comments fuel o s) r.
  Proof.
    induction fuel as [|fuel IH]; intros n s HA Hf; cbn [j_whitespace_and_comments whitespace_and_comments];
      destruct (ws_at n s HA) as (n1 & Hn1 & HA1 & HL1); pose proof (whitespace_erase s) as HE; rewrite <- HE;
      destruct (s_rest (j_consume_whitespace s)) as [|c r] eqn:ER.
    - rewrite (peek_nil _ ER). cbn. eexists. split; [reflexivity|]. split; [reflexivity|exact ER].
    - exfalso. assert (E : s_rest s = []) by (destruct (s_rest s); [reflexivity|cbn in Hf; lia]). rewrite E in HE. discriminate.
    - rewrite (peek_nil _ ER). cbn. eexists. split; [reflexivity|]. split; [reflexivity|exact ER].
    - rewrite (peek_cons _ c r ER). destruct (Z.eqb_spec c 47) as [->|Hc].
      2: { eexists. split; [reflexivity|]. split; [reflexivity|exact ER]. }
      pose proof (comment_erase o _ r (at_bytes _ _ _ HB HA1) ER) as [HC1 HC2]. rewrite ER in HC1, HC2.
      pose proof (comment_at n1 _ HA1 (peek_cons _ 47 r ER)) as HC.
      destruct (j_consume_comment o (j_consume_whitespace s)) as [st s2] eqn:EC.
      destruct (consume_comment o (47 :: r)) as [st' r2]. cbn [fst snd] in *. subst st' r2.
      assert (HK : st <> Invalid -> exists r0, whitespace_and_comments fuel o (s_rest s2) = Some r0 /\ erases (j_whitespace_and_comments fuel o s2) r0).
      { intros HS. destruct HC as (n' & new & H1 & H2 & _).
        assert (HAC : allow_comments o = true).
        { destruct (allow_comments o) eqn:EA; [reflexivity|]. unfold j_consume_comment in EC. rewrite EA in EC. cbn in EC. congruence. }
        rewrite HAC in H1. apply (IH n' s2 H2). destruct H2 as (-> & _). destruct HA as (E & _). rewrite E in Hf. rewrite skipn_length in *.
        destruct HA1 as (ER1 & _). rewrite ER in ER1. symmetry in ER1. apply skipn_cons_lt in ER1. lia. }
      destruct st; [eexists; split; [reflexivity|split; reflexivity]|apply HK; discriminate|apply HK; discriminate].
  Qed.
  Lemma skip_comments_erase n s : At n s -> erases (j_skip o s) (consume_whitespace_and_comments o (s_rest s)).
  Proof.
    intros HA. unfold j_skip, consume_whitespace_and_comments.
    destruct (wsc_erase (length (s_rest s)) n s HA (le_n _)) as (r & -> & H). exact H.
  Qed.
  Lemma state_erase t n s : At n s -> t <> s_eof -> erases (j_state o t s) (state_for_object_or_array o t (s_rest s)).
  Proof.
    intros HA Ht. unfold j_state, state_for_object_or_array. pose proof (skip_comments_erase n s HA) as [H1 H2].
    destruct (skip_comments_at n s HA) as [(n1 & _ & _ & HA1 & _) _].
    destruct (j_skip o s) as [st s1], (consume_whitespace_and_comments o (s_rest s)) as [st' r]. cbn [fst snd] in *. subst st' r.
    assert (K : erases (if peek s1 =? t then (StopParsing, discard s1) else if peek s1 =? s_eof then (Invalid, s1) else (KeepParsing, s1))
      match s_rest s1 with [] => (Invalid, []) | c :: r => if c =? t then (StopParsing, r) else (KeepParsing, s_rest s1) end).
    { pose proof (at_bytes _ _ _ HB HA1) as Hb. destruct (s_rest s1) as [|c r] eqn:ER.
      - rewrite (peek_nil _ ER). rewrite (proj2 (Z.eqb_neq s_eof t)), Z.eqb_refl by congruence. split; [reflexivity|exact ER].
      - rewrite (peek_cons _ c r ER). inversion Hb; subst. destruct (c =? t); [split; [reflexivity|]; cbn [snd]; now rewrite discard_rest, ER|].
        replace (c =? s_eof) with false by (symmetry; apply Z.eqb_neq; unfold s_eof; lia). split; [reflexivity|exact ER]. }
    destruct st; [split; reflexivity|exact K|exact K].
  Qed.
  Lemma token_erase t n s : At n s -> 0 <= t -> erases (j_consume_token t s) (consume_token t (s_rest s)).
  Proof.
    intros HA Ht. unfold j_consume_token, consume_token. rewrite get_eq. rewrite <- whitespace_erase.
    destruct (s_rest (j_consume_whitespace s)) as [|c r] eqn:ER.
    - rewrite (peek_nil _ ER). replace (s_eof =? t) with false by (symmetry; apply Z.eqb_neq; unfold s_eof; lia). cbn [negb].
      split; [reflexivity|]. cbn [snd]. now rewrite log_rest, discard_rest, ER.
    - rewrite (peek_cons _ c r ER). destruct (c =? t); cbn [negb]; (split; [reflexivity|]); cbn [snd]; rewrite ?log_rest, discard_rest, ER; reflexivity.
  Qed.
  Lemma comma_erase t n s : At n s -> t <> s_eof -> erases (j_consume_comma o t s) (consume_comma o t (s_rest s)).
  Proof.
    intros HA Ht. unfold j_consume_comma, consume_comma. pose proof (token_erase 44 n s HA ltac:(lia)) as [H1 H2].
    pose proof (token_at 44 n s HA) as (n1 & _ & _ & HA1 & _).
    destruct (j_consume_token 44 s) as [st s1], (consume_token 44 (s_rest s)) as [st' r]. cbn [fst snd] in *. subst st' r.
    pose proof (state_erase t n1 s1 HA1 Ht) as [H1 H2].
    destruct (j_state o t s1) as [st2 s2], (state_for_object_or_array o t (s_rest s1)) as [st2' r2]. cbn [fst snd] in *. subst st2' r2.
    destruct st; [split; reflexivity| |]; (destruct st2; [split; reflexivity| |split; reflexivity]; destruct (allow_trailing_comma o); split; reflexivity).
  Qed.

  Lemma quoted_at : forall fuel n s r s', At n s -> j_quoted fuel s = (r, s') ->
    s_log s' = s_log s /\ match r with Some v => At (n + length v + 1) s' | None => exists n', (n <= n')%nat /\ At n' s' end.
  Proof.
    induction fuel as [|fuel IH]; intros n s r s' HA H; cbn [j_quoted] in H; rewrite get_eq in H; pose proof (at_get _ _ _ HA) as HG;
      (destruct (peek s =? 34); [injection H as <- <-; rewrite discard_log; split; [reflexivity|]; cbn [length]; replace (n + 0 + 1)%nat with (S n) by lia; exact HG|]).
    - injection H as <- <-. rewrite discard_log. split; [reflexivity|]. eauto.
    - destruct (peek s =? 92).
      + rewrite get_eq in H. pose proof (at_get _ _ _ HG) as HG2.
        destruct (j_quoted fuel (discard (discard s))) as [v s3] eqn:E. injection H as <- <-.
        destruct (IH _ _ _ _ HG2 E) as [HL HR]. split; [now rewrite HL, !discard_log|].
        destruct v as [v|]; cbn [option_map length].
        * replace (n + S (S (length v)) + 1)%nat with (S (S n) + length v + 1)%nat by lia. exact HR.
        * destruct HR as (n' & ? & ?). exists n'. split; [lia|assumption].
      + destruct (peek s =? s_eof); [injection H as <- <-; rewrite discard_log; split; [reflexivity|]; eauto|].
        destruct (j_quoted fuel (discard s)) as [v s3] eqn:E. injection H as <- <-.
        destruct (IH _ _ _ _ HG E) as [HL HR]. split; [now rewrite HL, !discard_log|].
        destruct v as [v|]; cbn [option_map length].
        * replace (n + S (length v) + 1)%nat with (S n + length v + 1)%nat by lia. exact HR.
        * destruct HR as (n' & ? & ?). exists n'. split; [lia|assumption].
  Qed.
  Lemma quoted_erase : forall fuel n s, At n s -> (length (s_rest s) <= fuel)%nat ->
    match j_quoted fuel s with
    | (Some v, s') => quoted (s_rest s) = Some (v, s_rest s')
    | (None, s') => quoted (s_rest s) = None /\ s_rest s' = []
    end.
  Proof.
    induction fuel as [|fuel IH]; intros n s HA Hf; cbn [j_quoted]; rewrite get_eq; pose proof (at_get _ _ _ HA) as HG.
    - assert (E : s_rest s = []) by (destruct (s_rest s); [reflexivity|cbn in Hf; lia]). rewrite (peek_nil _ E).
      change (s_eof =? 34) with false. cbv iota. rewrite discard_rest, E. auto.
    - pose proof (at_bytes _ _ _ HB HA) as Hb. destruct (s_rest s) as [|c r] eqn:E.
      + rewrite (peek_nil _ E). change (s_eof =? 34) with false. change (s_eof =? 92) with false. rewrite Z.eqb_refl. cbv iota.
        rewrite discard_rest, E. auto.
      + rewrite (peek_cons _ c r E). inversion Hb as [|? ? Hc Hb']; subst. cbn [quoted].
        assert (E1 : s_rest (discard s) = r) by (rewrite discard_rest, E; reflexivity).
        destruct (c =? 34); [now rewrite E1|]. cbn [length] in Hf. destruct (c =? 92).
        * rewrite get_eq. pose proof (at_get _ _ _ HG) as HG2.
          assert (E2 : s_rest (discard (discard s)) = tl r) by (rewrite discard_rest, E1; reflexivity).
          specialize (IH _ _ HG2). rewrite E2 in IH. destruct r as [|d r].
          -- specialize (IH (Nat.le_0_l _)). cbn [tl quoted] in IH.
             destruct (j_quoted fuel (discard (discard s))) as [[v|] s3]; [discriminate|]. cbn [option_map]. tauto.
          -- rewrite (peek_cons _ d r E1). cbn [tl length] in *. specialize (IH ltac:(lia)).
             destruct (j_quoted fuel (discard (discard s))) as [[v|] s3]; cbn [option_map].
             ++ now rewrite IH.
             ++ destruct IH as [-> ->]. auto.
        * replace (c =? s_eof) with false by (symmetry; apply Z.eqb_neq; unfold s_eof; lia).
          specialize (IH _ _ HG). rewrite E1 in IH. specialize (IH ltac:(lia)).
          destruct (j_quoted fuel (discard s)) as [[v|] s3]; cbn [option_map]; [now rewrite IH|]. destruct IH as [-> ->]. auto.
  Qed.

  (** A string literal. *)
  Definition literal_at (n : nat) (v : list Z) : Prop := exists k, (k + length v < n)%nat /\ slice input k ([34] ++ v ++ [34]).
  Lemma literal_later n n' v : (n <= n')%nat -> literal_at n v -> literal_at n' v.
  Proof. intros H (k & H1 & H2). exists k. split; [lia|assumption]. Qed.
  Lemma qstring_at n s r s' : At n s -> j_parse_quoted_string s = (r, s') ->
    match r with
    | None => Post n s Invalid s'
    | Some v => exists n', (n <= n')%nat /\ At n' s' /\ s_log s' = s_log s /\ literal_at n' v
    end /\ parse_quoted_string (s_rest s) = match r with Some v => Some (v, s_rest s') | None => None end.
  Proof.
    intros HA H. unfold j_parse_quoted_string, parse_quoted_string in *.
    pose proof (token_erase 34 n s HA ltac:(lia)) as [H1 H2]. pose proof (token_at 34 n s HA) as HP. pose proof (token_state 34 s) as HT.
    destruct (j_consume_token 34 s) as [st s1] eqn:ET, (consume_token 34 (s_rest s)) as [st' r1]. cbn [fst snd] in *. subst st' r1.
    destruct HT as [->| ->]; [injection H as <- <-; split; [exact HP|reflexivity]|].
    destruct HP as (n1 & new & Hn1 & HA1 & HL1 & _ & HN & _). rewrite (HN ltac:(discriminate)) in HL1. cbn [app] in HL1. clear HN new.
    pose proof (quoted_erase _ _ _ HA1 (le_n _)) as HQ. destruct (quoted_at _ _ _ _ _ HA1 H) as [HL2 HR]. rewrite H in HQ.
    destruct r as [v|].
    - split; [|assumption]. exists (n1 + length v + 1)%nat. split; [lia|]. split; [assumption|]. split; [congruence|].
      (* the opening quote was the last symbol taken *)
      assert (HK : exists k, n1 = S k /\ symbol_at input k = 34).
      { unfold j_consume_token in ET. rewrite get_eq in ET. destruct (ws_at n s HA) as (k & _ & HAk & _).
        destruct (Z.eqb_spec (peek (j_consume_whitespace s)) 34) as [E34|]; cbn [negb] in ET; [|discriminate].
        injection ET as <-. exists k. pose proof (at_get _ _ _ HAk) as HAk'. rewrite (at_peek _ _ _ HAk) in E34. split; [|assumption].
        destruct HA1 as (R1 & _). destruct HAk' as (R2 & _). rewrite R1 in R2.
        apply quoted_sound with (n := length (s_rest (discard (j_consume_whitespace s)))) in HQ; [|lia].
        rewrite HQ in R1. symmetry in R1. assert (n1 < length input)%nat.
        { destruct (Nat.lt_ge_cases n1 (length input)); [assumption|]. rewrite skipn_all2 in R1 by assumption. destruct v; discriminate. }
        apply (f_equal (@length Z)) in R2. rewrite !skipn_length in R2. lia. }
      destruct HK as (k & -> & E34). exists k. split; [lia|].
      apply quoted_sound with (n := length (s_rest s1)) in HQ; [|lia]. destruct HA1 as (R1 & _). rewrite R1 in HQ.
      unfold slice. assert (EK : skipn k input = 34 :: v ++ 34 :: s_rest s').
      { rewrite skipn_succ in HQ. unfold symbol_at in E34. rewrite <- HQ. destruct (skipn k input) as [|c r] eqn:EK.
        - cbn [tl] in HQ. destruct v; discriminate.
        - cbn [tl]. f_equal. rewrite <- (firstn_skipn k input) in E34. pose proof (skipn_cons_lt _ _ _ _ EK) as HLk.
          rewrite app_nth2 in E34; rewrite firstn_length_le in * by lia; [|lia]. rewrite Nat.sub_diag, EK in E34. exact E34. }
      rewrite EK. cbn [app length firstn]. f_equal. rewrite app_length. cbn [length].
      replace (v ++ 34 :: s_rest s') with ((v ++ [34]) ++ s_rest s') by (rewrite <- app_assoc; reflexivity).
      rewrite firstn_app. replace (length v + 1 - length (v ++ [34%Z]))%nat with O by (rewrite app_length; cbn [length]; lia).
      cbn [firstn]. rewrite app_nil_r. apply firstn_all2. rewrite app_length. cbn [length]. lia.
    - destruct HQ as [HQ HE]. split; [|assumption]. destruct HR as (n' & Hn' & HA').
      apply (post_same n s n'); auto; [lia|congruence].
  Qed.
  Lemma qstring_stuck s : stuck s -> fst (j_parse_quoted_string s) = None.
  Proof.
    intros [_ HP]. unfold j_parse_quoted_string, j_consume_token. rewrite ws_stuck by (rewrite HP; reflexivity).
    rewrite get_eq, HP. reflexivity.
  Qed.

  Lemma value_at : forall fuel n s v s', At n s -> (length (s_rest s) <= fuel)%nat -> j_consume_value fuel s = (v, s') ->
    At (n + length v) s' /\ s_log s' = s_log s /\ consume_value (s_rest s) = (v, s_rest s').
  Proof.
    induction fuel as [|fuel IH]; intros n s v s' HA Hf H; cbn [j_consume_value] in H.
    - injection H as <- <-. cbn [length]. rewrite Nat.add_0_r. split; [assumption|]. split; [reflexivity|].
      destruct (s_rest s); [reflexivity|cbn in Hf; lia].
    - pose proof (at_bytes _ _ _ HB HA) as Hb. destruct (s_rest s) as [|c r] eqn:E.
      + rewrite (peek_nil _ E), Z.eqb_refl in H. cbn [negb andb] in H. injection H as <- <-. cbn [length].
        rewrite Nat.add_0_r. rewrite E. auto.
      + rewrite (peek_cons _ c r E) in H. inversion Hb as [|? ? Hc Hb']; subst. cbn [consume_value].
        replace (c =? s_eof) with false in H by (symmetry; apply Z.eqb_neq; unfold s_eof; lia). cbn [negb andb] in H.
        destruct (keep_value c).
        * rewrite get_eq, (peek_cons _ c r E) in H. assert (E1 : s_rest (discard s) = r) by (rewrite discard_rest, E; reflexivity).
          destruct (j_consume_value fuel (discard s)) as [v' s2] eqn:EV. injection H as <- <-. cbn [length] in Hf.
          destruct (IH _ _ _ _ (at_get _ _ _ HA) ltac:(rewrite E1; lia) EV) as (H1 & H2 & H3). rewrite E1 in H3. rewrite H3.
          cbn [length]. replace (n + S (length v'))%nat with (S n + length v')%nat by lia. split; [assumption|].
          split; [now rewrite H2, discard_log|reflexivity].
        * injection H as <- <-. cbn [length]. rewrite Nat.add_0_r. rewrite E. auto.
  Qed.
  Lemma consume_value_app l : forall v r, consume_value l = (v, r) -> l = v ++ r.
  Proof.
    induction l as [|c l IH]; intros v r H; cbn [consume_value] in H; [injection H as <- <-; reflexivity|].
    destruct (keep_value c); [|injection H as <- <-; reflexivity].
    destruct (consume_value l) as [v' r']. injection H as <- <-. cbn [app]. f_equal. now apply IH.
  Qed.

  (** ** Results *)
  Definition RPost (n : nat) (s : jstream) (r : result) (s' : jstream) : Prop :=
    exists n' new, (n <= n')%nat /\ At n' s' /\ s_log s' = new ++ s_log s /\ Forall Truth new /\
      match r with
      | RValue _ => Forall is_start new
      | RNone => new <> [] \/ s_rest s' = []
      | RThrow text => literal_at n' text /\ convert_to_string sg text = None
      | RFuel => True
      end.
  Definition er (r : result) (s' : jstream) (out : outcome) : Prop :=
    match r with RValue j => out = Done j (s_rest s') | RNone | RThrow _ => out = Fail | RFuel => out = OutOfFuel end.

  Lemma rpost_invalid n s s' : Post n s Invalid s' -> RPost n s RNone s'.
  Proof. intros (n' & new & H1 & H2 & H3 & H4 & _ & H5). exists n', new. auto 6. Qed.
  Lemma rpost_trans n s n1 new1 s1 r s' : (n <= n1)%nat -> s_log s1 = new1 ++ s_log s -> Forall Truth new1 ->
    (forall j, r = RValue j -> Forall is_start new1) -> RPost n1 s1 r s' -> RPost n s r s'.
  Proof.
    intros H1 H2 H3 H4 (n' & new & H5 & H6 & H7 & H8 & H9). exists n', (new ++ new1). split; [lia|]. split; [assumption|].
    split; [rewrite H7, H2, app_assoc; reflexivity|]. split; [apply Forall_app; auto|].
    destruct r; auto; [apply Forall_app; eauto|]. destruct H9 as [H9|H9]; [|auto]. left. intros E. apply app_eq_nil in E. tauto.
  Qed.
  Lemma rpost_step n s n1 s1 r s' : (n <= n1)%nat -> s_log s1 = s_log s -> RPost n1 s1 r s' -> RPost n s r s'.
  Proof. intros H1 H2 H3. apply (rpost_trans n s n1 [] s1); auto. Qed.

  Lemma parse_value_at n s r s' : At n s -> j_parse_value fp s = (r, s') ->
    RPost n s r s' /\ er r s' (let '(text, rest) := consume_value (s_rest s) in match value_of_text fp text with Some j => Done j rest | None => Fail end).
  Proof.
    intros HA H. unfold j_parse_value in H. destruct (j_consume_value (length (s_rest s)) s) as [v s1] eqn:EV.
    destruct (value_at _ _ _ _ _ HA (le_n _) EV) as (H1 & H2 & H3). rewrite H3.
    destruct (value_of_text fp v) as [j|] eqn:EJ; injection H as <- <-.
    - split; [|reflexivity]. exists (n + length v)%nat, []. split; [lia|]. split; [assumption|]. split; [assumption|]. split; constructor.
    - split; [|reflexivity]. apply rpost_invalid. apply (post_log n s (n + length v)%nat); auto; [lia|].
      cbn [truthful]. split; [lia|]. split; [|assumption]. replace (n + length v - length v)%nat with n by lia.
      apply consume_value_app in H3. destruct HA as (R & _). rewrite R in H3. unfold slice. rewrite H3, firstn_app, Nat.sub_diag.
      cbn [firstn]. rewrite app_nil_r. apply firstn_all.
  Qed.

  (** The comma: what was logged if parsing goes on. *)
  Lemma comma_at t n s : At n s -> t = 125 \/ t = 93 ->
    exists n' new, (n <= n')%nat /\ At n' (snd (j_consume_comma o t s)) /\ s_log (snd (j_consume_comma o t s)) = new ++ s_log s /\ Forall Truth new /\
      match fst (j_consume_comma o t s) with
      | Invalid => new <> [] \/ s_rest (snd (j_consume_comma o t s)) = []
      | StopParsing => new = []
      | KeepParsing => Forall is_start new \/ stuck (snd (j_consume_comma o t s))
      end.
  Proof.
    intros HA Ht. assert (Hte : t <> s_eof) by (unfold s_eof; lia). unfold j_consume_comma.
    pose proof (token_at 44 n s HA) as HP. pose proof (token_state 44 s) as HT.
    destruct (j_consume_token 44 s) as [st s1]. cbn [fst snd] in *.
    destruct HT as [->| ->].
    { destruct HP as (n' & new & H1 & H2 & H3 & H4 & _ & H5). exists n', new. cbn [fst snd]. auto 6. }
    destruct HP as (n1 & new & Hn1 & HA1 & HL1 & _ & HN & _). rewrite (HN ltac:(discriminate)) in HL1. cbn [app] in HL1. clear HN new.
    destruct (state_at t n1 s1 HA1 Hte) as [HP HS].
    assert (HInv : fst (j_state o t s1) = Invalid -> s_rest (snd (j_state o t s1)) = [] /\ s_log (snd (j_state o t s1)) = s_log s1 \/
        (exists new, s_log (snd (j_state o t s1)) = new ++ s_log s1 /\ Forall is_start new) \/ stuck (snd (j_state o t s1))).
    { unfold j_state. pose proof (skip_invalid s1) as HSI. pose proof (skip_new n1 s1 HA1) as HSN.
      destruct (skip_comments_at n1 s1 HA1) as [HPk _].
      destruct (j_skip o s1) as [st2 s2]. cbn [fst snd] in *. destruct st2.
      - intros _. destruct (HSI eq_refl) as [HK|HK]; [auto|]. right. left. now apply HSN.
      - destruct HPk as (n2 & new & _ & HA2 & HL2 & _ & HN & _). rewrite (HN ltac:(discriminate)) in HL2.
        destruct (peek s2 =? t); [discriminate|]. destruct (Z.eqb_spec (peek s2) s_eof) as [E|E]; [|discriminate].
        intros _. left. cbn [fst snd]. split; [now apply (at_eof_rest n2)|exact HL2].
      - destruct HPk as (n2 & new & _ & HA2 & HL2 & _ & HN & _). rewrite (HN ltac:(discriminate)) in HL2.
        destruct (peek s2 =? t); [discriminate|]. destruct (Z.eqb_spec (peek s2) s_eof) as [E|E]; [|discriminate].
        intros _. left. cbn [fst snd]. split; [now apply (at_eof_rest n2)|exact HL2]. }
    destruct (j_state o t s1) as [st2 s2]. cbn [fst snd] in *.
    destruct HP as (n2 & new & Hn2 & HA2 & HL2 & HF & HN & HI).
    destruct st2; cbn [fst snd].
    - exists n2, new. split; [lia|]. split; [assumption|]. split; [congruence|]. split; [assumption|].
      destruct (HInv eq_refl) as [[_ E]|[(nw & E & HW)|HK]]; [left|left|right; assumption].
      + rewrite HL2 in E. replace new with (@nil (warning message)); [constructor|]. apply (app_inv_tail (s_log s1)). symmetry. exact E.
      + rewrite HL2 in E. apply app_inv_tail in E. congruence.
    - rewrite (HN ltac:(discriminate)) in HL2. cbn [app] in HL2. destruct (allow_trailing_comma o); cbn [fst snd].
      + exists n2, []. split; [lia|]. split; [assumption|]. split; [cbn [app]; congruence|]. split; [constructor|reflexivity].
      + destruct (HS eq_refl) as (k & HAk & Ek). 
        assert (HT : truthful fp sg input (S k) MTrailingComma).
        { cbn [truthful]. replace (S k - 1)%nat with k by lia. rewrite Ek. split; [lia|]. tauto. }
        destruct (log_at (S k) s2 MTrailingComma HAk) as [EL ETr].
        exists n2, [Warning (s_line s2) (s_column s2) MTrailingComma]. split; [lia|]. split; [exact HA2|].
        split; [cbn [app]; rewrite EL; congruence|]. split; [constructor; [auto|constructor]|]. left. discriminate.
    - rewrite (HN ltac:(discriminate)) in HL2. cbn [app] in HL2.
      exists n2, []. split; [lia|]. split; [assumption|]. split; [cbn [app]; congruence|]. split; [constructor|]. left. constructor.
  Qed.

  Lemma json_stuck fuel s : stuck s -> forall j, fst (j_parse_json fuel fp sg o s) <> RValue j.
  Proof.
    intros [HC HP] j. destruct fuel as [|fuel]; [discriminate|]. cbn [j_parse_json].
    assert (E : fst (j_skip o s) = Invalid).
    { unfold j_skip. destruct (length (s_rest s)) as [|f]; cbn [j_whitespace_and_comments];
        rewrite ws_stuck, HP by (rewrite HP; reflexivity); change (47 =? 47) with true; cbv iota; [reflexivity|].
      unfold j_consume_comment. rewrite HC. reflexivity. }
    destruct (j_skip o s) as [st s1]. cbn [fst] in E. subst st. discriminate.
  Qed.

  Definition good (n : nat) (s : jstream) (r : result * jstream) (out : outcome) : Prop :=
    RPost n s (fst r) (snd r) /\ er (fst r) (snd r) out.
  Lemma good_fuel n s : At n s -> good n s (RFuel, s) OutOfFuel.
  Proof. intros HA. split; [|reflexivity]. exists n, []. split; [lia|]. split; [exact HA|]. split; [reflexivity|]. split; [constructor|exact I]. Qed.

  Lemma all_at : forall fuel,
    (forall n s, At n s -> good n s (j_parse_json fuel fp sg o s) (parse_json fuel fp sg o (s_rest s))) /\
    (forall object n s, At n s -> good n s (j_parse_object fuel fp sg o object s) (parse_object fuel fp sg o object (s_rest s))) /\
    (forall array n s, At n s -> good n s (j_parse_array fuel fp sg o array s) (parse_array fuel fp sg o array (s_rest s))).
  Proof.
    induction fuel as [|fuel [IHj [IHo IHa]]].
    { split; [|split]; intros; now apply good_fuel. }
    (* after j_state and the comma, both loops are alike *)
    assert (HOPEN : forall t (more : bool) n s (k : jstream -> result * jstream) (done : json) (kk : list Z -> outcome),
      t = 125 \/ t = 93 -> At n s ->
      (forall n2 s2, At n2 s2 -> good n2 s2 (k s2) (kk (s_rest s2))) ->
      (forall s2, stuck s2 -> forall j, fst (k s2) <> RValue j) ->
      good n s
        match j_state o t s with
        | (Invalid, s1) => (RNone, s1)
        | (StopParsing, s1) => (RValue done, s1)
        | (KeepParsing, s1) =>
            match (if more then j_consume_comma o t s1 else (KeepParsing, s1)) with
            | (Invalid, s2) => (RNone, s2)
            | (StopParsing, s2) => (RValue done, s2)
            | (KeepParsing, s2) => k s2
            end
        end
        match state_for_object_or_array o t (s_rest s) with
        | (Invalid, _) => Fail
        | (StopParsing, rest) => Done done rest
        | (KeepParsing, input1) =>
            match (if more then consume_comma o t input1 else (KeepParsing, input1)) with
            | (Invalid, _) => Fail
            | (StopParsing, rest) => Done done rest
            | (KeepParsing, input2) => kk input2
            end
        end).
    { intros t more n s k done kk Ht HA HK HS. assert (Hte : t <> s_eof) by (unfold s_eof; lia).
      pose proof (state_erase t n s HA Hte) as [E1 E2]. destruct (state_at t n s HA Hte) as [HP _].
      destruct (j_state o t s) as [st s1], (state_for_object_or_array o t (s_rest s)) as [st' r1]. cbn [fst snd] in *. subst st' r1.
      destruct st.
      - split; [now apply rpost_invalid|reflexivity].
      - split; [|reflexivity]. destruct HP as (n1 & new & H1 & H2 & H3 & _ & H5 & _). rewrite (H5 ltac:(discriminate)) in H3.
        exists n1, []. split; [assumption|]. split; [exact H2|]. split; [exact H3|]. split; constructor.
      - destruct HP as (n1 & new & Hn1 & HA1 & HL1 & _ & H5 & _). rewrite (H5 ltac:(discriminate)) in HL1. cbn [app] in HL1. clear H5 new.
        destruct more.
        + pose proof (comma_erase t n1 s1 HA1 Hte) as [E1 E2]. destruct (comma_at t n1 s1 HA1 Ht) as (n2 & new & Hn2 & HA2 & HL2 & HF & HC).
          destruct (j_consume_comma o t s1) as [st2 s2], (consume_comma o t (s_rest s1)) as [st2' r2]. cbn [fst snd] in *. subst st2' r2.
          destruct st2.
          * split; [|reflexivity]. exists n2, new. split; [lia|]. split; [exact HA2|]. split; [cbn [snd]; congruence|]. split; [assumption|exact HC].
          * split; [|reflexivity]. subst new. exists n2, []. split; [lia|]. split; [exact HA2|]. split; [cbn [snd app] in *; congruence|]. split; constructor.
          * destruct (HK n2 s2 HA2) as [HR HE]. split; [|exact HE].
            apply (rpost_trans n s n2 new s2); auto; [lia|congruence|]. intros j Hj. destruct HC as [HC|HC]; [assumption|].
            exfalso. exact (HS s2 HC j Hj).
        + destruct (HK n1 s1 HA1) as [HR HE]. split; [|exact HE]. apply (rpost_step n s n1 s1); auto. }
    split; [|split].
    - intros n s HA. cbn [j_parse_json parse_json].
      pose proof (skip_comments_erase n s HA) as [E1 E2]. destruct (skip_comments_at n s HA) as [HP HSk]. unfold skipped in HSk.
      destruct (j_skip o s) as [st s1], (consume_whitespace_and_comments o (s_rest s)) as [st' r1]. cbn [fst snd] in *. subst st' r1.
      destruct HSk as [[-> _]| ->]; [|split; [now apply rpost_invalid|reflexivity]].
      destruct HP as (n1 & new & Hn1 & HA1 & HL1 & _ & H5 & _). rewrite (H5 ltac:(discriminate)) in HL1. cbn [app] in HL1. clear H5 new.
      assert (HT : forall r out, good n1 s1 r out -> good n s r out).
      { intros r out [HR HE]. split; [|exact HE]. now apply (rpost_step n s n1 s1). }
      pose proof (at_get _ _ _ HA1) as HG.
      assert (HD : forall r out, good (S n1) (discard s1) r out -> good n1 s1 r out).
      { intros r out [HR HE]. split; [|exact HE]. apply (rpost_step n1 s1 (S n1) (discard s1)); auto. apply discard_log. }
      apply HT. pose proof (parse_value_at n1 s1) as HV.
      assert (HV' : good n1 s1 (j_parse_value fp s1) (let '(text, rest) := consume_value (s_rest s1) in match value_of_text fp text with Some j => Done j rest | None => Fail end)).
      { unfold good. apply HV; [assumption|]. now rewrite <- surjective_pairing. }
      destruct (s_rest s1) as [|c r] eqn:ER.
      + rewrite (peek_nil _ ER). exact HV'.
      + rewrite (peek_cons _ c r ER). rewrite <- ER in HV'.
        assert (ED : s_rest (discard s1) = r) by (rewrite discard_rest, ER; reflexivity).
        destruct (c =? 123); [rewrite <- ED; apply HD, IHo; assumption|].
        destruct (c =? 91); [rewrite <- ED; apply HD, IHa; assumption|].
        rewrite <- ER. destruct (c =? 34); [|exact HV'].
        destruct (j_parse_quoted_string s1) as [q s2] eqn:EQ. destruct (qstring_at n1 s1 q s2 HA1 EQ) as [HQ EP]. rewrite EP.
        destruct q as [text|]; [|split; [now apply rpost_invalid|reflexivity]].
        destruct HQ as (n2 & Hn2 & HA2 & HL2 & HLit). destruct (convert_to_string sg text) as [v|] eqn:EC; (split; [|reflexivity]).
        * exists n2, []. split; [assumption|]. split; [exact HA2|]. split; [exact HL2|]. split; constructor.
        * exists n2, []. split; [assumption|]. split; [exact HA2|]. split; [exact HL2|]. split; [constructor|]. split; [exact HLit|exact EC].
    - intros object n s HA. cbn [j_parse_object parse_object].
      apply (HOPEN 125 (nonempty object) n s
        (fun s2 => match j_parse_quoted_string s2 with
              | (None, s3) => (RNone, s3)
              | (Some key, s3) =>
                  match j_consume_token 58 s3 with
                  | (Invalid, s4) => (RNone, s4)
                  | (_, s4) =>
                      match j_parse_json fuel fp sg o s4 with
                      | (RValue value, s5) =>
                          match convert_to_string sg key with
                          | Some key' => j_parse_object fuel fp sg o (insert_or_assign key' value object) s5
                          | None => (RThrow key, s5)
                          end
                      | failed => failed
                      end
                  end
              end) (JObject object)
        (fun input2 => match parse_quoted_string input2 with
              | None => Fail
              | Some (key, input3) =>
                  match consume_token 58 input3 with
                  | (Invalid, _) => Fail
                  | (_, input4) =>
                      match parse_json fuel fp sg o input4 with
                      | Done value input5 =>
                          match convert_to_string sg key with
                          | Some key' => parse_object fuel fp sg o (insert_or_assign key' value object) input5
                          | None => Fail
                          end
                      | Fail => Fail
                      | OutOfFuel => OutOfFuel
                      end
                  end
              end)); auto.
      + intros n2 s2 HA2. destruct (j_parse_quoted_string s2) as [q s3] eqn:EQ. destruct (qstring_at n2 s2 q s3 HA2 EQ) as [HQ EP]. rewrite EP.
        destruct q as [key|]; [|split; [now apply rpost_invalid|reflexivity]].
        destruct HQ as (n3 & Hn3 & HA3 & HL3 & HLit).
        pose proof (token_erase 58 n3 s3 HA3 ltac:(lia)) as [E1 E2]. pose proof (token_at 58 n3 s3 HA3) as HP. pose proof (token_state 58 s3) as HTS.
        destruct (j_consume_token 58 s3) as [st s4], (consume_token 58 (s_rest s3)) as [st' r4]. cbn [fst snd] in *. subst st' r4.
        destruct HTS as [->| ->].
        { split; [|reflexivity]. cbn [fst snd]. apply rpost_invalid. now apply (post_trans n2 s2 n3 s3). }
        destruct HP as (n4 & new & Hn4 & HA4 & HL4 & _ & H5 & _). rewrite (H5 ltac:(discriminate)) in HL4. cbn [app] in HL4. clear H5 new.
        destruct (IHj n4 s4 HA4) as [HR HE]. destruct (j_parse_json fuel fp sg o s4) as [r s5]. cbn [fst snd] in *.
        assert (HR2 : RPost n2 s2 r s5) by (apply (rpost_step n2 s2 n4 s4); [lia|congruence|exact HR]).
        destruct r as [value| |text|]; cbn [er] in HE; rewrite HE; try (split; [exact HR2|reflexivity]).
        destruct HR as (n5 & new & Hn5 & HA5 & HL5 & HF5 & HS5). rewrite HL4, HL3 in HL5.
        destruct (convert_to_string sg key) as [key'|] eqn:EC.
        * destruct (IHo (insert_or_assign key' value object) n5 s5 HA5) as [HR' HE']. split; [|exact HE'].
          apply (rpost_trans n2 s2 n5 new s5); auto; lia.
        * split; [|reflexivity]. exists n5, new. split; [lia|]. split; [exact HA5|]. split; [exact HL5|]. split; [assumption|].
          split; [|assumption]. apply (literal_later n3); [lia|assumption].
      + intros s2 HS2 j. pose proof (qstring_stuck s2 HS2) as HQ. destruct (j_parse_quoted_string s2) as [q s3]. cbn [fst] in HQ. subst q. discriminate.
    - intros array n s HA. cbn [j_parse_array parse_array].
      apply (HOPEN 93 (nonempty array) n s
        (fun s2 => match j_parse_json fuel fp sg o s2 with
              | (RValue value, s3) => j_parse_array fuel fp sg o (array ++ [value]) s3
              | failed => failed
              end) (JArray array)
        (fun input2 => match parse_json fuel fp sg o input2 with
              | Done value input3 => parse_array fuel fp sg o (array ++ [value]) input3
              | Fail => Fail
              | OutOfFuel => OutOfFuel
              end)); auto.
      + intros n2 s2 HA2. destruct (IHj n2 s2 HA2) as [HR HE]. destruct (j_parse_json fuel fp sg o s2) as [r s3]. cbn [fst snd] in *.
        destruct r as [value| |text|]; cbn [er] in HE; rewrite HE; try (split; [exact HR|reflexivity]).
        destruct HR as (n3 & new & Hn3 & HA3 & HL3 & HF3 & HS3).
        destruct (IHa (array ++ [value]) n3 s3 HA3) as [HR' HE']. split; [|exact HE']. apply (rpost_trans n2 s2 n3 new s3); auto.
      + intros s2 HS2 j. pose proof (json_stuck fuel s2 HS2) as HQ. destruct (j_parse_json fuel fp sg o s2) as [r s3]. cbn [fst] in HQ.
        destruct r as [value| |text|]; try discriminate. exfalso. now apply (HQ value).
  Qed.

  (** ** The whole text *)
  Lemma internal_at fuel n s : At n s -> parse_json fuel fp sg o (s_rest s) <> OutOfFuel ->
    let result := j_parse_internal fuel fp sg o s in
    fst result = match parse_internal fuel fp sg o (s_rest s) with Some r => r | None => None end /\
    exists n' new, At n' (snd result) /\ s_log (snd result) = new ++ s_log s /\ Forall Truth new /\
      match fst result with
      | Some _ => Forall is_start new /\ s_rest (snd result) = []
      | None => new <> [] \/ s_rest (snd result) = []
      end.
  Proof.
    intros HA HFu. cbv zeta. unfold j_parse_internal, parse_internal. destruct (all_at fuel) as [HJ _]. destruct (HJ n s HA) as [HR HE].
    destruct (j_parse_json fuel fp sg o s) as [r s1]. cbn [fst snd] in *.
    destruct HR as (n1 & new1 & Hn1 & HA1 & HL1 & HF1 & HQ1).
    destruct (skip_comments_at n1 s1 HA1) as [HP HS]. pose proof (skip_comments_erase n1 s1 HA1) as [E1 E2].
    destruct (j_skip o s1) as [st s2], (consume_whitespace_and_comments o (s_rest s1)) as [st' r2] eqn:EW. cbn [fst snd] in *. subst st' r2.
    destruct HP as (n2 & new2 & Hn2 & HA2 & HL2 & HF2 & HK2 & HI2). unfold skipped in HS. cbn [fst snd] in HS.
    destruct r as [j| |text|]; cbn [er] in HE; rewrite HE; [| | |congruence].
    - (* a value *)
      rewrite EW.
      destruct HS as [[-> _]| ->].
      2: { cbn [fst snd]. split; [reflexivity|]. exists n2, (new2 ++ new1). split; [exact HA2|]. split; [rewrite HL2, HL1, app_assoc; reflexivity|].
           split; [apply Forall_app; auto|]. destruct (HI2 eq_refl) as [HX|HX]; [left|auto]. intros E. apply app_eq_nil in E. tauto. }
      rewrite (HK2 ltac:(discriminate)) in HL2. cbn [app] in HL2.
      pose proof (at_end_iff s2 (at_bytes _ _ _ HB HA2)) as HEnd. pose proof (at_peek _ _ _ HA2) as HPk.
      destruct (at_end s2) eqn:EE; cbn [negb].
      + assert (ER : s_rest s2 = []) by now apply HEnd. rewrite ER.
        destruct (negb (is_container j) && negb (allow_any_type o)); cbn [fst snd]; (split; [reflexivity|]).
        * destruct (log_at n2 s2 MNotContainer HA2) as [EL HT]. exists n2, (Warning (s_line s2) (s_column s2) MNotContainer :: new1).
          split; [exact HA2|]. split; [rewrite EL, HL2, HL1; reflexivity|]. split; [|left; discriminate].
          constructor; [|assumption]. apply HT. cbn [truthful]. apply skipn_nil_ge. destruct HA2 as (<- & _). exact ER.
        * exists n2, new1. split; [exact HA2|]. split; [congruence|]. split; [assumption|]. split; assumption.
      + destruct (s_rest s2) as [|c r2] eqn:ER; [exfalso; destruct HEnd as [_ HEnd]; specialize (HEnd eq_refl); discriminate|].
        cbn [fst snd]. split; [reflexivity|]. destruct (log_at n2 s2 (MExtraneous (peek s2)) HA2) as [EL HT].
        exists n2, (Warning (s_line s2) (s_column s2) (MExtraneous (peek s2)) :: new1).
        split; [exact HA2|]. split; [rewrite EL, HL2, HL1; reflexivity|]. split; [|left; discriminate].
        constructor; [|assumption]. apply HT. cbn [truthful]. split; [now rewrite HPk|]. destruct HA2 as (EA & _). rewrite ER in EA.
        now apply (skipn_cons_lt _ _ c r2).
    - (* no value *)
      assert (HD : forall x : option json * jstream, (let '(a, b) := x in a = None /\ b = s2) -> 
        fst x = None /\ exists n' new, At n' (snd x) /\ s_log (snd x) = new ++ s_log s /\ Forall Truth new /\
          match fst x with Some _ => Forall is_start new /\ s_rest (snd x) = [] | None => new <> [] \/ s_rest (snd x) = [] end).
      { intros [a b] [-> ->]. cbn [fst snd]. split; [reflexivity|]. exists n2, (new2 ++ new1). split; [exact HA2|].
        split; [rewrite HL2, HL1, app_assoc; reflexivity|]. split; [apply Forall_app; auto|].
        destruct HQ1 as [HX|HX]; [left; intros E; apply app_eq_nil in E; tauto|]. right.
        destruct HA1 as (EA1 & _), HA2 as (EA2 & _). rewrite EA1 in HX. rewrite EA2. apply skipn_nil_ge in HX. apply skipn_all2. lia. }
      apply HD. destruct st; auto.
    - (* an exception *)
      cbn [fst snd]. split; [reflexivity|]. destruct HQ1 as [HLit HC]. destruct (log_at n1 s1 (MException text) HA1) as [EL HT].
      exists n1, (Warning (s_line s1) (s_column s1) (MException text) :: new1). split; [exact HA1|]. split; [rewrite EL, HL1; reflexivity|].
      split; [|left; discriminate]. constructor; [|assumption]. apply HT. cbn [truthful]. destruct HLit as (k & H1 & H2). exists k. auto.
  Qed.
End json.
