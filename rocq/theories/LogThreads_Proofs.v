(** Invariants of LogThreads_Model. *)
From Verif Require Import Common LogThreads_Model LogThreads_Spec.

Lemma agent_eqb_spec a b : reflect (a = b) (agent_eqb a b).
Proof. destruct a as [t|], b as [u|]; cbn; try (constructor; congruence). destruct (Nat.eqb_spec t u); constructor; congruence. Qed.
Lemma move_same s a p : move s a p a = p.
Proof. unfold move. destruct (agent_eqb_spec a a); congruence. Qed.
Lemma move_other s a b p : b <> a -> move s a p b = at_ s b.
Proof. intros N. unfold move. destruct (agent_eqb_spec b a); congruence. Qed.

(** * Histories *)
Lemma split_snoc {A} (h : list A) e a x z : h ++ [e] = a ++ x :: z ->
  (z = [] /\ e = x /\ h = a) \/ (exists z', z = z' ++ [e] /\ h = a ++ x :: z').
Proof.
  intros E. destruct (exists_last (l := x :: z) ltac:(discriminate)) as (y & l & E'). rewrite E' in E. rewrite app_assoc in E.
  apply app_inj_tail in E as [-> ->]. destruct y as [|x' y]; cbn in E'; injection E' as -> ->.
  - left. now rewrite app_nil_r.
  - right. now exists y.
Qed.
Lemma records_app a b : records (a ++ b) = records a ++ records b.
Proof. induction a as [|[] a IH]; cbn; congruence. Qed.
Lemma calls_app a b : calls (a ++ b) = calls a ++ calls b.
Proof. induction a as [|[] a IH]; cbn; congruence. Qed.
Lemma posts_app a b : posts (a ++ b) = posts a ++ posts b.
Proof. induction a as [|[] a IH]; cbn; congruence. Qed.
Definition closed (h : list event) : Prop := forall a c i m, h = a ++ EBegin c i :: m -> exists b, In (EEnd c i b) m.
(** Events that are no begin of a sink call and no refusal. *)
Definition plain (e : event) : Prop := match e with EBegin _ _ | EEnd _ _ false => False | _ => True end.
Lemma closed_plain h e : plain e -> closed h -> closed (h ++ [e]).
Proof.
  intros P C a c i m E. apply split_snoc in E as [(-> & -> & ->)|(z & -> & ->)]; [destruct P|]. destruct (C _ _ _ _ eq_refl) as (b & I).
  exists b. apply in_app_iff. auto.
Qed.
Lemma alternate_plain h e : match e with EBegin _ _ => False | _ => True end -> one_at_a_time h -> one_at_a_time (h ++ [e]).
Proof.
  intros P O a c i m d j z E. apply split_snoc in E as [(E & _ & _)|(z' & E & ->)]; [destruct m; discriminate|].
  symmetry in E. apply split_snoc in E as [(-> & -> & ->)|(y & -> & ->)]; [destruct P|]. exact (O _ _ _ _ _ _ _ eq_refl).
Qed.
Lemma alternate_begin h d j : closed h -> one_at_a_time h -> one_at_a_time (h ++ [EBegin d j]).
Proof.
  intros C O a c i m d' j' z E. apply split_snoc in E as [(E & _ & _)|(z' & E & ->)]; [destruct m; discriminate|].
  symmetry in E. apply split_snoc in E as [(-> & _ & ->)|(y & -> & ->)].
  - exact (C _ _ _ _ eq_refl).
  - exact (O _ _ _ _ _ _ _ eq_refl).
Qed.
Lemma final_not_begin h e : match e with EBegin _ _ => False | _ => True end -> failure_is_final h -> failure_is_final (h ++ [e]).
Proof.
  intros P F a c i m d j E I. apply split_snoc in E as [(-> & _ & _)|(z & -> & ->)]; [destruct I|].
  apply in_app_iff in I as [I|[->|[]]]; [exact (F _ _ _ _ _ _ eq_refl I)|destruct P].
Qed.
Lemma final_begin h d j : ~ refused h -> failure_is_final h -> failure_is_final (h ++ [EBegin d j]).
Proof.
  intros R F a c i m d' j' E I. apply split_snoc in E as [(-> & _ & _)|(z & -> & ->)]; [destruct I|].
  destruct R. exists c, i. apply in_app_iff. right. now left.
Qed.
Lemma refused_app h l : refused (h ++ l) <-> refused h \/ refused l.
Proof. unfold refused. setoid_rewrite in_app_iff. firstorder. Qed.
Lemma refused_plain h e : plain e -> (refused (h ++ [e]) <-> refused h).
Proof.
  intros P. rewrite refused_app. split; [intros [H|(c & i & [->|[]])]|]; auto; destruct P.
Qed.
Lemma numbered_begin h c : numbered (records h) -> numbered (records (h ++ [EBegin c (u64 (Z.of_nat (length (records h))))])).
Proof.
  unfold numbered. intros N. rewrite records_app, map_app, app_length, N. cbn [records map length snd].
  replace (length (records h) + 1)%nat with (S (length (records h))) by lia. rewrite seq_S, map_app. reflexivity.
Qed.

(** * One agent at a time in log_to_sink *)
Definition count (s : state) : Z := u64 (Z.of_nat (length (records (hist s)))).
Record data (s : state) (cur : pc) : Prop := Data {
  d_numbered : numbered (records (hist s));
  d_alternate : one_at_a_time (hist s);
  d_final : failure_is_final (hist s);
  d_cur : match cur with
          | Counted c i => i = count s /\ index s = count s
          | Ready c i => i = count s /\ index s = u64 (count s + 1)
          | _ => index s = count s
          end;
  d_open : match cur with
           | Sinking c i => exists x m, hist s = x ++ EBegin c i :: m /\ closed x /\ records m = []
           | _ => closed (hist s)
           end;
  d_failed : failed s = true -> cur = Outside;
  d_refused : refused (hist s) <-> failed s = true \/ exists c, cur = Leaving c false }.
Definition shape (async : bool) (s : state) : Prop :=
  forall a, match at_ s a with
            | Outside => True
            | Passed c => match a with Client t => who c = t | Worker => async = true end
            | _ => executes async a
            end.
Definition pending (cur : pc) : option call :=
  match cur with Outside => None | Passed c | Counted c _ | Ready c _ | Sinking c _ | Leaving c _ => Some c end.
Record core (async : bool) (s : state) (w : agent) : Prop := Core {
  c_exec : executes async w;
  c_alone : forall a, executes async a -> a <> w -> at_ s a = Outside;
  c_data : data s (at_ s w);
  c_called : async = false -> forall c, pending (at_ s w) = Some c -> exists x m, hist s = x ++ ECall c :: m /\ ~ In (EReturn c) m }.

Lemma shape_step async s s' : shape async s -> step async s s' -> shape async s'.
Proof.
  intros H T. destruct T; intros x; cbn [at_]; try exact (H x);
    match goal with |- context [move s ?y ?p x] => destruct (agent_eqb_spec x y) as [->|N]; [rewrite move_same|rewrite move_other by exact N; exact (H x)] end; auto;
    match goal with K : at_ s ?a = _ |- _ => pose proof (H a) as Ha; rewrite K in Ha; exact Ha end.
Qed.
Lemma shape_reaches async s : reaches async s -> shape async s.
Proof. induction 1 as [|s s' R IH T]; [intros a; exact I|eapply shape_step; eauto]. Qed.

Lemma data_plain s s' cur cur' e : data s cur -> hist s' = hist s ++ [e] -> plain e -> match e with EEnd _ _ _ => False | _ => True end ->
  index s' = index s -> failed s' = failed s -> cur' = cur -> data s' cur'.
Proof.
  intros [N A F C O D R] E P PE EI EF ->. assert (NB : match e with EBegin _ _ => False | _ => True end) by (destruct e; auto).
  assert (RE : records (hist s') = records (hist s)) by (rewrite E, records_app; destruct e; cbn; try tauto; apply app_nil_r).
  assert (CE : count s' = count s) by (unfold count; now rewrite RE).
  constructor.
  - now rewrite RE.
  - rewrite E. now apply alternate_plain.
  - rewrite E. now apply final_not_begin.
  - now rewrite CE, EI.
  - destruct cur; try (rewrite E; apply closed_plain; assumption). destruct O as (x & m & E2 & Cx & M). exists x, (m ++ [e]).
    rewrite E, E2, <- app_assoc. split; [reflexivity|]. split; [exact Cx|]. rewrite records_app, M. destruct e; cbn; tauto.
  - now rewrite EF.
  - rewrite E, refused_plain by assumption. now rewrite EF.
Qed.
Lemma called_more h x m c e : h = x ++ ECall c :: m -> ~ In (EReturn c) m -> e <> EReturn c -> exists x' m', h ++ [e] = x' ++ ECall c :: m' /\ ~ In (EReturn c) m'.
Proof.
  intros -> N NE. exists x, (m ++ [e]). rewrite <- app_assoc. split; [reflexivity|]. rewrite in_app_iff. cbn. intuition.
Qed.

Lemma no_overlap_app h l : no_overlap (h ++ l) -> no_overlap h.
Proof. intros H a c m d z ->. apply (H a c m d (z ++ l)). rewrite <- app_assoc. cbn. now rewrite <- app_assoc. Qed.
Lemma step_hist async s s' : step async s s' -> exists l, hist s' = hist s ++ l.
Proof. intros T. destruct T; cbn [hist]; eexists; try reflexivity; symmetry; apply app_nil_r. Qed.

(** The agent that acts in log_to_sink is the only one. *)
Lemma core_actor async s w a : core async s w -> executes async a -> at_ s a <> Outside -> a = w.
Proof. intros [_ A _ _] X N. destruct (agent_eqb_spec a w) as [|NE]; [assumption|]. destruct N. now apply A. Qed.
Lemma alone_move async s w p a : (forall a, executes async a -> a <> w -> at_ s a = Outside) -> executes async a -> a <> w -> move s w p a = Outside.
Proof. intros A X N. rewrite move_other by exact N. now apply A. Qed.

Lemma core_step async s s' w : shape async s -> core async s w -> step async s s' -> (async = true \/ no_overlap (hist s')) -> exists w', core async s' w'.
Proof.
  intros SH C T OV. pose proof C as [X A D K].
  assert (ACT : forall a p, at_ s a = p -> p <> Outside -> (forall c, p <> Passed c) -> a = w /\ at_ s w = p).
  { intros a p E N1 N2. pose proof (SH a) as Sa. rewrite E in Sa. assert (a = w) as <-; [|auto]. apply (core_actor _ _ _ _ C); [|congruence].
    destruct p; try congruence; try exact Sa; now destruct (N2 c). }
  inversion T; subst; cbn [hist] in OV.
  - (* discard *)
    exists w. constructor; [exact X|exact A| |]; cbn [at_].
    + eapply (data_plain (State (failed s) (index s) (queue s) (at_ s) (alive s) (running s) ((hist s ++ [ECall c]) ++ [EDiscard c])) _ _ _ (EReturn c));
        try reflexivity; try exact I; cbn [hist]; [|rewrite <- !app_assoc; reflexivity].
      eapply (data_plain (State (failed s) (index s) (queue s) (at_ s) (alive s) (running s) (hist s ++ [ECall c])) _ _ _ (EDiscard c)); try reflexivity; try exact I.
      eapply (data_plain s _ _ _ (ECall c)); try reflexivity; try exact I. exact D.
    + intros EA d P. cbn [hist]. exfalso. destruct OV as [?|OV]; [congruence|]. destruct (K EA _ P) as (x & m & E & N). apply N.
      apply (OV x d m c [EDiscard c; EReturn c]). rewrite E, <- app_assoc. reflexivity.
  - (* call *)
    destruct async.
    + exists w. destruct w as [t|]; [discriminate X|]. constructor; [exact X| | |discriminate]; cbn [at_].
      * intros [t|] Xa N; [discriminate Xa|congruence].
      * rewrite move_other by discriminate. eapply (data_plain s _ _ _ (ECall c)); try reflexivity; try exact I. exact D.
    + assert (OUT : at_ s w = Outside).
      { destruct OV as [?|OV]; [discriminate|]. destruct (pending (at_ s w)) as [d|] eqn:P; [|destruct (at_ s w); try discriminate P; reflexivity].
        exfalso. destruct (K eq_refl _ eq_refl) as (x & m & E & N). apply N. apply (OV x d m c []). rewrite E, <- app_assoc. reflexivity. }
      exists (Client (who c)). constructor; [reflexivity| | |]; cbn [at_].
      * intros a Xa N. rewrite move_other by exact N. destruct (agent_eqb_spec a w) as [->|]; [exact OUT|now apply A].
      * rewrite move_same. rewrite OUT in D.
        pose proof (data_plain s (State (failed s) (index s) (queue s) (at_ s) (alive s) (running s) (hist s ++ [ECall c])) _ Outside (ECall c) D eq_refl I I eq_refl eq_refl eq_refl) as [N0 A0 F0 C0 O0 D0 R0].
        assert (NF : failed s = false) by (match goal with H : rejects s c = false |- _ => unfold rejects in H; destruct (failed s); [discriminate H|reflexivity] end).
        constructor; try assumption; cbn [failed hist index] in *.
        -- intros E. congruence.
        -- rewrite R0, NF. split; [intros [?|(? & ?)]; discriminate|intros [?|(? & ?)]; discriminate].
      * intros _ d P. rewrite move_same in P. injection P as <-. exists (hist s), []. split; [reflexivity|intros []].
  - (* post *)
    destruct w as [u|]; [discriminate X|]. exists Worker. constructor; [reflexivity| | |discriminate]; cbn [at_].
    + intros [u|] Xa N; [discriminate Xa|congruence].
    + rewrite move_other by discriminate.
      eapply (data_plain (State (failed s) (index s) (queue s) (at_ s) (alive s) (running s) (hist s ++ [EPost c])) _ _ _ (EReturn c));
        try reflexivity; try exact I; cbn [hist]; [|rewrite <- !app_assoc; reflexivity].
      eapply (data_plain s _ _ _ (EPost c)); try reflexivity; try exact I. exact D.
  - (* refuse *)
    destruct w as [u|]; [discriminate X|]. exists Worker. constructor; [reflexivity| | |discriminate]; cbn [at_].
    + intros [u|] Xa N; [discriminate Xa|congruence].
    + rewrite move_other by discriminate.
      eapply (data_plain (State (failed s) (index s) (queue s) (at_ s) (alive s) (running s) (hist s ++ [ERefuse c])) _ _ _ (EReturn c));
        try reflexivity; try exact I; cbn [hist]; [|rewrite <- !app_assoc; reflexivity].
      eapply (data_plain s _ _ _ (ERefuse c)); try reflexivity; try exact I. exact D.
  - (* skip *)
    exists w. constructor; [exact X|exact A| |discriminate]. eapply (data_plain s _ _ _ (ESkip c)); try reflexivity; try exact I. exact D.
  - (* start *)
    destruct w as [u|]; [discriminate X|]. exists Worker. constructor; [reflexivity| | |discriminate]; cbn [at_].
    + intros [u|] Xa N; [discriminate Xa|congruence].
    + rewrite move_same. match goal with H : at_ s Worker = Outside |- _ => rewrite H in D end. destruct D as [N0 A0 F0 C0 O0 D0 R0].
      constructor; try assumption; cbn [failed hist index] in *.
      -- congruence.
      -- rewrite R0. match goal with H : failed s = false |- _ => rewrite H end. split; intros [?|(? & ?)]; discriminate.
  - (* load *)
    match goal with H : executes _ ?a, E : at_ s ?a = _ |- _ => pose proof (core_actor _ _ _ _ C H ltac:(congruence)) as ->; rename E into EP end.
    exists w. constructor; [exact X|intros; now apply alone_move with (async := async)| |].
    + cbn [at_]. rewrite move_same. rewrite EP in D. destruct D as [N0 A0 F0 C0 O0 D0 R0]. constructor; try assumption; cbn [failed hist index] in *.
      * unfold count in *. cbn [hist]. auto.
      * intros E. discriminate (D0 E).
      * rewrite R0. split; intros [?|(? & ?)]; auto; discriminate.
    + intros EA d. cbn [at_ hist]. rewrite move_same. intros P. apply (K EA). rewrite EP. exact P.
  - (* store *)
    match goal with E : at_ s a = _ |- _ => destruct (ACT _ _ E ltac:(discriminate) ltac:(discriminate)) as [-> EP] end.
    exists w. constructor; [exact X|intros; now apply alone_move with (async := async)| |].
    + cbn [at_]. rewrite move_same. rewrite EP in D. destruct D as [N0 A0 F0 C0 O0 D0 R0]. constructor; try assumption; cbn [failed hist index] in *.
      * unfold count in *. cbn [hist]. destruct C0 as [-> _]. auto.
      * intros E. discriminate (D0 E).
      * rewrite R0. split; intros [?|(? & ?)]; auto; discriminate.
    + intros EA d. cbn [at_ hist]. rewrite move_same. intros P. apply (K EA). rewrite EP. exact P.
  - (* begin *)
    match goal with E : at_ s a = _ |- _ => destruct (ACT _ _ E ltac:(discriminate) ltac:(discriminate)) as [-> EP] end.
    exists w. constructor; [exact X|intros; now apply alone_move with (async := async)| |].
    + cbn [at_]. rewrite move_same. rewrite EP in D. destruct D as [N0 A0 F0 C0 O0 D0 R0]. destruct C0 as [-> C0].
      assert (NR : ~ refused (hist s)) by (rewrite R0; intros [E|(? & ?)]; [discriminate (D0 E)|discriminate]).
      constructor; cbn [failed hist index].
      * apply numbered_begin, N0.
      * now apply alternate_begin.
      * now apply final_begin.
      * rewrite C0. unfold count. cbn [hist]. rewrite records_app, app_length. cbn [records length]. unfold u64, wrap. rewrite Zplus_mod_idemp_l. f_equal. lia.
      * exists (hist s), []. auto.
      * intros E. discriminate (D0 E).
      * rewrite refused_app. split; [intros [?|(? & ? & [?|[]])]; [tauto|discriminate]|]. intros [E|(? & ?)]; [discriminate (D0 E)|discriminate].
    + intros EA d. cbn [at_ hist]. rewrite move_same. intros P. destruct (K EA d) as (x & m & E & N); [rewrite EP; exact P|].
      now apply (called_more _ x m).
  - (* end *)
    match goal with E : at_ s a = _ |- _ => destruct (ACT _ _ E ltac:(discriminate) ltac:(discriminate)) as [-> EP] end.
    exists w. constructor; [exact X|intros; now apply alone_move with (async := async)| |].
    + cbn [at_]. rewrite move_same. rewrite EP in D. destruct D as [N0 A0 F0 C0 O0 D0 R0].
      constructor; cbn [failed hist index].
      * rewrite records_app. cbn. now rewrite app_nil_r.
      * now apply alternate_plain.
      * now apply final_not_begin.
      * unfold count in *. cbn [hist]. rewrite records_app. cbn. now rewrite app_nil_r.
      * destruct O0 as (x & m & E & Cx & M). rewrite E. intros y d j z E'. rewrite <- app_assoc in E'. cbn in E'.
        destruct (app_eq_app _ _ _ _ E') as (l & [(-> & E2)|(-> & E2)]).
        -- destruct l as [|e l]; cbn in E2; injection E2 as; subst.
           ++ exists b. apply in_app_iff. cbn. auto.
           ++ destruct (Cx _ _ _ _ eq_refl) as (b' & I'). exists b'. apply in_app_iff. auto.
        -- destruct l as [|e l]; cbn in E2; injection E2 as; subst.
           ++ exists b. apply in_app_iff. cbn. auto.
           ++ match goal with E3 : _ ++ [EEnd _ _ _] = _ |- _ => apply split_snoc in E3 as [(_ & ? & _)|(z' & -> & ->)] end; [discriminate|]. exfalso. rewrite records_app in M. cbn in M. destruct (records l); discriminate.
      * intros E. discriminate (D0 E).
      * rewrite refused_app, R0. split.
        -- intros [[?|(? & ?)]|(? & ? & [E|[]])]; [auto|discriminate|]. injection E as -> -> ->. eauto.
        -- intros [E|(d & E)]; [auto|]. injection E as -> ->. right. exists d, i. cbn. auto.
    + intros EA d. cbn [at_ hist]. rewrite move_same. intros P. destruct (K EA d) as (x & m & E & N); [rewrite EP; exact P|].
      now apply (called_more _ x m).
  - (* leave *)
    match goal with E : at_ s a = _ |- _ => destruct (ACT _ _ E ltac:(discriminate) ltac:(discriminate)) as [-> EP] end.
    exists w. constructor; [exact X|intros; now apply alone_move with (async := async)| |].
    + cbn [at_]. rewrite move_same. rewrite EP in D. destruct D as [N0 A0 F0 C0 O0 D0 R0].
      assert (G : data (State (negb b) (index s) (queue s) (move s w Outside) (alive s) (running s) (hist s)) Outside).
      { constructor; try assumption; cbn [failed hist index]; [auto|]. rewrite R0. split.
        - intros [E|(d & E)]; [discriminate (D0 E)|]. injection E as -> ->. auto.
        - intros [E|(d & E)]; [|discriminate]. destruct b; [discriminate|]. eauto. }
      destruct w as [t|].
      * eapply (data_plain _ _ _ _ (EReturn c) G); try reflexivity; exact I.
      * rewrite app_nil_r. exact G.
    + intros EA d. cbn [at_ hist]. rewrite move_same. discriminate.
  - (* destroy *)
    exists w. constructor; [exact X|exact A| |].
    + eapply (data_plain s _ _ _ EDestroy); try reflexivity; try exact I. exact D.
    + intros EA d. cbn [at_ hist]. intros P. destruct (K EA d P) as (x & m & E & N). now apply (called_more _ x m).
  - (* stop *)
    exists w. constructor; [exact X|exact A| |].
    + eapply (data_plain s _ _ _ EStop); try reflexivity; try exact I. exact D.
    + intros EA d. cbn [at_ hist]. intros P. destruct (K EA d P) as (x & m & E & N). now apply (called_more _ x m).
Qed.
Lemma core_initial async : exists w, core async initial w.
Proof.
  exists (if async then Worker else Client 0). constructor.
  - now destruct async.
  - reflexivity.
  - constructor; cbn.
    + reflexivity.
    + intros a c i m d j z E. destruct a; discriminate.
    + intros a c i m d j E. destruct a; discriminate.
    + reflexivity.
    + intros a c i m E. destruct a; discriminate.
    + reflexivity.
    + split; [intros (? & ? & [])|intros [?|(? & ?)]; discriminate].
  - intros _ c P. destruct async; discriminate.
Qed.
Lemma core_reaches async s : reaches async s -> async = true \/ no_overlap (hist s) -> exists w, core async s w.
Proof.
  induction 1 as [|s s' R IH T]; intros OV; [apply core_initial|]. destruct IH as (w & C).
  - destruct OV as [?|OV]; [auto|]. right. destruct (step_hist _ _ _ T) as (l & E). rewrite E in OV. exact (no_overlap_app _ _ OV).
  - eapply core_step; eauto. now apply shape_reaches.
Qed.

(** * Order *)
Lemma sub_refl {A} (l : list A) : subsequence l l.
Proof. induction l; constructor; assumption. Qed.
Lemma sub_trans {A} (a b c : list A) : subsequence a b -> subsequence b c -> subsequence a c.
Proof.
  intros H1 H2. revert a H1. induction H2 as [|x b c H2 IH|x b c H2 IH]; intros a H1; [assumption| |].
  - inversion H1; subst; constructor; auto.
  - constructor; auto.
Qed.
Lemma sub_more {A} (a b c : list A) : subsequence a b -> subsequence (a ++ c) (b ++ c).
Proof. induction 1; cbn; [apply sub_refl|now constructor|now constructor]. Qed.
Lemma sub_extend {A} (a b c : list A) : subsequence a b -> subsequence a (b ++ c).
Proof. induction 1; cbn; [|now constructor|now constructor]. induction c; constructor; assumption. Qed.
Lemma sub_front {A} (a b c : list A) : subsequence a b -> subsequence (c ++ a) (c ++ b).
Proof. intros H. induction c; cbn; [assumption|now constructor]. Qed.
Lemma sub_less {A} (a b c : list A) x : subsequence (a ++ x :: b) c -> subsequence (a ++ b) c.
Proof. apply sub_trans. apply sub_front. constructor. apply sub_refl. Qed.
Lemma sub_prefix {A} (a b c : list A) : subsequence (a ++ b) c -> subsequence a c.
Proof. apply sub_trans. apply sub_extend, sub_refl. Qed.
Lemma sub_filter {A} (f : A -> bool) a b : subsequence a b -> subsequence (filter f a) (filter f b).
Proof. induction 1; cbn; [constructor|destruct (f x); [now constructor|assumption]|destruct (f x); [now constructor|assumption]]. Qed.

Definition written (h : list event) : list call := map fst (records h).
Definition inflight (p : pc) : list call := match p with Passed c | Counted c _ | Ready c _ => [c] | _ => [] end.
Lemma written_app a b : written (a ++ b) = written a ++ written b.
Proof. unfold written. now rewrite records_app, map_app. Qed.
Lemma rejects_level s c : rejects s c = false -> a_level c = true.
Proof. unfold rejects, a_level. lia. Qed.
Lemma discard_level s c : rejects s c = true -> failed s = true \/ a_level c = false.
Proof. unfold rejects, a_level. destruct (failed s); [auto|]. right. lia. Qed.

(** With a task runner. *)
Record ordered (s : state) : Prop := Ordered {
  o_posts : subsequence (written (hist s) ++ inflight (at_ s Worker) ++ queue s) (posts (hist s));
  o_all : (forall c, ~ In (ESkip c) (hist s)) -> written (hist s) ++ inflight (at_ s Worker) ++ queue s = posts (hist s);
  o_calls : forall t, subsequence (of_thread t (posts (hist s)) ++ inflight (at_ s (Client t))) (of_thread t (calls (hist s)));
  o_levels : ~ refused (hist s) -> ~ In EStop (hist s) ->
    forall t, of_thread t (posts (hist s)) ++ inflight (at_ s (Client t)) = of_thread t (filter a_level (calls (hist s)));
  o_failed : failed s = true -> refused (hist s);
  o_alive : alive s = false -> In EDestroy (hist s);
  o_running : running s = false -> In EStop (hist s);
  o_skips : forall c, In (ESkip c) (hist s) -> refused (hist s) \/ In EDestroy (hist s) }.
Lemma of_app t a b : of_thread t (a ++ b) = of_thread t a ++ of_thread t b.
Proof. apply filter_app. Qed.
Lemma of_one t c : of_thread t [c] = if (who c =? t)%nat then [c] else [].
Proof. reflexivity. Qed.
Lemma move_client s t u p : move s (Client t) p (Client u) = if (u =? t)%nat then p else at_ s (Client u).
Proof. reflexivity. Qed.
Ltac flat := rewrite ?written_app, ?posts_app, ?calls_app, ?filter_app, ?of_app; cbn [written records posts calls filter map fst app]; rewrite ?app_nil_r.
Lemma ordered_step s s' : reaches true s -> ordered s -> step true s s' -> ordered s'.
Proof.
  intros R [P Q C L F A N K] T.
  assert (R' : reaches true s') by (econstructor; eauto).
  pose proof (core_reaches _ _ R' (or_introl eq_refl)) as (w' & C').
  assert (F' : failed s' = true -> refused (hist s')) by (intros E; apply (d_refused _ _ (c_data _ _ _ C')); auto).
  pose proof (shape_reaches _ _ R) as SH.
  assert (WC : forall a c, at_ s a = Passed c -> forall t, a = Client t -> who c = t) by (intros a c E t ->; pose proof (SH (Client t)) as S0; now rewrite E in S0).
  assert (RM : forall l, ~ refused (hist s ++ l) -> ~ refused (hist s)) by (intros l; rewrite refused_app; tauto).
  assert (SM : forall l, ~ In EStop (hist s ++ l) -> ~ In EStop (hist s)) by (intros l; rewrite in_app_iff; tauto).
  assert (KM : forall l, (forall c, ~ In (ESkip c) (hist s ++ l)) -> forall c, ~ In (ESkip c) (hist s)) by (intros l H c; specialize (H c); rewrite in_app_iff in H; tauto).
  assert (AM : forall e l, In e (hist s) -> In e (hist s ++ l)) by (intros; apply in_app_iff; auto).
  assert (WK : forall a p, at_ s a = p -> p <> Outside -> (forall c, p <> Passed c) -> a = Worker).
  { intros a p E N1 N2. pose proof (SH a) as Sa. rewrite E in Sa. destruct a as [t|]; [exfalso|reflexivity]. destruct p; try congruence; discriminate Sa. }
  inversion T; subst;
    try match goal with X : at_ s ?a = ?p |- _ => pose proof (WK a p X ltac:(discriminate) ltac:(discriminate)) as -> end;
    (constructor; [..|exact F'| | |]); cbn [hist at_ queue failed alive running] in *; rewrite ?app_nil_r in *;
    try (intros E; rewrite in_app_iff; cbn; solve [auto | congruence]);
    try (let e := fresh in intros e I1; apply in_app_iff in I1 as [I1|I1]; [|exfalso; cbn in I1; intuition discriminate]; destruct (K _ I1) as [K1|K1]; [left; rewrite refused_app; auto|right; apply AM, K1]);
    try assumption.
  (* discard *)
  - flat. exact P.
  - intros G. flat. apply Q, (KM _ G).
  - intros t. flat. apply sub_extend, C.
  - intros HR HS t. flat. destruct (discard_level s c ltac:(assumption)) as [E|E]; [destruct (HR (F' E))|]. rewrite E. cbn [of_thread filter app]. rewrite app_nil_r.
    apply L; [exact (RM _ HR)|exact (SM _ HS)].
  (* call *)
  - flat. exact P.
  - intros G. flat. apply Q, (KM _ G).
  - intros t. flat. rewrite move_client, of_one, (Nat.eqb_sym t). destruct (Nat.eqb_spec (who c) t) as [<-|NE].
    + cbn [inflight]. apply sub_more. pose proof (C (who c)) as C1. replace (at_ s (Client (who c))) with Outside in C1 by congruence. cbn in C1. now rewrite app_nil_r in C1.
    + rewrite app_nil_r. apply C.
  - intros HR HS t. flat. rewrite (rejects_level s c) by assumption. rewrite move_client, of_one, (Nat.eqb_sym t). specialize (L (RM _ HR) (SM _ HS) t). destruct (Nat.eqb_spec (who c) t) as [<-|NE].
    + replace (at_ s (Client (who c))) with Outside in L by congruence. cbn [inflight] in *. rewrite app_nil_r in L. now rewrite L.
    + rewrite app_nil_r. exact L.
  (* post *)
  - flat. rewrite move_other by discriminate. rewrite !app_assoc. apply sub_more. rewrite <- app_assoc. exact P.
  - intros G. flat. rewrite move_other by discriminate. rewrite !app_assoc. f_equal. rewrite <- app_assoc. apply Q, (KM _ G).
  - intros u. flat. rewrite move_client, of_one. rewrite (WC _ _ ltac:(eassumption) t eq_refl). rewrite (Nat.eqb_sym t). destruct (Nat.eqb_spec u t) as [->|NE].
    + cbn [inflight]. rewrite app_nil_r. pose proof (C t) as C1. replace (at_ s (Client t)) with (Passed c) in C1 by congruence. exact C1.
    + rewrite app_nil_r. apply C.
  - intros HR HS u. flat. rewrite move_client, of_one. rewrite (WC _ _ ltac:(eassumption) t eq_refl). rewrite (Nat.eqb_sym t). specialize (L (RM _ HR) (SM _ HS) u). destruct (Nat.eqb_spec u t) as [->|NE].
    + cbn [inflight]. rewrite app_nil_r. replace (at_ s (Client t)) with (Passed c) in L by congruence. exact L.
    + rewrite app_nil_r. exact L.
  (* refuse *)
  - flat. rewrite move_other by discriminate. exact P.
  - intros G. flat. rewrite move_other by discriminate. apply Q, (KM _ G).
  - intros u. flat. rewrite move_client. destruct (Nat.eqb_spec u t) as [->|NE]; [|apply C]. cbn [inflight]. rewrite app_nil_r. exact (sub_prefix _ _ _ (C t)).
  - intros HR HS u. exfalso. apply (SM _ HS), N. assumption.
  (* skip *)
  - flat. apply (sub_less _ _ _ c). replace (queue s) with (c :: q) in P by congruence. replace (at_ s Worker) with Outside in * by congruence. exact P.
  - intros G. exfalso. apply (G c). apply in_app_iff. cbn. auto.
  - intros t. flat. apply C.
  - intros HR HS t. flat. apply L; [exact (RM _ HR)|exact (SM _ HS)].
  - intros e I1. apply in_app_iff in I1 as [I1|I1].
    + destruct (K _ I1) as [K1|K1]; [left; rewrite refused_app; auto|right; apply AM, K1].
    + match goal with H : alive s = false \/ failed s = true |- _ => destruct H as [Y|Y] end; [right; apply AM, A, Y|left; rewrite refused_app; auto].
  (* start *)
  - rewrite move_same. replace (queue s) with (c :: q) in P by congruence. replace (at_ s Worker) with Outside in * by congruence. exact P.
  - intros G. rewrite move_same. replace (queue s) with (c :: q) in Q by congruence. replace (at_ s Worker) with Outside in * by congruence. exact (Q G).
  (* load *)
  - destruct a as [t|]; [match goal with X : executes true _ |- _ => discriminate X end|]. rewrite move_same. replace (at_ s Worker) with (Passed c) in * by congruence. exact P.
  - destruct a as [t|]; [match goal with X : executes true _ |- _ => discriminate X end|]. rewrite move_same. replace (at_ s Worker) with (Passed c) in * by congruence. exact Q.
  - intros t. destruct a as [u|]; [match goal with X : executes true _ |- _ => discriminate X end|]. rewrite move_other by discriminate. apply C.
  - intros HR HS t. destruct a as [u|]; [match goal with X : executes true _ |- _ => discriminate X end|]. rewrite move_other by discriminate. now apply L.
  (* store *)
  - rewrite move_same. replace (at_ s Worker) with (Counted c i) in * by congruence. flat. cbn [inflight app] in *. rewrite <- ?app_assoc. exact P.
  - intros G. rewrite move_same. replace (at_ s Worker) with (Counted c i) in * by congruence. flat. cbn [inflight app] in *. rewrite <- ?app_assoc. first [exact (Q G)|apply Q, (KM _ G)].
  (* begin *)
  - rewrite move_same. replace (at_ s Worker) with (Ready c i) in * by congruence. flat. cbn [inflight app] in *. rewrite <- ?app_assoc. exact P.
  - intros G. rewrite move_same. replace (at_ s Worker) with (Ready c i) in * by congruence. flat. cbn [inflight app] in *. rewrite <- ?app_assoc. first [exact (Q G)|apply Q, (KM _ G)].
  - intros t. rewrite move_other by discriminate. flat. apply C.
  - intros HR HS t. rewrite move_other by discriminate. flat. first [now apply L|apply L; [exact (RM _ HR)|exact (SM _ HS)]].
  (* end *)
  - rewrite move_same. replace (at_ s Worker) with (Sinking c i) in * by congruence. flat. cbn [inflight app] in *. rewrite <- ?app_assoc. exact P.
  - intros G. rewrite move_same. replace (at_ s Worker) with (Sinking c i) in * by congruence. flat. cbn [inflight app] in *. rewrite <- ?app_assoc. first [exact (Q G)|apply Q, (KM _ G)].
  - intros t. rewrite move_other by discriminate. flat. apply C.
  - intros HR HS t. rewrite move_other by discriminate. flat. first [now apply L|apply L; [exact (RM _ HR)|exact (SM _ HS)]].
  (* leave *)
  - rewrite move_same. replace (at_ s Worker) with (Leaving c b) in * by congruence. flat. cbn [inflight app] in *. rewrite <- ?app_assoc. exact P.
  - intros G. rewrite move_same. replace (at_ s Worker) with (Leaving c b) in * by congruence. flat. cbn [inflight app] in *. rewrite <- ?app_assoc. first [exact (Q G)|apply Q, (KM _ G)].
  (* destroy *)
  - flat. exact P.
  - intros G. flat. apply Q, (KM _ G).
  - intros t. flat. apply C.
  - intros HR HS t. flat. apply L; [exact (RM _ HR)|exact (SM _ HS)].
  (* stop *)
  - flat. exact P.
  - intros G. flat. apply Q, (KM _ G).
  - intros t. flat. apply C.
  - intros HR HS t. exfalso. apply HS, in_app_iff. cbn. auto.
Qed.
Lemma ordered_reaches s : reaches true s -> ordered s.
Proof.
  induction 1 as [|s s' R IH T]; [|eapply ordered_step; eauto].
  constructor; cbn; try tauto; try discriminate; intros; constructor.
Qed.

(** Without a task runner, calls that do not overlap. *)
Definition serial (s : state) : Prop := forall w, core false s w ->
  subsequence (written (hist s) ++ inflight (at_ s w)) (calls (hist s)) /\
  (~ refused (hist s) -> written (hist s) ++ inflight (at_ s w) = filter a_level (calls (hist s))).
Lemma serial_step s s' : reaches false s -> no_overlap (hist s') -> serial s -> step false s s' -> serial s'.
Proof.
  intros R OV S T w' C'.
  destruct (step_hist _ _ _ T) as (l & EH). assert (OV0 : no_overlap (hist s)) by (rewrite EH in OV; exact (no_overlap_app _ _ OV)).
  destruct (core_reaches _ _ R (or_intror OV0)) as (w & C). destruct (S w C) as [S1 S2]. clear S.
  pose proof (shape_reaches _ _ R) as SH.
  assert (F' : failed s' = true -> refused (hist s')) by (intros E; apply (d_refused _ _ (c_data _ _ _ C')); auto).
  assert (RM : forall l, ~ refused (hist s ++ l) -> ~ refused (hist s)) by (intros x; rewrite refused_app; tauto).
  assert (CL : forall a, at_ s a <> Outside -> executes false a).
  { intros a N. pose proof (SH a) as Sa. destruct (at_ s a); try congruence; try exact Sa. destruct a; [reflexivity|discriminate Sa]. }
  assert (SAME : forall a, at_ s a <> Outside -> a = w) by (intros a N; exact (core_actor _ _ _ _ C (CL a N) N)).
  (* who acts in s' if nobody moved *)
  assert (STAY : (forall a, at_ s' a = at_ s a) -> at_ s' w' = at_ s w).
  { intros E. destruct (agent_eqb_spec w w') as [->|N]; [apply E|]. rewrite <- (E w). pose proof (c_alone _ _ _ C' w (c_exec _ _ _ C) N) as X. rewrite X.
    rewrite (E w'). destruct (at_ s w') eqn:Q; try reflexivity; exfalso; apply N; symmetry; apply SAME; congruence. }
  assert (NEW : forall p, at_ s' w = p -> p <> Outside -> w' = w).
  { intros p E N. symmetry. apply (core_actor _ _ _ _ C' (c_exec _ _ _ C)). congruence. }
  assert (OLD : forall a, at_ s' w = Outside -> (forall b, b <> w -> at_ s' b = at_ s b) -> at_ s' a = Outside).
  { intros a E G. destruct (agent_eqb_spec a w) as [->|N]; [exact E|]. rewrite G by exact N. destruct (at_ s a) eqn:Q; try reflexivity; exfalso; apply N, SAME; congruence. }
  inversion T; subst; try discriminate;
    try (match goal with X : at_ s ?a = _ |- _ => first [assert (a = w) as -> by (apply SAME; congruence) | idtac] end);
    cbn [hist at_ failed] in *.
  - (* discard *) rewrite STAY by reflexivity. flat. split; [apply sub_extend, S1|]. intros HR.
    destruct (discard_level s c ltac:(assumption)) as [E|E]; [destruct (HR (F' E))|]. rewrite E, app_nil_r. apply S2, (RM _ HR).
  - (* call *)
    assert (W : w' = Client (who c)).
    { symmetry. apply (core_actor _ _ _ _ C'); [reflexivity|]. cbn [at_]. rewrite move_same. discriminate. }
    subst w'. rewrite move_same.
    assert (OUT : at_ s w = Outside).
    { destruct (agent_eqb_spec w (Client (who c))) as [->|N]; [assumption|].
      pose proof (c_alone _ _ _ C' w (c_exec _ _ _ C) N) as X. cbn [at_] in X. now rewrite move_other in X by exact N. }
    rewrite OUT in *. cbn [inflight] in *. rewrite app_nil_r in S1, S2. flat. rewrite (rejects_level s c) by assumption. split; [apply sub_more, S1|].
    intros HR. f_equal. apply S2, (RM _ HR).
  - (* load *)
    rewrite (NEW (Counted c (index s))) by (rewrite ?move_same; congruence). rewrite move_same. match goal with X : at_ s w = _ |- _ => rewrite X in * end. auto.
  - (* store *)
    rewrite (NEW (Ready c i)) by (rewrite ?move_same; congruence). rewrite move_same. match goal with X : at_ s w = _ |- _ => rewrite X in * end. auto.
  - (* begin *)
    rewrite (NEW (Sinking c i)) by (rewrite ?move_same; congruence). rewrite move_same. match goal with X : at_ s w = _ |- _ => rewrite X in * end.
    flat. split; [exact S1|]. intros HR. apply S2, (RM _ HR).
  - (* end *)
    rewrite (NEW (Leaving c b)) by (rewrite ?move_same; congruence). rewrite move_same. match goal with X : at_ s w = _ |- _ => rewrite X in * end.
    flat. cbn [inflight] in *. rewrite app_nil_r in S1, S2. split; [exact S1|]. intros HR. apply S2, (RM _ HR).
  - (* leave *)
    rewrite (OLD w') by (rewrite ?move_same; intros; rewrite ?move_other by assumption; reflexivity).
    match goal with X : at_ s w = _ |- _ => rewrite X in * end. cbn [inflight] in *. rewrite !app_nil_r in *.
    destruct w as [t|]; [|discriminate (c_exec _ _ _ C)]. flat. split; [exact S1|]. intros HR. apply S2, (RM _ HR).
  - (* destroy *) rewrite STAY by reflexivity. flat. split; [exact S1|]. intros HR. apply S2, (RM _ HR).
  - (* stop *) rewrite STAY by reflexivity. flat. split; [exact S1|]. intros HR. apply S2, (RM _ HR).
Qed.
Lemma serial_reaches s : reaches false s -> no_overlap (hist s) -> serial s.
Proof.
  induction 1 as [|s s' R IH T]; intros OV.
  - intros w C. cbn. split; [constructor|auto].
  - destruct (step_hist _ _ _ T) as (l & E). eapply serial_step; eauto. apply IH. rewrite E in OV. exact (no_overlap_app _ _ OV).
Qed.
Lemma core_no_race async s w : core async s w -> shape async s -> ~ race async s.
Proof.
  intros C SH (a & b & N & Ta & Tb).
  assert (E : forall x, touching async s x -> x = w).
  { intros x X. apply (core_actor _ _ _ _ C).
    - unfold touching in X. pose proof (SH x) as Sx. destruct (at_ s x); try tauto.
    - unfold touching in X. destruct (at_ s x); try tauto; discriminate. }
  apply N. rewrite (E a Ta), (E b Tb). reflexivity.
Qed.
