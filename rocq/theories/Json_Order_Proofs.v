(** C32: lemmas about operator== and operator<. *)
From Coq Require Import SpecFloat.
From Verif Require Import Common Bits Format_Model Format_Spec Format_Props Json_Model Json_Spec Json_String_Proofs Json_Parser_Proofs Json_Token_Proofs.

(** * Induction over values *)
Lemma json_induction (P : json -> Prop) :
  P JNull -> (forall s, P (JString s)) -> (forall m, Forall (fun e => P (snd e)) m -> P (JObject m)) ->
  (forall l, Forall P l -> P (JArray l)) -> (forall b, P (JBool b)) -> (forall z, P (JSigned z)) ->
  (forall z, P (JUnsigned z)) -> (forall f, P (JFloat f)) -> forall j, P j.
Proof.
  intros H1 H2 H3 H4 H5 H6 H7 H8. fix IH 1. intros [|s|m|l|b|z|z|f]; [exact H1|apply H2| | |apply H5|apply H6|apply H7|apply H8].
  - apply H3. induction m as [|[k v] m IHm]; constructor; [apply IH|exact IHm].
  - apply H4. induction l as [|v l IHl]; constructor; [apply IH|exact IHl].
Qed.

(** * operator< and its mirror image *)
Lemma json_gt_lt ff : forall a b, json_gt ff a b = json_lt ff b a /\ json_lt ff a b = json_gt ff b a.
Proof.
  induction a as [|s|m IH|l IH|x|x|x|x] using json_induction; intros b; try (destruct b; split; reflexivity).
  - destruct b as [| |m'| | | | |]; try (split; reflexivity). cbn [json_gt json_lt].
    revert m'. induction IH as [|[k v] m Hv _ IHm]; intros m'; [destruct m' as [|e0 m']; try destruct e0; split; reflexivity|].
    destruct m' as [|[k' v'] m']; [split; reflexivity|]. cbn [snd] in Hv. destruct (Hv v') as [E1 E2]. destruct (IHm m') as [E3 E4]. rewrite E1, E2, E3, E4.
    split; reflexivity.
  - destruct b as [| | |l'| | | |]; try (split; reflexivity). cbn [json_gt json_lt].
    revert l'. induction IH as [|v m Hv _ IHm]; intros m'; [destruct m' as [|e0 m']; try destruct e0; split; reflexivity|].
    destruct m' as [|v' m']; [split; reflexivity|]. destruct (Hv v') as [E1 E2]. destruct (IHm m') as [E3 E4]. rewrite E1, E2, E3, E4.
    split; reflexivity.
Qed.

(** * Lexicographic comparison *)
Definition lex {A} (c : A -> A -> comparison) : list A -> list A -> comparison :=
  fix go l l' :=
    match l, l' with
    | [], [] => Eq
    | [], _ :: _ => Lt
    | _ :: _, [] => Gt
    | x :: r, y :: r' => match c x y with Eq => go r r' | d => d end
    end.
Lemma lex_sym {A} (c : A -> A -> comparison) l : forall l', Forall (fun x => forall y, In y l' -> c y x = CompOpp (c x y)) l -> lex c l' l = CompOpp (lex c l l').
Proof.
  induction l as [|x l IH]; intros [|y l'] H; try reflexivity. cbn [lex]. inversion H as [|? ? Hx HF]; subst.
  rewrite (Hx y (or_introl eq_refl)). destruct (c x y); try reflexivity. cbn [CompOpp]. apply IH. eapply Forall_impl; [|exact HF]. cbn. intros z Hz y' Hy'. apply Hz. now right.
Qed.
Lemma lex_cong {A} (c : A -> A -> comparison) l : forall l' l'',
  Forall (fun x => forall y z, In y l' -> In z l'' -> c x y = Eq -> c x z = c y z) l -> lex c l l' = Eq -> lex c l l'' = lex c l' l''.
Proof.
  induction l as [|x l IH]; intros [|y l'] l'' H E; try discriminate; [reflexivity|]. cbn [lex] in E. inversion H as [|? ? Hx HF]; subst.
  destruct (c x y) eqn:EC; try discriminate. destruct l'' as [|z l'']; [reflexivity|]. cbn [lex].
  rewrite (Hx y z (or_introl eq_refl) (or_introl eq_refl) EC). destruct (c y z); try reflexivity. apply IH; [|assumption].
  eapply Forall_impl; [|exact HF]. cbn. intros w Hw y' z' Hy' Hz'. apply Hw; now right.
Qed.
Lemma lex_trans {A} (c : A -> A -> comparison) l : forall l' l'',
  Forall (fun x => forall y z, In y l' -> In z l'' -> (c x y = Lt -> c y z = Lt -> c x z = Lt) /\ (c x y = Eq -> c x z = c y z) /\ (c y z = Eq -> c x z = c x y)) l ->
  lex c l l' = Lt -> lex c l' l'' = Lt -> lex c l l'' = Lt.
Proof.
  induction l as [|x l IH]; intros [|y l'] [|z l''] H E E'; try discriminate; try reflexivity. cbn [lex] in *. inversion H as [|? ? Hx HF]; subst.
  destruct (Hx y z (or_introl eq_refl) (or_introl eq_refl)) as (T1 & T2 & T3).
  assert (HF' : Forall (fun x => forall y z, In y l' -> In z l'' -> (c x y = Lt -> c y z = Lt -> c x z = Lt) /\ (c x y = Eq -> c x z = c y z) /\ (c y z = Eq -> c x z = c x y)) l).
  { eapply Forall_impl; [|exact HF]. cbn. intros w Hw y' z' Hy' Hz'. apply Hw; now right. }
  destruct (c x y) eqn:EC; try discriminate.
  - rewrite (T2 eq_refl). destruct (c y z) eqn:EC'; try discriminate; [|reflexivity]. now apply (IH l').
  - destruct (c y z) eqn:EC'; try discriminate; [now rewrite (T3 eq_refl)|now rewrite (T1 eq_refl eq_refl)].
Qed.

Lemma key_compare_refl a : key_compare a a = Eq.
Proof. now apply key_compare_eq. Qed.
Lemma key_compare_trans a b c : key_compare a b = Lt -> key_compare b c = Lt -> key_compare a c = Lt.
Proof. rewrite !key_compare_lt. apply key_lt_trans. Qed.

(** * The order, given one on numbers *)
Definition is_number (j : json) : bool := match j with JSigned _ | JUnsigned _ | JFloat _ => true | _ => false end.
Definition rank (j : json) : Z := if is_number j then 5 else index j.
(** Every number in [j] satisfies [ok]. *)
Fixpoint numbers (ok : json -> Prop) (j : json) : Prop :=
  match j with
  | JObject m => (fix go (m : list (list Z * json)) : Prop := match m with [] => True | (_, v) :: r => numbers ok v /\ go r end) m
  | JArray l => (fix go (l : list json) : Prop := match l with [] => True | v :: r => numbers ok v /\ go r end) l
  | JSigned _ | JUnsigned _ | JFloat _ => ok j
  | JNull | JString _ | JBool _ => True
  end.
Lemma numbers_object ok m : numbers ok (JObject m) <-> Forall (fun e => numbers ok (snd e)) m.
Proof.
  induction m as [|[k v] m IH]; [split; [constructor|exact (fun _ => I)]|]. rewrite Forall_cons_iff, <- IH. reflexivity.
Qed.
Lemma numbers_array ok l : numbers ok (JArray l) <-> Forall (numbers ok) l.
Proof. induction l as [|v l IH]; [split; [constructor|exact (fun _ => I)]|]. rewrite Forall_cons_iff, <- IH. reflexivity. Qed.

Section Order.
Variable cn : json -> json -> comparison.
Variable ok : json -> Prop.
Variable ff : fp_format.
Hypothesis cn_sym : forall a b, is_number a = true -> is_number b = true -> ok a -> ok b -> cn b a = CompOpp (cn a b).
Hypothesis cn_cong : forall a b c, is_number a = true -> is_number b = true -> is_number c = true -> ok a -> ok b -> ok c -> cn a b = Eq -> cn a c = cn b c.
Hypothesis cn_trans : forall a b c, is_number a = true -> is_number b = true -> is_number c = true -> ok a -> ok b -> ok c -> cn a b = Lt -> cn b c = Lt -> cn a c = Lt.
Hypothesis cn_lt : forall a b, is_number a = true -> is_number b = true -> ok a -> ok b -> json_lt ff a b = match cn a b with Lt => true | _ => false end.

Fixpoint cmp (a b : json) {struct a} : comparison :=
  match a, b with
  | JNull, JNull => Eq
  | JString s, JString t => key_compare s t
  | JObject m, JObject m' =>
      lex (fun (e e' : list Z * json) => let '(k, v) := e in let '(k', v') := e' in match key_compare k k' with Eq => cmp v v' | d => d end) m m'
  | JArray l, JArray l' => lex (fun v v' => cmp v v') l l'
  | JBool x, JBool y => (if x then 1 else 0) ?= (if y then 1 else 0)
  | _, _ => if is_number a && is_number b then cn a b else rank a ?= rank b
  end.
Definition entry_cmp (e e' : list Z * json) : comparison :=
  let '(k, v) := e in let '(k', v') := e' in match key_compare k k' with Eq => cmp v v' | d => d end.
Lemma cmp_object m m' : cmp (JObject m) (JObject m') = lex entry_cmp m m'. Proof. reflexivity. Qed.
Lemma cmp_array m m' : cmp (JArray m) (JArray m') = lex cmp m m'. Proof. reflexivity. Qed.

Lemma cmp_number a b : is_number a = true -> is_number b = true -> cmp a b = cn a b.
Proof. destruct a, b; intros H1 H2; try discriminate; reflexivity. Qed.
(** Values of different kinds compare by rank. *)
Definition kind (j : json) : Z := rank j.
Lemma cmp_kind a b : kind a <> kind b -> cmp a b = (kind a ?= kind b).
Proof. destruct a, b; intros H; try reflexivity; exfalso; apply H; reflexivity. Qed.
Lemma cmp_same a b : cmp a b = Eq -> kind a = kind b.
Proof. destruct (Z.eq_dec (kind a) (kind b)) as [|N]; [auto|]. intros E. rewrite cmp_kind in E by assumption. now apply Z.compare_eq_iff. Qed.

Lemma cmp_sym : forall a b, numbers ok a -> numbers ok b -> cmp b a = CompOpp (cmp a b).
Proof.
  induction a as [|s|m IH|l IH|x|x|x|x] using json_induction; intros b Ha Hb.
  all: match goal with |- cmp _ ?A = _ => destruct (Z.eq_dec (kind A) (kind b)) as [EK|NK]; [|rewrite !cmp_kind by congruence; apply Z.compare_antisym] end.
  all: destruct b as [|t|m'|l'|y|y|y|y]; try discriminate EK.
  all: try (apply cn_sym; try reflexivity; assumption).
  - reflexivity.
  - apply key_compare_sym.
  - rewrite !cmp_object. apply lex_sym. apply Forall_forall. intros [k v] HIn [k' v'] HIn'. cbn [entry_cmp].
    rewrite (key_compare_sym k k'). destruct (key_compare k k'); try reflexivity. cbn [CompOpp].
    rewrite Forall_forall in IH. rewrite numbers_object, Forall_forall in Ha, Hb. apply (IH (k, v)); [exact HIn|exact (Ha _ HIn)|exact (Hb _ HIn')].
  - rewrite !cmp_array. apply lex_sym. apply Forall_forall. intros v HIn v' HIn'.
    rewrite Forall_forall in IH. rewrite numbers_array, Forall_forall in Ha, Hb. apply IH; auto.
  - destruct x, y; reflexivity.
Qed.

Lemma cmp_cong : forall a b c, numbers ok a -> numbers ok b -> numbers ok c -> cmp a b = Eq -> cmp a c = cmp b c.
Proof.
  induction a as [|s|m IH|l IH|x|x|x|x] using json_induction; intros b c Ha Hb Hc E.
  all: pose proof (cmp_same _ _ E) as EK.
  all: destruct (Z.eq_dec (kind b) (kind c)) as [EK2|NK]; [|rewrite !cmp_kind by congruence; now rewrite EK].
  all: destruct b as [|t|m'|l'|y|y|y|y]; try discriminate EK; destruct c as [|t2|m2|l2|y2|y2|y2|y2]; try discriminate EK2.
  all: try (eapply cn_cong; try exact E; try reflexivity; assumption).
  - reflexivity.
  - apply key_compare_eq in E. now subst.
  - rewrite !cmp_object in *. apply (lex_cong entry_cmp m m'); [|exact E]. apply Forall_forall. intros [k v] HIn [k' v'] [k2 v2] HIn' HIn2. cbn [entry_cmp].
    destruct (key_compare k k') eqn:EQ; try discriminate. apply key_compare_eq in EQ. subst k'. destruct (key_compare k k2); try reflexivity.
    rewrite Forall_forall in IH. rewrite numbers_object, Forall_forall in Ha, Hb, Hc. apply (IH (k, v)); [exact HIn|exact (Ha _ HIn)|exact (Hb _ HIn')|exact (Hc _ HIn2)].
  - rewrite !cmp_array in *. apply (lex_cong cmp l l'); [|exact E]. apply Forall_forall. intros v HIn v' v2 HIn' HIn2.
    rewrite Forall_forall in IH. rewrite numbers_array, Forall_forall in Ha, Hb, Hc. apply IH; auto.
  - destruct x, y; try discriminate E; destruct y2; reflexivity.
Qed.
Lemma cmp_cong_r a b c : numbers ok a -> numbers ok b -> numbers ok c -> cmp b c = Eq -> cmp a c = cmp a b.
Proof.
  intros Ha Hb Hc E. rewrite (cmp_sym c a Hc Ha), (cmp_sym b a Hb Ha). f_equal. symmetry. apply (cmp_cong b c a); assumption.
Qed.
Lemma cmp_trans : forall a b c, numbers ok a -> numbers ok b -> numbers ok c -> cmp a b = Lt -> cmp b c = Lt -> cmp a c = Lt.
Proof.
  induction a as [|s|m IH|l IH|x|x|x|x] using json_induction; intros b c Ha Hb Hc E E'.
  all: match type of E with cmp ?A _ = _ => destruct (Z.eq_dec (kind A) (kind b)) as [EK|NK];
         [destruct (Z.eq_dec (kind b) (kind c)) as [EK2|NK2]
         |rewrite cmp_kind in E by assumption;
          destruct (Z.eq_dec (kind b) (kind c)) as [EK2|NK2];
          [rewrite EK2 in E, NK; now rewrite cmp_kind
          |rewrite cmp_kind in E' by assumption; rewrite Z.compare_lt_iff in E, E'; rewrite cmp_kind by lia; apply Z.compare_lt_iff; lia]] end.
  all: try (rewrite cmp_kind in E' by assumption; rewrite <- EK in E', NK2; now rewrite cmp_kind).
  all: destruct b as [|t|m'|l'|y|y|y|y]; try discriminate EK; destruct c as [|t2|m2|l2|y2|y2|y2|y2]; try discriminate EK2.
  all: try (eapply cn_trans; [| | | | | |exact E|exact E']; try reflexivity; assumption).
  - discriminate E.
  - eapply key_compare_trans; [exact E|exact E'].
  - rewrite !cmp_object in *. apply (lex_trans entry_cmp m m'); [|exact E|exact E']. apply Forall_forall. intros [k v] HIn [k' v'] [k2 v2] HIn' HIn2. cbn [entry_cmp].
    rewrite Forall_forall in IH. rewrite numbers_object, Forall_forall in Ha, Hb, Hc. specialize (Ha _ HIn). specialize (Hb _ HIn'). specialize (Hc _ HIn2). cbn [snd] in *.
    split; [|split].
    + destruct (key_compare k k') eqn:EQ; try discriminate; destruct (key_compare k' k2) eqn:EQ2; try discriminate; intros T1 T2.
      * apply key_compare_eq in EQ, EQ2. subst k' k2. rewrite key_compare_refl. apply (IH (k, v) HIn v'); assumption.
      * apply key_compare_eq in EQ. subst k'. now rewrite EQ2.
      * apply key_compare_eq in EQ2. subst k2. now rewrite EQ.
      * now rewrite (key_compare_trans k k' k2).
    + destruct (key_compare k k') eqn:EQ; try discriminate. apply key_compare_eq in EQ. subst k'. intros T. destruct (key_compare k k2); try reflexivity. now apply cmp_cong.
    + destruct (key_compare k' k2) eqn:EQ; try discriminate. apply key_compare_eq in EQ. subst k2. intros T. destruct (key_compare k k'); try reflexivity. now apply cmp_cong_r.
  - rewrite !cmp_array in *. apply (lex_trans cmp l l'); [|exact E|exact E']. apply Forall_forall. intros v HIn v' v2 HIn' HIn2.
    rewrite Forall_forall in IH. rewrite numbers_array, Forall_forall in Ha, Hb, Hc.
    split; [intros; apply (IH v HIn v'); auto|]. split; intros; [apply cmp_cong|apply cmp_cong_r]; auto.
  - destruct x, y; try discriminate E; destruct y2; try discriminate E'; reflexivity.
Qed.
Lemma cmp_refl a : numbers ok a -> cmp a a = Eq.
Proof. intros H. pose proof (cmp_sym a a H H) as E. destruct (cmp a a); [reflexivity|discriminate|discriminate]. Qed.

Lemma json_lt_cmp : forall a b, numbers ok a -> numbers ok b ->
  json_lt ff a b = (match cmp a b with Lt => true | _ => false end) /\ json_gt ff a b = (match cmp a b with Gt => true | _ => false end).
Proof.
  assert (NUM : forall a b, is_number a = true -> is_number b = true -> ok a -> ok b ->
    json_lt ff a b = (match cmp a b with Lt => true | _ => false end) /\ json_gt ff a b = (match cmp a b with Gt => true | _ => false end)).
  { intros a b Na Nb Ha Hb. rewrite (proj1 (json_gt_lt ff a b)). rewrite cmp_number by assumption. rewrite !cn_lt by assumption.
    rewrite (cn_sym a b) by assumption. split; [reflexivity|]. destruct (cn a b); reflexivity. }
  induction a as [|s|m IH|l IH|x|x|x|x] using json_induction; intros b Ha Hb.
  all: try (destruct b; try (split; reflexivity); now apply NUM).
  - destruct b as [|t| | | | | |]; try (split; reflexivity). cbn [json_lt json_gt cmp]. split; [reflexivity|]. rewrite (key_compare_sym s t). destruct (key_compare s t); reflexivity.
  - destruct b as [| |m'| | | | |]; try (split; reflexivity). rewrite cmp_object. rewrite numbers_object in Ha, Hb. cbn [json_lt json_gt].
    revert m' Hb. induction IH as [|[k v] m Hv _ IHm]; intros m' Hb; [destruct m' as [|e0 m']; try destruct e0; split; reflexivity|].
    destruct m' as [|[k' v'] m']; [split; reflexivity|]. cbn [lex entry_cmp]. inversion Ha; subst. inversion Hb; subst. cbn [snd] in *.
    destruct (Hv v') as [E1 E2]; [assumption|assumption|]. destruct (IHm ltac:(assumption) m' ltac:(assumption)) as [E3 E4].
    rewrite (key_compare_sym k k'). destruct (key_compare k k'); cbn [CompOpp]; try (split; reflexivity).
    rewrite E1, E2, E3, E4. destruct (cmp v v'); cbn [orb negb andb]; split; reflexivity.
  - destruct b as [| | |l'| | | |]; try (split; reflexivity). rewrite cmp_array. rewrite numbers_array in Ha, Hb. cbn [json_lt json_gt].
    revert l' Hb. induction IH as [|v m Hv _ IHm]; intros m' Hb; [destruct m' as [|e0 m']; try destruct e0; split; reflexivity|].
    destruct m' as [|v' m']; [split; reflexivity|]. cbn [lex]. inversion Ha; subst. inversion Hb; subst.
    destruct (Hv v') as [E1 E2]; [assumption|assumption|]. destruct (IHm ltac:(assumption) m' ltac:(assumption)) as [E3 E4].
    rewrite E1, E2, E3, E4. destruct (cmp v v'); cbn [orb negb andb]; split; reflexivity.
  - destruct b as [| | | |y| | |]; try (split; reflexivity). destruct x, y; split; reflexivity.
Qed.

Lemma json_eq_cmp : (forall a b, is_number a = true -> is_number b = true -> ok a -> ok b -> json_eq ff a b = match cn a b with Eq => true | _ => false end) ->
  forall a b, numbers ok a -> numbers ok b -> json_eq ff a b = (match cmp a b with Eq => true | _ => false end).
Proof.
  intros NUM. induction a as [|s|m IH|l IH|x|x|x|x] using json_induction; intros b Ha Hb.
  all: try (destruct b; try reflexivity; rewrite cmp_number by reflexivity; now apply NUM).
  - destruct b as [|t| | | | | |]; try reflexivity. cbn [json_eq cmp]. destruct (string_eqb s t) eqn:ES.
    + apply string_eqb_eq in ES. subst. now rewrite key_compare_refl.
    + destruct (key_compare s t) eqn:EC; try reflexivity. apply key_compare_eq in EC. subst. rewrite (proj2 (string_eqb_eq t t) eq_refl) in ES. discriminate.
  - destruct b as [| |m'| | | | |]; try reflexivity. rewrite cmp_object. rewrite numbers_object in Ha, Hb. cbn [json_eq].
    revert m' Hb. induction IH as [|[k v] m Hv _ IHm]; intros m' Hb; [destruct m' as [|e0 m']; try destruct e0; reflexivity|].
    destruct m' as [|[k' v'] m']; [reflexivity|]. cbn [lex entry_cmp]. inversion Ha; subst. inversion Hb; subst. cbn [snd] in *.
    rewrite (Hv v'), (IHm ltac:(assumption) m') by assumption. destruct (string_eqb k k') eqn:ES.
    + apply string_eqb_eq in ES. subst. rewrite key_compare_refl. destruct (cmp v v'); reflexivity.
    + destruct (key_compare k k') eqn:EC; try reflexivity. apply key_compare_eq in EC. subst. rewrite (proj2 (string_eqb_eq k' k') eq_refl) in ES. discriminate.
  - destruct b as [| | |l'| | | |]; try reflexivity. rewrite cmp_array. rewrite numbers_array in Ha, Hb. cbn [json_eq].
    revert l' Hb. induction IH as [|v m Hv _ IHm]; intros m' Hb; [destruct m' as [|e0 m']; try destruct e0; reflexivity|].
    destruct m' as [|v' m']; [reflexivity|]. cbn [lex]. inversion Ha; subst. inversion Hb; subst.
    rewrite (Hv v'), (IHm ltac:(assumption) m') by assumption. destruct (cmp v v'); reflexivity.
  - destruct b as [| | | |y| | |]; try reflexivity. destruct x, y; reflexivity.
Qed.
End Order.
