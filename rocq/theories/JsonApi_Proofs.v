(** Proofs for C51-C54: fly::Json as a container. *)
From Coq Require Import SpecFloat.
From Verif Require Import Common Unicode_Spec Format_Spec Json_Spec Json_Model Json_Token_Proofs Json_String_Proofs Json_Props JsonApi_Model JsonApi_Spec.
Open Scope nat_scope.

(** * Objects *)
Lemma bound_cons k v m k' : bound ((k, v) :: m) k' = if same_key k' k then Some v else bound m k'.
Proof. reflexivity. Qed.
Lemma bound_none m k : Forall (fun e => key_lt k (fst e)) m -> bound m k = None.
Proof.
  induction m as [|[k' v] m IH]; intros H; [reflexivity|]. inversion_clear H as [|? ? H1 H2]. rewrite bound_cons. destruct (same_key k k') as [->|]; [|now apply IH].
  now apply key_lt_irrefl in H1.
Qed.
Lemma sorted_above k m : sorted_keys m -> forall k', Forall (fun e => key_lt k (fst e)) m -> key_lt k' k -> Forall (fun e => key_lt k' (fst e)) m.
Proof. intros _ k' H HL. eapply Forall_impl; [|exact H]. cbv beta. intros e He. eapply key_lt_trans; eassumption. Qed.
Lemma bound_in m k v : sorted_keys m -> bound m k = Some v <-> In (k, v) m.
Proof.
  induction m as [|[k' v'] m IH]; intros HS; [cbn; split; [discriminate|tauto]|]. destruct HS as [HF HS]. rewrite bound_cons. cbn [In].
  destruct (same_key k k') as [->|NE].
  - split; [intros E; injection E as <-; auto|]. intros [E|H]; [now injection E as <-|]. rewrite Forall_forall in HF. apply HF in H. now apply key_lt_irrefl in H.
  - rewrite IH by assumption. split; [auto|]. intros [E|H]; [congruence|assumption].
Qed.
Lemma bound_ext m m' : sorted_keys m -> sorted_keys m' -> (forall k, bound m k = bound m' k) -> m = m'.
Proof. intros H H' E. apply sorted_ext; [assumption|assumption|]. intros k v. rewrite <- !bound_in by assumption. now rewrite E. Qed.
Lemma bound_nth m p k v : sorted_keys m -> nth_error m p = Some (k, v) -> bound m k = Some v.
Proof. intros HS E. apply bound_in; [assumption|]. eapply nth_error_In; eassumption. Qed.
Lemma nth_unique m p q k v v' : sorted_keys m -> nth_error m p = Some (k, v) -> nth_error m q = Some (k, v') -> p = q.
Proof.
  revert p q. induction m as [|[k0 v0] m IH]; intros [|p] [|q] HS E E'; try reflexivity; cbn in E, E'; try discriminate; destruct HS as [HF HS]; rewrite Forall_forall in HF.
  - injection E as -> ->. apply nth_error_In in E'. apply HF in E'. now apply key_lt_irrefl in E'.
  - injection E' as -> ->. apply nth_error_In in E. apply HF in E. now apply key_lt_irrefl in E.
  - f_equal. eapply IH; eassumption.
Qed.

Lemma map_find_spec k m : sorted_keys m ->
  match map_find k m with Some (p, v) => nth_error m p = Some (k, v) /\ bound m k = Some v | None => bound m k = None end.
Proof.
  induction m as [|[k' v] m IH]; intros HS; [reflexivity|]. pose proof HS as [HF HS']. cbn [map_find]. rewrite bound_cons.
  destruct (key_compare k k') eqn:EC.
  - apply key_compare_eq in EC. subst k'. split; [reflexivity|]. now destruct (same_key k k).
  - apply key_compare_lt in EC. destruct (same_key k k') as [->|]; [now apply key_lt_irrefl in EC|]. apply bound_none. eapply sorted_above; eassumption.
  - apply key_compare_gt in EC. destruct (same_key k k') as [->|]; [now apply key_lt_irrefl in EC|]. specialize (IH HS'). destruct (map_find k m) as [[p x]|]; exact IH.
Qed.
Lemma map_find_bound k m : sorted_keys m -> option_map snd (map_find k m) = bound m k.
Proof. intros HS. pose proof (map_find_spec k m HS). destruct (map_find k m) as [[p v]|]; cbn; [now destruct H|now rewrite H]. Qed.

Lemma map_insert_spec k v m : sorted_keys m ->
  let '(m', (p, new)) := map_insert k v m in
  sorted_keys m' /\ (forall P, Forall P m -> P (k, v) -> Forall P m') /\
  match bound m k with
  | Some x => m' = m /\ new = false /\ nth_error m p = Some (k, x)
  | None => new = true /\ nth_error m' p = Some (k, v) /\ (forall k', bound m' k' = rebind (bound m) k (Some v) k') /\ length m' = S (length m)
  end.
Proof.
  induction m as [|[k' v'] m IH]; intros HS.
  - cbn [map_insert bound]. split; [cbn; auto|]. split; [intros P HP HK; constructor; assumption|]. repeat split. 
  - pose proof HS as [HF HS']. cbn [map_insert]. rewrite bound_cons. destruct (key_compare k k') eqn:EC.
    + apply key_compare_eq in EC. subst k'. destruct (same_key k k); [|congruence]. repeat split; try assumption. intros P HP _. exact HP.
    + apply key_compare_lt in EC. destruct (same_key k k') as [->|]; [now apply key_lt_irrefl in EC|].
      assert (HA : Forall (fun e => key_lt k (fst e)) m) by (eapply sorted_above; eassumption).
      rewrite (bound_none _ _ HA). split; [cbn [sorted_keys]; split; [constructor; assumption|exact HS]|]. split; [intros P HP HK; constructor; assumption|].
      repeat split. 
    + apply key_compare_gt in EC. destruct (same_key k k') as [->|NE]; [now apply key_lt_irrefl in EC|].
      specialize (IH HS'). destruct (map_insert k v m) as [m' [p new]]. destruct IH as (S1 & SP & IH).
      assert (HF' : Forall (fun e => key_lt k' (fst e)) m') by (apply SP; assumption).
      split; [split; assumption|]. split; [intros P HP HK; inversion_clear HP; constructor; [assumption|now apply SP]|].
      destruct (bound m k) as [x|].
      * destruct IH as (-> & -> & E). repeat split; assumption.
      * destruct IH as (-> & E & B & L). repeat split; [assumption| |cbn; now rewrite L]. intros k0. rewrite bound_cons, B. unfold rebind.
        rewrite bound_cons. destruct (same_key k0 k) as [->|]; [|reflexivity]. now destruct (same_key k k').
Qed.
Lemma insert_or_assign_spec k v m : sorted_keys m -> let m' := Json_Model.insert_or_assign k v m in
  sorted_keys m' /\ forall k', bound m' k' = rebind (bound m) k (Some v) k'.
Proof.
  intros HS m'. assert (HS' : sorted_keys m') by (now apply insert_sorted). split; [assumption|]. intros k'. unfold rebind.
  destruct (same_key k' k) as [->|NE].
  - apply bound_in; [assumption|]. apply insert_in; auto.
  - destruct (bound m k') as [x|] eqn:E.
    + apply bound_in; [assumption|]. apply insert_in; [assumption|]. right. split; [congruence|]. now apply bound_in.
    + destruct (bound m' k') as [x|] eqn:E'; [|reflexivity]. apply bound_in in E'; [|assumption]. apply insert_in in E'; [|assumption].
      destruct E' as [[? ?]|[_ E']]; [congruence|]. apply bound_in in E'; [congruence|assumption].
Qed.
Lemma insert_or_assign_keys k v m x : sorted_keys m -> bound m k = Some x -> map fst (Json_Model.insert_or_assign k v m) = map fst m.
Proof.
  induction m as [|[k' v'] m IH]; intros HS HB; [discriminate|]. destruct HS as [HF HS]. rewrite bound_cons in HB. cbn [Json_Model.insert_or_assign].
  destruct (key_compare k k') eqn:EC.
  - apply key_compare_eq in EC. now subst.
  - apply key_compare_lt in EC. destruct (same_key k k') as [->|]; [now apply key_lt_irrefl in EC|].
    rewrite bound_none in HB; [discriminate|]. eapply sorted_above; eassumption.
  - apply key_compare_gt in EC. destruct (same_key k k') as [->|]; [now apply key_lt_irrefl in EC|]. cbn. f_equal. now apply IH.
Qed.
Lemma map_erase_spec k m : sorted_keys m ->
  let '(m', n) := map_erase k m in
  sorted_keys m' /\ (forall P, Forall P m -> Forall P m') /\ n = match bound m k with Some _ => 1 | None => 0 end /\
  (forall k', bound m' k' = rebind (bound m) k None k') /\ length m' + n = length m.
Proof.
  induction m as [|[k' v'] m IH]; intros HS.
  - cbn. repeat split; auto. intros k'. unfold rebind. now destruct (same_key k' k).
  - pose proof HS as [HF HS']. cbn [map_erase]. rewrite bound_cons. destruct (key_compare k k') eqn:EC.
    + apply key_compare_eq in EC. subst k'. destruct (same_key k k); [|congruence].
      split; [assumption|]. split; [intros P HP; now inversion_clear HP|]. split; [reflexivity|]. split; [|cbn; lia].
      intros k0. unfold rebind. rewrite bound_cons. destruct (same_key k0 k) as [->|]; [|reflexivity]. now apply bound_none.
    + apply key_compare_lt in EC. destruct (same_key k k') as [->|]; [now apply key_lt_irrefl in EC|].
      assert (HA : Forall (fun e => key_lt k (fst e)) m) by (eapply sorted_above; eassumption).
      rewrite (bound_none _ _ HA). split; [assumption|]. split; [auto|]. split; [reflexivity|]. split; [|lia].
      intros k0. unfold rebind. destruct (same_key k0 k) as [->|]; [|reflexivity]. rewrite bound_cons.
      destruct (same_key k k'); [congruence|]. now apply bound_none.
    + apply key_compare_gt in EC. destruct (same_key k k') as [->|NE]; [now apply key_lt_irrefl in EC|].
      specialize (IH HS'). destruct (map_erase k m) as [m' n]. destruct IH as (S1 & SP & En & B & L).
      split; [split; [now apply SP|assumption]|]. split; [intros P HP; inversion_clear HP; constructor; [assumption|now apply SP]|].
      split; [assumption|]. split; [|cbn; lia].
      intros k0. rewrite bound_cons, B. unfold rebind. rewrite bound_cons. destruct (same_key k0 k) as [->|]; [|reflexivity]. now destruct (same_key k k').
Qed.

(** Inserting a list of entries. *)
Definition insert_all (m es : list (list Z * json)) := fold_left (fun m e => fst (map_insert (fst e) (snd e) m)) es m.
Lemma insert_all_spec es : forall m, sorted_keys m ->
  sorted_keys (insert_all m es) /\ (forall P, Forall P m -> Forall P es -> Forall P (insert_all m es)) /\
  forall k, bound (insert_all m es) k = match bound m k with Some v => Some v | None => bound es k end.
Proof.
  induction es as [|[k v] es IH]; intros m HS; [cbn; repeat split; auto; intros k; now destruct (bound m k)|].
  unfold insert_all. cbn [fold_left fst snd]. fold (insert_all (fst (map_insert k v m)) es).
  pose proof (map_insert_spec k v m HS) as HI. destruct (map_insert k v m) as [m' [p new]]. cbn [fst]. destruct HI as (S1 & SP & HI).
  destruct (IH m' S1) as (S2 & SP2 & B2). split; [assumption|]. split; [intros P HP HE; inversion_clear HE; apply SP2; [now apply SP|assumption]|].
  intros k0. rewrite B2, bound_cons. destruct (bound m k) as [x|] eqn:EB.
  - destruct HI as (-> & _ & _). destruct (bound m k0) as [y|] eqn:E0; [reflexivity|]. destruct (same_key k0 k); [congruence|reflexivity].
  - destruct HI as (_ & _ & B & _). rewrite B. unfold rebind. destruct (same_key k0 k) as [->|]; [now rewrite EB|reflexivity].
Qed.
Lemma map_merge_spec n : forall m, sorted_keys m -> sorted_keys n ->
  let '(m', n') := map_merge m n in
  sorted_keys m' /\ sorted_keys n' /\ (forall P, Forall P n -> Forall P n') /\ (forall P, Forall P m -> Forall P n -> Forall P m') /\
  (forall k, bound m' k = match bound m k with Some v => Some v | None => bound n k end) /\
  (forall k, bound n' k = match bound m k with Some _ => bound n k | None => None end).
Proof.
  induction n as [|[k v] n IH]; intros m HS HN.
  - cbn. repeat split; auto; intros k; now destruct (bound m k).
  - pose proof HN as [HF HN']. cbn [map_merge].
    pose proof (map_insert_spec k v m HS) as HI. destruct (map_insert k v m) as [m1 [p new]]. destruct HI as (S1 & SP & HI).
    specialize (IH m1 S1 HN'). destruct (map_merge m1 n) as [m2 n2]. destruct IH as (S2 & N2 & PN & PM & BM & BN).
    destruct (bound m k) as [x|] eqn:EB.
    + destruct HI as (-> & -> & _). split; [assumption|]. split; [split; [now apply PN|assumption]|].
      split; [intros P HP; inversion_clear HP; constructor; [assumption|now apply PN]|].
      split; [intros P HP HP'; inversion_clear HP'; now apply PM|]. split; intros k0; rewrite !bound_cons.
      * rewrite BM. destruct (bound m k0) eqn:E0; [reflexivity|]. destruct (same_key k0 k); [congruence|reflexivity].
      * rewrite BN. destruct (same_key k0 k) as [->|]; [now rewrite EB|reflexivity].
    + destruct HI as (-> & _ & B & _). split; [assumption|]. split; [assumption|].
      split; [intros P HP; inversion_clear HP; now apply PN|].
      split; [intros P HP HP'; inversion_clear HP'; apply PM; [now apply SP|assumption]|]. split; intros k0; rewrite !bound_cons.
      * rewrite BM, B. unfold rebind. destruct (same_key k0 k) as [->|]; [now rewrite EB|reflexivity].
      * rewrite BN, B. unfold rebind. destruct (same_key k0 k) as [->|]; [|reflexivity]. rewrite EB. now apply bound_none.
Qed.

(** * Regular values *)
Definition regular_entry (e : list Z * json) : Prop := utf8_text (fst e) /\ regular (snd e).
Lemma regular_object m : regular (JObject m) <-> sorted_keys m /\ Forall regular_entry m.
Proof.
  cbn [regular]. assert (E : forall m, (fix go (m : list (list Z * json)) : Prop := match m with [] => True | (k, v) :: r => utf8_text k /\ regular v /\ go r end) m <-> Forall regular_entry m).
  { clear. induction m as [|[k v] m IH]; [split; constructor|]. rewrite IH. split; [intros (A & B & C); constructor; [split; assumption|assumption]|].
    intros H. inversion_clear H as [|? ? [A B] C]. auto. }
  now rewrite E.
Qed.
Lemma regular_array l : regular (JArray l) <-> Forall regular l.
Proof.
  cbn [regular]. induction l as [|v l IH]; [split; constructor|]. rewrite IH. split; [intros (A & B); constructor; assumption|]. intros H. inversion_clear H. auto.
Qed.
Lemma stored_object m : stored (JObject m) <-> sorted_keys m /\ Forall (fun e => stored (snd e)) m.
Proof.
  cbn [stored]. assert (E : forall m, (fix go (m : list (list Z * json)) : Prop := match m with [] => True | (_, v) :: r => stored v /\ go r end) m <-> Forall (fun e => stored (snd e)) m).
  { clear. induction m as [|[k v] m IH]; [split; constructor|]. rewrite IH. split; [intros (A & B); constructor; assumption|].
    intros H. inversion_clear H. auto. }
  now rewrite E.
Qed.
Lemma stored_array l : stored (JArray l) <-> Forall stored l.
Proof.
  cbn [stored]. induction l as [|v l IH]; [split; constructor|]. rewrite IH. split; [intros (A & B); constructor; assumption|]. intros H. inversion_clear H. auto.
Qed.
Arguments regular : simpl never. Arguments stored : simpl never.

(** * Lists *)
Lemma spliced_app {A} (a b xs : list A) : spliced (a ++ b) (length a) xs = a ++ xs ++ b.
Proof. unfold spliced. now rewrite firstn_app, skipn_app, firstn_all, skipn_all, Nat.sub_diag, firstn_O, app_nil_r. Qed.
Lemma removed_app {A} (a b c : list A) : removed (a ++ b ++ c) (length a) (length a + length b) = a ++ c.
Proof.
  unfold removed. rewrite firstn_app, firstn_all, Nat.sub_diag, firstn_O, app_nil_r. f_equal.
  rewrite app_assoc, <- app_length, skipn_app, skipn_all, Nat.sub_diag. reflexivity.
Qed.
Lemma removed_one {A} (a : list A) x c : removed (a ++ x :: c) (length a) (S (length a)) = a ++ c.
Proof. replace (S (length a)) with (length a + length [x]) by (cbn; lia). exact (removed_app a [x] c). Qed.
Lemma replaced_app {A} (a : list A) x y c : replaced (a ++ x :: c) (length a) y = a ++ y :: c.
Proof.
  unfold replaced. rewrite firstn_app, firstn_all, Nat.sub_diag, firstn_O, app_nil_r. f_equal. f_equal.
  rewrite skipn_app. replace (S (length a) - length a) with 1 by lia. rewrite skipn_all2 by lia. reflexivity.
Qed.
Lemma split_at {A} (l : list A) n : n <= length l -> exists a b, l = a ++ b /\ length a = n.
Proof. intros H. exists (firstn n l), (skipn n l). split; [now rewrite firstn_skipn|]. rewrite firstn_length. lia. Qed.
Lemma split_nth {A} (l : list A) n x : nth_error l n = Some x -> exists a b, l = a ++ x :: b /\ length a = n.
Proof. intros H. apply nth_error_split in H. destruct H as (a & b & -> & <-). eauto. Qed.
Lemma split_lt {A} (l : list A) n : n < length l -> exists a x b, l = a ++ x :: b /\ length a = n.
Proof. intros H. destruct (nth_error l n) as [x|] eqn:E; [apply split_nth in E; destruct E as (a & b & E & L); eauto|]. apply nth_error_None in E. lia. Qed.
Lemma firstn_skipn_app {A} (a b c : list A) : firstn (length b) (skipn (length a) (a ++ b ++ c)) = b.
Proof. now rewrite skipn_app, skipn_all, Nat.sub_diag, skipn_O, app_nil_l, firstn_app, firstn_all, Nat.sub_diag, firstn_O, app_nil_r. Qed.
Lemma range_split {A} (l : list A) i j : i <= j -> j <= length l -> exists a b c, l = a ++ b ++ c /\ length a = i /\ length b = j - i.
Proof.
  intros H1 H2. destruct (split_at l j H2) as (ab & c & -> & L). destruct (split_at ab i ltac:(lia)) as (a & b & -> & L').
  exists a, b, c. rewrite app_length in L. split; [now rewrite app_assoc|]. lia.
Qed.
Lemma Forall_firstn {A} (P : A -> Prop) l n : Forall P l -> Forall P (firstn n l).
Proof. intros H. rewrite <- (firstn_skipn n l) in H. now apply Forall_app in H. Qed.
Lemma Forall_skipn {A} (P : A -> Prop) l n : Forall P l -> Forall P (skipn n l).
Proof. intros H. rewrite <- (firstn_skipn n l) in H. now apply Forall_app in H. Qed.

(** * Values *)
Section JsonInd.
  Variable P : json -> Prop.
  Hypothesis HN : P JNull. Hypothesis HS : forall s, P (JString s). Hypothesis HB : forall b, P (JBool b).
  Hypothesis HI : forall z, P (JSigned z). Hypothesis HU : forall z, P (JUnsigned z). Hypothesis HF : forall f, P (JFloat f).
  Hypothesis HO : forall m, Forall (fun e => P (snd e)) m -> P (JObject m).
  Hypothesis HA : forall l, Forall P l -> P (JArray l).
  Fixpoint json_rect2 (j : json) : P j :=
    match j with
    | JNull => HN | JString s => HS s | JBool b => HB b | JSigned z => HI z | JUnsigned z => HU z | JFloat f => HF f
    | JObject m => HO m ((fix go m : Forall (fun e => P (snd e)) m := match m with [] => Forall_nil _ | e :: r => Forall_cons e (json_rect2 (snd e)) (go r) end) m)
    | JArray l => HA l ((fix go l : Forall P l := match l with [] => Forall_nil _ | e :: r => Forall_cons e (json_rect2 e) (go r) end) l)
    end.
End JsonInd.
Lemma regular_stored j : regular j -> stored j.
Proof.
  induction j as [| | | | | |m IH|l IH] using json_rect2; intros H; try exact I.
  - apply regular_object in H. destruct H as [HS H]. apply stored_object. split; [assumption|]. rewrite Forall_forall in *. intros e He. apply IH; [assumption|]. now apply H.
  - apply regular_array in H. apply stored_array. rewrite Forall_forall in *. auto.
Qed.

(** Predicates on values, as [regular] and [stored] are. *)
Record hereditary (P : json -> Prop) (K : list Z -> Prop) : Prop := {
  h_object : forall m, P (JObject m) <-> sorted_keys m /\ Forall (fun e => K (fst e) /\ P (snd e)) m;
  h_array : forall l, P (JArray l) <-> Forall P l;
  h_null : P JNull }.
Lemma hereditary_regular : hereditary regular utf8_text.
Proof. split; [exact regular_object|exact regular_array|exact I]. Qed.
Lemma hereditary_stored : hereditary stored (fun _ => True).
Proof.
  split; [|exact stored_array|exact I]. intros m. rewrite stored_object. assert (E : Forall (fun e : list Z * json => True /\ stored (snd e)) m <-> Forall (fun e => stored (snd e)) m)
    by (rewrite !Forall_forall; split; intros H e He; apply H in He; tauto). now rewrite E.
Qed.

(** * References *)
Section Hereditary.
Variables (P : json -> Prop) (K : list Z -> Prop).
Hypothesis HP : hereditary P K.
Lemma select_hereditary s j x : P j -> select s j = Some x -> P x.
Proof.
  destruct s as [k|n]; destruct j; cbn [select]; intros H E; try discriminate.
  - apply (h_object _ _ HP) in H. destruct H as [HS H]. rewrite map_find_bound in E by assumption. apply bound_in in E; [|assumption].
    rewrite Forall_forall in H. now apply H in E.
  - apply (h_array _ _ HP) in H. apply nth_error_In in E. rewrite Forall_forall in H. auto.
Qed.
Lemma replace_hereditary s v j : P j -> P v -> P (replace s v j).
Proof.
  destruct s as [k|n]; destruct j; cbn [replace]; intros H HV; try assumption.
  - destruct (map_find k m) as [[p y]|] eqn:EF; [|assumption]. apply (h_object _ _ HP) in H. destruct H as [HS H]. apply (h_object _ _ HP).
    split; [now apply insert_sorted|]. pose proof (map_find_spec k m HS) as HK. rewrite EF in HK. destruct HK as [HK _]. apply nth_error_In in HK.
    rewrite Forall_forall in *. specialize (H _ HK) as HKK. intros [k' v'] HI. apply insert_in in HI; [|assumption]. destruct HI as [[-> ->]|[_ HI]]; [cbn in *; tauto|auto].
  - destruct (n <? length l) eqn:EL; [|assumption]. apply (h_array _ _ HP). apply (h_array _ _ HP) in H. unfold replaced. apply Forall_app. split; [now apply Forall_firstn|].
    constructor; [assumption|]. now apply Forall_skipn.
Qed.
Lemma get_hereditary p : forall j x, P j -> get_at p j = Some x -> P x.
Proof.
  induction p as [|s p IH]; intros j x H E; cbn [get_at] in E; [now injection E as <-|]. destruct (select s j) as [v|] eqn:ES; [|discriminate].
  eapply IH; [|exact E]. eapply select_hereditary; eassumption.
Qed.
Lemma set_hereditary p v : forall j, P j -> P v -> P (set_at p v j).
Proof.
  induction p as [|s p IH]; intros j H HV; cbn [set_at]; [assumption|]. destruct (select s j) as [x|] eqn:ES; [|assumption].
  apply replace_hereditary; [assumption|]. apply IH; [|assumption]. exact (select_hereditary s j x H ES).
Qed.
End Hereditary.

Lemma select_replace s v j x : stored j -> select s j = Some x -> select s (replace s v j) = Some v.
Proof.
  destruct s as [k|n]; destruct j; cbn [select replace]; intros HS E; try discriminate.
  - apply stored_object in HS. destruct HS as [HS _]. destruct (map_find k m) as [[p y]|] eqn:EF; [|discriminate]. cbn [select].
    destruct (insert_or_assign_spec k v m HS) as [HS' HB]. rewrite map_find_bound, HB by assumption. unfold rebind. now destruct (same_key k k).
  - assert (HL : n < length l) by (apply nth_error_Some; congruence). rewrite (proj2 (Nat.ltb_lt _ _) HL). cbn [select].
    apply split_nth in E. destruct E as (a & b & -> & <-). rewrite replaced_app. now rewrite nth_error_app2, Nat.sub_diag by lia.
Qed.
Lemma nth_replaced_other {A} (l : list A) n v i : i <> n -> n < length l -> nth_error (replaced l n v) i = nth_error l i.
Proof.
  intros NE HL. destruct (split_lt l n HL) as (a & x & b & -> & <-). rewrite replaced_app.
  destruct (Nat.lt_ge_cases i (length a)); [now rewrite !nth_error_app1 by lia|]. rewrite !nth_error_app2 by lia.
  destruct (i - length a) as [|k] eqn:E; [lia|reflexivity].
Qed.
Lemma select_replace_other s s' v j x : stored j -> select s j = Some x -> s' <> s -> select s' (replace s v j) = select s' j.
Proof.
  destruct s as [k|n]; destruct j; cbn [select replace]; intros HS E NE; try discriminate.
  - apply stored_object in HS. destruct HS as [HS _]. destruct (map_find k m) as [[p y]|] eqn:EF; [|discriminate]. destruct s' as [k'|n']; [|reflexivity].
    cbn [select]. destruct (insert_or_assign_spec k v m HS) as [HS' HB]. rewrite !map_find_bound, HB by assumption. unfold rebind. destruct (same_key k' k) as [->|]; [congruence|reflexivity].
  - assert (HL : n < length l) by (apply nth_error_Some; congruence). rewrite (proj2 (Nat.ltb_lt _ _) HL). destruct s' as [k'|n']; [reflexivity|]. cbn [select].
    apply nth_replaced_other; [congruence|assumption].
Qed.
Lemma get_set p v : forall j x, stored j -> get_at p j = Some x -> get_at p (set_at p v j) = Some v.
Proof.
  induction p as [|s p IH]; intros j x HS E; cbn [get_at set_at] in *; [reflexivity|]. destruct (select s j) as [y|] eqn:ES; [|discriminate].
  rewrite (select_replace s _ j y HS ES). eapply IH; [|exact E]. eapply (select_hereditary _ _ hereditary_stored); eassumption.
Qed.
Lemma get_app p q : forall j, get_at (p ++ q) j = match get_at p j with Some x => get_at q x | None => None end.
Proof. induction p as [|s p IH]; intros j; [reflexivity|]. cbn. destruct (select s j); [apply IH|reflexivity]. Qed.
Lemma set_app p q v : forall j x, stored j -> get_at p j = Some x -> set_at (p ++ q) v j = set_at p (set_at q v x) j.
Proof.
  induction p as [|s p IH]; intros j x HS E; cbn [get_at set_at app] in *; [now injection E as ->|]. destruct (select s j) as [y|] eqn:ES; [|discriminate].
  f_equal. apply IH; [eapply (select_hereditary _ _ hereditary_stored); eassumption|assumption].
Qed.
Lemma get_set_apart p v : forall q j x, stored j -> get_at p j = Some x ->
  (forall z, q <> p ++ z) -> (forall z, p <> q ++ z) -> get_at q (set_at p v j) = get_at q j.
Proof.
  induction p as [|s p IH]; intros q j x HS E H1 H2; [exfalso; exact (H1 q eq_refl)|]. destruct q as [|s' q]; [exfalso; exact (H2 (s :: p) eq_refl)|].
  cbn [get_at set_at] in *. destruct (select s j) as [y|] eqn:ES; [|discriminate]. destruct (selector_dec s' s) as [->|NE].
  - rewrite (select_replace s _ j y HS ES), ES. eapply IH; [eapply (select_hereditary _ _ hereditary_stored); eassumption|exact E| |].
    + intros z Hz. apply (H1 z). cbn. now f_equal.
    + intros z Hz. apply (H2 z). cbn. now f_equal.
  - now rewrite (select_replace_other s s' _ j y).
Qed.

(** * Operations keep values regular *)
Lemma Forall_resized {A} (P : A -> Prop) fill l n : Forall P l -> P fill -> Forall P (resized fill l n).
Proof. intros H HF. apply Forall_app. split; [now apply Forall_firstn|]. apply Forall_forall. intros x Hx. apply repeat_spec in Hx. now subst. Qed.
Lemma Forall_removed {A} (P : A -> Prop) l a b : Forall P l -> Forall P (removed l a b).
Proof. intros H. apply Forall_app. split; [now apply Forall_firstn|now apply Forall_skipn]. Qed.
Lemma Forall_spliced {A} (P : A -> Prop) l n xs : Forall P l -> Forall P xs -> Forall P (spliced l n xs).
Proof. intros H HX. apply Forall_app. split; [now apply Forall_firstn|]. apply Forall_app. split; [assumption|now apply Forall_skipn]. Qed.
Lemma sorted_removed m a b : sorted_keys m -> a <= b -> sorted_keys (removed m a b).
Proof.
  intros HS. revert a b. induction m as [|[k v] m IH]; intros a b HL; [unfold removed; rewrite firstn_nil, skipn_nil; exact I|]. pose proof HS as [HF HS'].
  destruct a as [|a].
  - unfold removed. cbn [firstn app]. clear - HS. revert HS. generalize ((k, v) :: m). induction b as [|b IHb]; intros [|[k0 v0] l] HS; try assumption. apply IHb. now destruct HS.
  - destruct b as [|b]; [lia|]. unfold removed. cbn [firstn skipn app]. fold (removed m a b). split; [now apply Forall_removed|]. apply IH; [assumption|lia].
Qed.
Lemma object_case {P K} (HP : hereditary P K) m : P (JObject m) -> sorted_keys m /\ Forall (fun e => K (fst e) /\ P (snd e)) m.
Proof. apply (h_object _ _ HP). Qed.

Section Run.
Variables (P : json -> Prop) (K : list Z -> Prop).
Hypothesis HP : hereditary P K.
Variables (sg : bool) (me mb : Z) (at_ : ref -> option json) (self : ref).
Hypothesis Hat : forall r x, at_ r = Some x -> P x.
Hypothesis Hclear : forall j, P (cleared j).
Lemma P_insert k v m : P (JObject m) -> P v -> K k -> P (JObject (fst (map_insert k v m))).
Proof.
  intros H HV HK. apply (h_object _ _ HP) in H. destruct H as [HS H]. apply (h_object _ _ HP). pose proof (map_insert_spec k v m HS) as HI.
  destruct (map_insert k v m) as [m' [p new]]. cbn [fst]. destruct HI as (S1 & SP & _). split; [assumption|]. apply SP; [assumption|]. split; assumption.
Qed.
Lemma P_assign k v m : P (JObject m) -> P v -> K k -> P (JObject (Json_Model.insert_or_assign k v m)).
Proof.
  intros H HV HK. apply (h_object _ _ HP) in H. destruct H as [HS H]. apply (h_object _ _ HP). split; [now apply insert_sorted|]. rewrite Forall_forall in *.
  intros [k' v'] HI. apply insert_in in HI; [|assumption]. destruct HI as [[-> ->]|[_ HI]]; [split; assumption|auto].
Qed.
Lemma P_promote_object j m : P j -> promote_object j = Some m -> P (JObject m).
Proof. destruct j; intros H E; cbn in E; try discriminate; injection E as <-; [|assumption]. apply (h_object _ _ HP). split; [exact I|constructor]. Qed.
Lemma P_promote_array j l : P j -> promote_array j = Some l -> P (JArray l).
Proof. destruct j; intros H E; cbn in E; try discriminate; injection E as <-; [|assumption]. apply (h_array _ _ HP). constructor. Qed.
Lemma P_as_object j m : P j -> as_object j = Some m -> P (JObject m).
Proof. destruct j; intros H E; cbn in E; try discriminate; now injection E as <-. Qed.
Lemma P_as_array j l : P j -> as_array j = Some l -> P (JArray l).
Proof. destruct j; intros H E; cbn in E; try discriminate; now injection E as <-. Qed.
Lemma P_removed j a b : P j -> a <= b -> P (match j with JObject m => JObject (removed m a b) | JArray l => JArray (removed l a b) | _ => j end).
Proof.
  destruct j; intros H HL; try assumption.
  - apply (h_object _ _ HP) in H. apply (h_object _ _ HP). split; [now apply sorted_removed|now apply Forall_removed].
  - apply (h_array _ _ HP) in H. apply (h_array _ _ HP). now apply Forall_removed.
Qed.
Lemma P_array_resized l n : P (JArray l) -> P (JArray (resized JNull l n)).
Proof. intros H. apply (h_array _ _ HP) in H. apply (h_array _ _ HP). apply Forall_resized; [assumption|exact (h_null _ _ HP)]. Qed.

Lemma run_hereditary o j : P j -> Forall P (values_of o) -> (forall k, key_of sg (text_of o) = Some k -> K k) ->
  (forall s n, o = Resize n -> j = JString s -> P (JString (resized 0%Z s (Z.to_nat n)))) ->
  P (fst (run sg me mb at_ self o j)).
Proof.
  intros H HV HK HR. destruct o; cbn [run]; cbn [values_of text_of] in HV, HK.
  - destruct (as_object j); [|assumption]. destruct (key_of sg key) as [k|]; [|assumption]. now destruct (map_find k l) as [[? ?]|].
  - destruct (as_array j); [|assumption]. now destruct (_ <=? _)%Z.
  - destruct (promote_object j) as [m|] eqn:EP; [|assumption]. apply (P_promote_object j m H) in EP. destruct (key_of sg key) as [k|] eqn:EK; [|assumption].
    cbn [fst]. apply P_insert; [assumption|exact (h_null _ _ HP)|auto].
  - destruct (promote_array j) as [l|] eqn:EP; [|assumption]. apply (P_promote_array j l H) in EP. destruct (_ <=? _)%Z; [|assumption]. cbv zeta.
    destruct (_ <? _)%Z; [assumption|]. destruct (_ <=? _)%Z; cbn [fst]; now apply P_array_resized.
  - now destruct (is_iterable j).
  - now destruct (is_iterable j).
  - now destruct (is_iterable j).
  - now destruct (is_iterable j).
  - assumption.
  - assumption.
  - destruct j; try assumption.
    + destruct (_ <? _)%Z; [assumption|]. cbn [fst]. now apply HR.
    + destruct (_ <? _)%Z; [assumption|]. cbn [fst]. now apply P_array_resized.
  - apply Hclear.
  - destruct (key_of sg key) as [k|] eqn:EK; [|assumption]. destruct (as_object j) as [m|] eqn:EO; [|assumption]. apply (P_as_object j m H) in EO.
    inversion_clear HV as [|? ? HV1 _]. pose proof (P_insert k value m EO HV1 (HK _ eq_refl)) as HI. destruct (map_insert k value m) as [m' [p new]]. exact HI.
  - destruct (negb _); [assumption|]. destruct (owner first) as [r|]; [|assumption]. destruct (at_ r) as [source|] eqn:ER; [|assumption].
    destruct (as_object source) as [es|] eqn:ES; [|assumption]. destruct (as_object j) as [m|] eqn:EO; [|assumption]. destruct (_ && _); [|assumption]. cbn [fst].
    apply (P_as_object source es (Hat _ _ ER)) in ES. apply (P_as_object j m H) in EO. apply (h_object _ _ HP) in ES. destruct ES as [_ ES]. apply (h_object _ _ HP) in EO.
    destruct EO as [HS EO]. apply (h_object _ _ HP). fold (insert_all m (firstn (position last - position first) (skipn (position first) es))).
    destruct (insert_all_spec (firstn (position last - position first) (skipn (position first) es)) m HS) as (S1 & SP & _). split; [assumption|]. apply SP; [assumption|].
    now apply Forall_firstn, Forall_skipn.
  - destruct (key_of sg key) as [k|] eqn:EK; [|assumption]. destruct (as_object j) as [m|] eqn:EO; [|assumption]. apply (P_as_object j m H) in EO.
    inversion_clear HV as [|? ? HV1 _]. pose proof (P_insert k value m EO HV1 (HK _ eq_refl)) as HI. destruct (map_insert k value m) as [m' [p new]]. cbn [fst] in HI.
    destruct new; [exact HI|]. cbn [fst]. apply P_assign; [assumption|assumption|auto].
  - destruct (promote_object j) as [m|] eqn:EP; [|assumption]. apply (P_promote_object j m H) in EP. destruct (key_of sg key) as [k|] eqn:EK; [|assumption].
    inversion_clear HV as [|? ? HV1 _]. pose proof (P_insert k value m EP HV1 (HK _ eq_refl)) as HI. destruct (map_insert k value m) as [m' [p new]]. exact HI.
  - destruct (as_array j) as [l|] eqn:EA; [|assumption]. destruct (negb _); [assumption|]. destruct (_ <? _); [assumption|]. destruct (_ <? _)%Z; [assumption|]. cbn [fst].
    apply (P_as_array j l H) in EA. apply (h_array _ _ HP) in EA. apply (h_array _ _ HP). now apply Forall_spliced.
  - destruct (negb _); [assumption|]. destruct (owner first) as [r|]; [|assumption]. destruct (at_ r) as [source|] eqn:ER; [|assumption].
    destruct (as_array source) as [xs|] eqn:ES; [|assumption]. destruct (owned self first); [assumption|]. destruct (as_array j) as [l|] eqn:EA; [|assumption].
    destruct (negb _); [assumption|]. destruct (_ || _); [assumption|]. destruct (_ <? _)%Z; [assumption|]. cbn [fst].
    apply (P_as_array j l H) in EA. apply (h_array _ _ HP) in EA. apply (P_as_array source xs (Hat _ _ ER)) in ES. apply (h_array _ _ HP) in ES.
    apply (h_array _ _ HP). apply Forall_spliced; [assumption|]. now apply Forall_firstn, Forall_skipn.
  - destruct (promote_array j) as [l|] eqn:EP; [|assumption]. apply (P_promote_array j l H) in EP. destruct (_ <? _)%Z; [assumption|]. cbn [fst].
    apply (h_array _ _ HP) in EP. apply (h_array _ _ HP). apply Forall_app. split; assumption.
  - cbv zeta. destruct (as_array j) as [l|] eqn:EA; [|assumption]. destruct (_ <=? _)%Z; [assumption|]. cbn [fst]. apply (P_as_array j l H) in EA.
    apply (h_array _ _ HP) in EA. apply (h_array _ _ HP). now apply Forall_removed.
  - destruct (as_object j) as [m|] eqn:EO; [|assumption]. destruct (key_of sg key) as [k|] eqn:EK; [|assumption]. apply (P_as_object j m H) in EO. apply (h_object _ _ HP) in EO.
    destruct EO as [HS EO]. pose proof (map_erase_spec k m HS) as HE. destruct (map_erase k m) as [m' n]. cbn [fst]. apply (h_object _ _ HP). destruct HE as (S1 & SP & _). split; [assumption|]. now apply SP.
  - destruct (as_array j) as [l|] eqn:EA; [|assumption]. destruct (_ <=? _)%Z; [assumption|]. cbn [fst]. apply (P_as_array j l H) in EA.
    apply (h_array _ _ HP) in EA. apply (h_array _ _ HP). now apply Forall_removed.
  - destruct (negb _); [assumption|]. destruct (negb _); [assumption|]. destruct (_ =? _); [assumption|]. destruct (_ <? _); [assumption|]. cbn [fst]. apply P_removed; [assumption|lia].
  - destruct (negb _); [assumption|]. destruct (_ || _); [assumption|]. destruct (_ || _) eqn:EO; [assumption|]. cbn [fst]. apply P_removed; [assumption|].
    apply orb_false_iff in EO. destruct EO as [EO _]. now apply Nat.ltb_ge in EO.
  - destruct (as_object j); [|assumption]. now destruct (key_of sg key) as [k|].
  - destruct (as_object j); [|assumption]. now destruct (key_of sg key) as [k|].
  - destruct (as_object j); [|assumption]. now destruct (key_of sg key) as [k|].
  - now inversion_clear HV.
Qed.
End Run.

(** * Serialization *)
Lemma serialize_regular fp sg j : regular j -> exists t, serialize fp sg j = Ok t.
Proof.
  assert (W : forall j, well_formed j -> exists t, serialize fp sg j = Ok t) by (intros j' H; destruct (serialize_value fp sg j' H) as (t & E & _); eauto).
  induction j as [|s|b|z|z|f|m IH|l IH] using json_rect2; intros H; try (apply W; exact H).
  - eexists. reflexivity.
  - apply regular_object in H. destruct H as [_ H]. cbn [serialize].
    set (go := fix entries (m : list (list Z * json)) : res (list Z) := match m with [] => _ | _ => _ end).
    assert (HG : exists t, go m = Ok t). 
    { clear W. induction m as [|[k v] m IHm]; [eexists; reflexivity|]. inversion_clear IH as [|? ? I1 I2]. inversion_clear H as [|? ? [H1 H1'] H2]. cbn [fst snd] in *.
      destruct (serialize_string_spec sg k H1) as (tk & Ek & _). destruct (I1 H1') as (tv & Ev). destruct (IHm I2 H2) as (tr & Er).
      unfold go; fold go. rewrite Ek. cbn [bind]. rewrite Ev. cbn [bind]. rewrite Er. eexists. reflexivity. }
    destruct HG as (t & ->). eexists. reflexivity.
  - apply regular_array in H. cbn [serialize].
    set (go := fix elements (l : list json) : res (list Z) := match l with [] => _ | _ => _ end).
    assert (HG : exists t, go l = Ok t).
    { clear W. induction l as [|v l IHl]; [eexists; reflexivity|]. inversion_clear IH as [|? ? I1 I2]. inversion_clear H as [|? ? H1 H2].
      destruct (I1 H1) as (tv & Ev). destruct (IHl I2 H2) as (tr & Er). unfold go; fold go. rewrite Ev. cbn [bind]. rewrite Er. eexists. reflexivity. }
    destruct HG as (t & ->). eexists. reflexivity.
Qed.

(** * Worlds *)
Definition world_of (P : json -> Prop) (w : world) : Prop := forall x, P (w x).
Lemma read_hereditary P K (HP : hereditary P K) w r j : world_of P w -> read w r = Some j -> P j.
Proof. intros HW E. exact (get_hereditary P K HP (snd r) (w (fst r)) j (HW _) E). Qed.
Lemma write_hereditary P K (HP : hereditary P K) w r v : world_of P w -> P v -> world_of P (write w r v).
Proof. intros HW HV x. unfold write. destruct (x =? fst r); [|apply HW]. apply (set_hereditary P K HP); [apply HW|assumption]. Qed.
Lemma read_write w r v j : world_of stored w -> read w r = Some j -> read (write w r v) r = Some v.
Proof. intros HW E. unfold read, write in *. rewrite Nat.eqb_refl. eapply get_set; [apply HW|exact E]. Qed.
Lemma read_write_apart w r r' v j : world_of stored w -> read w r = Some j -> apart r r' -> read (write w r v) r' = read w r'.
Proof.
  intros HW E HA. unfold read, write in *. destruct (fst r' =? fst r) eqn:EF; [|reflexivity]. apply Nat.eqb_eq in EF.
  destruct HA as [HA|[H1 H2]]; [congruence|]. rewrite EF. eapply get_set_apart; [apply HW|exact E|assumption|assumption].
Qed.
Lemma cleared_regular j : regular (cleared j).
Proof.
  destruct j; try exact I; cbn [cleared].
  - exists []. split; [constructor|reflexivity].
  - apply regular_object. split; [exact I|constructor].
  - unfold regular. lia.
  - unfold regular. lia.
Qed.
Lemma cleared_stored j : stored (cleared j).
Proof. apply regular_stored, cleared_regular. Qed.
Lemma literal_utf8 sg t k : Forall byte t -> key_of sg t = Some k -> utf8_text k.
Proof. exact (construct_text sg t k). Qed.
Lemma resized_text s n : utf8_text (firstn n s) -> utf8_text (resized 0%Z s n).
Proof.
  intros (cs & HF & E). unfold resized. exists (cs ++ repeat 0%Z (n - length s)). split.
  - apply Forall_app. split; [assumption|]. apply Forall_forall. intros x Hx. apply repeat_spec in Hx. subst. unfold scalar. lia.
  - rewrite flat_map_app, <- E. f_equal. induction (n - length s) as [|i IH]; [reflexivity|]. cbn [repeat flat_map]. rewrite <- IH. reflexivity.
Qed.
Lemma run_regular sg me mb at_ self o j : (forall r x, at_ r = Some x -> regular x) -> regular j -> proper o -> careful j o ->
  regular (fst (run sg me mb at_ self o j)).
Proof.
  intros Hat H (HV & HB & _) HC. apply (run_hereditary regular utf8_text hereditary_regular); [assumption|exact cleared_regular|assumption|assumption| |].
  - intros k. apply literal_utf8. exact HB.
  - intros s n -> ->. exact (resized_text s _ HC).
Qed.
Lemma run_stored sg me mb at_ self o j : (forall r x, at_ r = Some x -> stored x) -> stored j -> Forall stored (values_of o) ->
  stored (fst (run sg me mb at_ self o j)).
Proof.
  intros Hat H HV. apply (run_hereditary stored (fun _ => True) hereditary_stored); [assumption|exact cleared_stored|assumption|assumption|auto|]. intros. exact I.
Qed.
