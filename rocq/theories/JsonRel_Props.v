(** C32: the operators !=, <=, > and >= of Json values. *)
From Coq Require Import SpecFloat.
From Verif Require Import Common Json_Spec Json_Model Json_Order_Proofs Json_Order_Props JsonFloat_Props JsonRel_Model.
Open Scope Z_scope.

(** * Specification *)
(** The six operators agree with one total order whose equality is ==. *)
Definition total_order (S : json -> Prop) (eq ne lt le gt ge : json -> json -> bool) : Prop :=
  forall a b c, S a -> S b -> S c ->
    (* exactly one of <, ==, > *)
    ((lt a b = true /\ eq a b = false /\ gt a b = false) \/ (lt a b = false /\ eq a b = true /\ gt a b = false) \/ (lt a b = false /\ eq a b = false /\ gt a b = true)) /\
    (ne a b = true <-> ~ eq a b = true) /\
    (le a b = true <-> lt a b = true \/ eq a b = true) /\ (ge a b = true <-> gt a b = true \/ eq a b = true) /\
    (gt a b = lt b a) /\ (ge a b = le b a) /\
    (le a b = true -> le b c = true -> le a c = true) /\ (lt a b = true -> le b c = true -> lt a c = true) /\ (le a b = true -> lt b c = true -> lt a c = true) /\
    (le a b = true -> le b a = true -> eq a b = true).
(** <= is total and transitive; < is its strict part, and > and >= their converses. *)
Definition total_preorder (S : json -> Prop) (lt le gt ge : json -> json -> bool) : Prop :=
  forall a b c, S a -> S b -> S c ->
    (le a b = true \/ le b a = true) /\ (le a b = true -> le b c = true -> le a c = true) /\
    (lt a b = true <-> le a b = true /\ ~ le b a = true) /\ (gt a b = lt b a) /\ (ge a b = le b a).

(** * Theorems *)
(** Whatever is compared, > is the converse of <, >= the converse of <=, and != the opposite of ==. *)
Theorem relations_converse : forall ff a b, json_gt_op ff a b = json_lt ff b a /\ json_ge ff a b = json_le ff b a /\
  (json_ne ff a b = true <-> json_eq ff a b = false) /\ (json_le ff a b = true <-> json_gt_op ff a b = false) /\ (json_lt ff a b = true <-> json_ge ff a b = false).
Proof.
  intros ff a b. unfold json_ne, json_gt_op, json_ge, json_le. rewrite Bool.negb_involutive.
  split; [reflexivity|]. split; [reflexivity|]. split; [destruct (json_eq ff a b); cbn; split; congruence|].
  split; [destruct (json_lt ff b a); cbn; split; congruence|destruct (json_lt ff a b); cbn; split; congruence].
Qed.
Lemma ordered_total ff S : ordered S (json_lt ff) (json_eq ff) -> total_order S (json_eq ff) (json_ne ff) (json_lt ff) (json_le ff) (json_gt_op ff) (json_ge ff).
Proof.
  intros O a b c Ha Hb Hc. destruct (O a b a Ha Hb Ha) as (I & AB & EAB & _ & SAB & _). destruct (O b a b Hb Ha Hb) as (_ & _ & EBA & _ & SBA & _).
  destruct (O a b c Ha Hb Hc) as (_ & TABC & _ & _ & _ & EABC). destruct (O c a b Hc Ha Hb) as (_ & TCAB & _ & _ & _ & _). destruct (O b c a Hb Hc Ha) as (_ & TBCA & EBC & _ & _ & _).
  destruct (O a c b Ha Hc Hb) as (_ & TACB & EAC & _ & SAC & EACB). destruct (O c b a Hc Hb Ha) as (_ & TCBA & _ & _ & SCB & ECBA). destruct (O b a c Hb Ha Hc) as (_ & TBAC & _ & _ & _ & EBAC).
  destruct (O c a c Hc Ha Hc) as (IC & _ & _ & _ & _ & _). destruct (O b c b Hb Hc Hb) as (IB & _ & _ & _ & SBC & _).
  unfold json_ne, json_gt_op, json_ge, json_le. destruct (json_lt ff a b) eqn:LAB, (json_lt ff b a) eqn:LBA, (json_eq ff a b) eqn:QAB, (json_lt ff b c) eqn:LBC, (json_lt ff c b) eqn:LCB, (json_lt ff a c) eqn:LAC, (json_lt ff c a) eqn:LCA; cbn [negb]; intuition congruence.
Qed.
(** Where < was shown to be a strict total order consistent with ==, all six operators agree with it. *)
Theorem relations_integers_partial : forall ff,
  total_order (all_numbers in_int64 never never) (json_eq ff) (json_ne ff) (json_lt ff) (json_le ff) (json_gt_op ff) (json_ge ff) /\
  total_order (all_numbers never in_uint64 never) (json_eq ff) (json_ne ff) (json_lt ff) (json_le ff) (json_gt_op ff) (json_ge ff) /\
  total_order (all_numbers in_both in_both never) (json_eq ff) (json_ne ff) (json_lt ff) (json_le ff) (json_gt_op ff) (json_ge ff).
Proof.
  intros ff. split; [|split]; apply ordered_total; [apply order_signed_partial|apply order_unsigned_partial|apply order_nonnegative_partial].
Qed.
Lemma weak_preorder ff S : strict_weak S (json_lt ff) -> total_preorder S (json_lt ff) (json_le ff) (json_gt_op ff) (json_ge ff).
Proof.
  intros O a b c Ha Hb Hc. destruct (O a b a Ha Hb Ha) as (I & AB & _). destruct (O b a b Hb Ha Hb) as (IB & BA & _).
  destruct (O c b a Hc Hb Ha) as (_ & TCBA & WCBA). destruct (O c a b Hc Ha Hb) as (_ & TCAB & _). destruct (O b c a Hb Hc Ha) as (_ & TBCA & _). destruct (O a b c Ha Hb Hc) as (_ & TABC & WABC).
  destruct (O a c b Ha Hc Hb) as (_ & TACB & _). destruct (O b a c Hb Ha Hc) as (_ & TBAC & _).
  unfold json_gt_op, json_ge, json_le. destruct (json_lt ff a b) eqn:LAB, (json_lt ff b a) eqn:LBA, (json_lt ff b c) eqn:LBC, (json_lt ff c b) eqn:LCB, (json_lt ff a c) eqn:LAC, (json_lt ff c a) eqn:LCA; cbn [negb]; intuition congruence.
Qed.
(** With floating-point numbers other than NaN, and no integers, or, where long double holds them, integers of one kind. *)
Theorem relations_floats_partial : forall ff, total_preorder (all_numbers never never not_nan) (json_lt ff) (json_le ff) (json_gt_op ff) (json_ge ff) /\
  (wide_enough ff -> total_preorder (all_numbers in_int64 never not_nan) (json_lt ff) (json_le ff) (json_gt_op ff) (json_ge ff) /\
    total_preorder (all_numbers never in_uint64 not_nan) (json_lt ff) (json_le ff) (json_gt_op ff) (json_ge ff) /\
    total_preorder (all_numbers in_both in_both not_nan) (json_lt ff) (json_le ff) (json_gt_op ff) (json_ge ff)).
Proof.
  intros ff. split; [apply weak_preorder, order_float_partial|]. intros W. destruct (order_mixed_partial ff W) as (A & B & C).
  split; [|split]; apply weak_preorder; assumption.
Qed.
(** NaN: every number is <= it and >= it, and none is == to it, nor it to itself. *)
Theorem relations_nan_refuted : forall ff j, is_number j = true ->
  json_le ff j (JFloat S754_nan) = true /\ json_ge ff j (JFloat S754_nan) = true /\ json_le ff (JFloat S754_nan) j = true /\
  json_eq ff j (JFloat S754_nan) = false /\ json_ne ff j (JFloat S754_nan) = true.
Proof.
  assert (N : forall f, SFltb f S754_nan = false /\ SFltb S754_nan f = false) by (intros [[]|[]| |[] ? ?]; split; reflexivity).
  assert (E : forall ff f, float_near ff f S754_nan = false) by (intros ff [[]|[]| |[] ? ?]; reflexivity).
  intros ff [| | | | |x|x|f] H; try discriminate; unfold json_ne, json_ge, json_le; cbn [json_lt json_eq]; rewrite ?E, ?(proj1 (N _)), ?(proj2 (N _)); repeat split.
Qed.
(** Signed and unsigned: -1 < 0u is true, but -1 <= 0u is false; and 0u < -1. *)
Theorem relations_mixed_refuted : forall ff, json_lt ff (JSigned (-1)) (JUnsigned 0) = true /\ json_le ff (JSigned (-1)) (JUnsigned 0) = false /\
  json_gt_op ff (JSigned (-1)) (JUnsigned 0) = true.
Proof. intros ff. vm_compute. repeat split. Qed.
Example relations_example : json_le x87 (JArray [JSigned 1; JNull]) (JArray [JSigned 1; JString [97]]) = true /\ json_gt_op x87 (JArray [JSigned 2]) (JArray [JSigned 1; JNull]) = true /\
  json_ge x87 (JString [98]) (JString [97; 98]) = true /\ json_ne x87 (JSigned 1) (JNull) = true.
Proof. vm_compute. repeat split. Qed.
Example relations_domain : all_numbers in_int64 never never (JArray [JSigned (-1); JNull]) /\ wide_enough x87 /\ not_nan (S754_zero true).
Proof. split; [cbn; unfold in_int64; lia|]. split; [unfold wide_enough, format_ok; cbn; lia|discriminate]. Qed.
Print Assumptions relations_floats_partial.
