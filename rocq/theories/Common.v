(** Shared vocabulary of the models: machine arithmetic and outcomes.
    Nothing here is specific to one libfly component. *)
From Coq Require Export List Arith ZArith Bool Lia.
Export ListNotations.
#[global] Open Scope Z_scope.

(** Outcome of a modelled C++ computation.  [UB] is undefined behaviour reached (over-wide shift,
    out-of-bounds access, dereference of an empty optional, ...): no theorem treats it as a value. *)
Inductive res (A : Type) : Type :=
| Ok (a : A)
| UB.
Arguments Ok {A} a.
Arguments UB {A}.

Definition bind {A B} (r : res A) (f : A -> res B) : res B :=
  match r with Ok a => f a | UB => UB end.
(** Invert [bind r f = Ok v]. *)
Ltac inv_bind E :=
  match type of E with
  | bind ?r _ = Ok _ => let H := fresh "Hb" in destruct r eqn:H; [cbn [bind] in E|discriminate E]
  end.
Declare Scope res_scope.
Notation "'let!' x := r 'in' e" := (bind r (fun x => e))
  (at level 200, x pattern, r at level 100, e at level 200) : res_scope.
#[global] Open Scope res_scope.

(** Unsigned wrap-around to [w] bits. *)
Definition wrap (w v : Z) : Z := v mod 2 ^ w.
Definition u8 (v : Z) : Z := wrap 8 v.
Definition u16 (v : Z) : Z := wrap 16 v.
Definition u32 (v : Z) : Z := wrap 32 v.
Definition u64 (v : Z) : Z := wrap 64 v.

(** Two's complement reading of the low [w] bits (implementation of signed integral types). *)
Definition signed (w v : Z) : Z :=
  let x := v mod 2 ^ w in if x <? 2 ^ (w - 1) then x else x - 2 ^ w.

(** Shifts of a [w]-bit unsigned value (w = 32 or 64 after integral promotion): undefined when the
    shift count is negative or not less than the promoted width ([expr.shift]). *)
Definition shr (w v k : Z) : res Z :=
  if (0 <=? k) && (k <? w) then Ok (Z.shiftr v k) else UB.
Definition shl (w v k : Z) : res Z :=
  if (0 <=? k) && (k <? w) then Ok (wrap w (Z.shiftl v k)) else UB.

Definition is_byte (b : Z) : bool := (0 <=? b) && (b <? 256).
Definition bytes_ok (l : list Z) : bool := forallb is_byte l.

Fixpoint lookup {A} (l : list A) (n : nat) : option A :=
  match l, n with
  | x :: _, O => Some x
  | _ :: l', S n' => lookup l' n'
  | [], _ => None
  end.
