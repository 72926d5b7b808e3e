(** Specification vocabulary for C50, on the history of a path monitor. *)
From Verif Require Import Common Path_Model. (* only for the types of events and states *)
Open Scope nat_scope.

(** What the user asked for: the callback registered for a directory ([None]) or for one of its files, after the calls in a history. *)
Definition registry := nat -> option name -> option nat.
Definition target_dec (a b : option name) : {a = b} + {a <> b}.
Proof. decide equality. apply (list_eq_dec Z.eq_dec). Defined.
Arguments target_dec : simpl never.
Definition asked (w : registry) (e : event) : registry :=
  match e with
  | EAdd _ _ _ Refused => w
  | EAdd p t h _ => fun q u => if q =? p then if target_dec u t then Some h else w q u else w q u
  | ERemovePath p _ => fun q u => if q =? p then None else w q u
  | ERemoveFile p n _ _ => fun q u => if q =? p then if target_dec u (Some n) then None else w q u else w q u
  | ERemoveAll => fun _ _ => None
  | _ => w
  end.
Definition want (l : list event) : registry := fold_left asked l (fun _ _ => None).
(** Callbacks for a file take precedence over those for its directory. *)
Definition expected (l : list event) (p : nat) (n : name) : option nat :=
  match want l p (Some n) with Some h => Some h | None => want l p None end.

(** What is reported for a change. *)
Definition reported (c : change) : path_event :=
  match c with Create | MoveIn => PCreated | Delete | MoveOut => PDeleted | Modify => PChanged end.

(** The changes made in directory [d], and the events handled for path [p], in order. *)
Definition changes (d : nat) (l : list event) : list (Z * name) :=
  flat_map (fun e => match e with EChange d' c f n => if d' =? d then [(mask_of c f, n)] else [] | _ => [] end) l.
Definition handled (p : nat) (l : list event) : list (Z * name) :=
  flat_map (fun e => match e with EHandled q n m _ => if q =? p then [(m, n)] else [] | _ => [] end) l.
(** Events of a watch not yet handled. *)
Definition waiting (s : state) (w : nat) : list (Z * name) :=
  flat_map (fun x => let '(v, m, n) := x in if v =? w then [(m, n)] else []) (batch s ++ queue s).
(** [kept] is [all], but an event equal to the one before it may have been merged with it (inotify(7)). *)
Inductive merges {A} : list A -> list A -> Prop :=
| merges_nil : merges [] []
| merges_keep all kept x : merges all kept -> merges (all ++ [x]) (kept ++ [x])
| merges_drop all kept x : merges (all ++ [x]) kept -> merges ((all ++ [x]) ++ [x]) kept.

(** remove_file calls that found a file, emptied the entry of the directory, and have yet to remove it. *)
Definition removals (p : nat) (l : list event) : nat :=
  length (filter (fun e => match e with ERemoveFile q _ _ true => q =? p | _ => false end) l).
Definition prunes (p : nat) (l : list event) : nat :=
  length (filter (fun e => match e with EPrune q _ => q =? p | _ => false end) l).
(** No callback is added in a directory while a call of remove_file is removing that directory's last one. *)
Definition no_race (l : list event) : Prop :=
  forall a p t h r b, l = a ++ EAdd p t h r :: b -> r <> Refused -> removals p a = prunes p a.
(** No two paths used with the monitor name the same directory. *)
Definition no_alias (l : list event) : Prop :=
  forall p q t u h g d, In (EAdd p t h (Created d)) l -> In (EAdd q u g (Created d)) l -> p = q.
(** Some callback stays registered for [p] or a file in it. *)
Definition stays_wanted (a : list event) (p : nat) (b : list event) : Prop :=
  forall b1 b2, b = b1 ++ b2 -> exists u, want (a ++ b1) p u <> None.

(** A step of the polling task (its callbacks return). *)
Definition own (s s' : state) : Prop :=
  step s s' /\ (hist s' = hist s \/ exists p n m r, hist s' = hist s ++ [EHandled p n m r]).
Inductive steps (s : state) : state -> Prop :=
| steps_refl : steps s s
| steps_more x y : steps s x -> step x y -> steps s y.
(** Events that are calls which did something, or callbacks. *)
Definition effect (e : event) : bool :=
  match e with EAdd _ _ _ Refused => false | EAdd _ _ _ _ | ERemovePath _ _ | ERemoveFile _ _ _ _ | EPrune _ _ | ERemoveAll | EHandled _ _ _ _ => true | _ => false end.

(** An inotify event as the kernel writes it: names are padded with at least one NUL; events of the directory itself have no name. *)
Definition u32_bytes (big : bool) (v : Z) : list Z :=
  let l := [v mod 256; (v / 256) mod 256; (v / 65536) mod 256; (v / 16777216) mod 256]%Z in if big then rev l else l.
Record raw := Raw { r_wd : Z; r_mask : Z; r_cookie : Z; r_name : name; r_pad : nat }.
Definition raw_ok (r : raw) : Prop :=
  (- 2 ^ 31 <= r_wd r < 2 ^ 31 /\ 0 <= r_mask r < 2 ^ 32 /\ 0 <= r_cookie r < 2 ^ 32 /\ Z.of_nat (length (r_name r) + r_pad r) < 2 ^ 32)%Z /\
  ~ In 0%Z (r_name r) /\ (r_name r <> [] -> 0 < r_pad r) /\ (r_name r = [] -> r_pad r = 0).
Definition raw_bytes (big : bool) (r : raw) : list Z :=
  u32_bytes big (r_wd r mod 2 ^ 32) ++ u32_bytes big (r_mask r) ++ u32_bytes big (r_cookie r) ++
  u32_bytes big (Z.of_nat (length (r_name r) + r_pad r)) ++ r_name r ++ repeat 0%Z (r_pad r).
Definition raw_events (l : list raw) : list (Z * Z * name) :=
  flat_map (fun r => match r_name r with [] => [] | n => [(r_wd r, r_mask r, n)] end) l.
