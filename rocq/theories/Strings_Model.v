(** Model of split, trim, replace_all, remove_all and wildcard_match
    (fly/types/string/string.hpp:504-633).  Strings are lists of characters; npos is [None]. *)
From Verif Require Import Common Lexer_Model.

(** * The std::basic_string(_view) operations used *)

(** std::find_if: index of the first element satisfying [p]. *)
Fixpoint find_if (p : Z -> bool) (s : list Z) : option nat :=
  match s with
  | [] => None
  | c :: r => if p c then Some O else option_map S (find_if p r)
  end.
(** find(ch, pos) *)
Definition find_char (s : list Z) (ch : Z) (pos : nat) : option nat :=
  option_map (fun i => (pos + i)%nat) (find_if (fun c => c =? ch) (skipn pos s)).
(** starts_with / ends_with *)
Fixpoint starts_with (s prefix : list Z) {struct prefix} : bool :=
  match prefix, s with
  | [], _ => true
  | p :: ps, c :: r => (c =? p) && starts_with r ps
  | _ :: _, [] => false
  end.
Definition ends_with (s suffix : list Z) : bool := starts_with (rev s) (rev suffix).
(** find(str, pos): the least index >= pos at which [str] occurs. *)
Fixpoint find_here (s str : list Z) : option nat :=
  if starts_with s str then Some O
  else match s with [] => None | _ :: r => option_map S (find_here r str) end.
Definition find_str (s str : list Z) (pos : nat) : option nat :=
  if (pos <=? length s)%nat then option_map (fun i => (pos + i)%nat) (find_here (skipn pos s) str) else None.
(** substr(pos, n): throws std::out_of_range when pos > size (modelled as [UB]). *)
Definition substr (s : list Z) (pos : nat) (n : option nat) : res (list Z) :=
  if (pos <=? length s)%nat
  then Ok (match n with Some k => firstn k (skipn pos s) | None => skipn pos s end)
  else UB.

(** * split, string.hpp:504-549 *)

(** The lambda push_item (522-536). elements.back() exists when elements.size() == count > 0. *)
Definition push_item (count : nat) (delimiter : Z) (elements : list (list Z)) (str : list Z) : list (list Z) :=
  match str with
  | [] => elements
  | _ => if ((0 <? count) && (length elements =? count))%nat
         then removelast elements ++ [last elements [] ++ delimiter :: str]
         else elements ++ [str]
  end.

(** The loop at 538-545 and the final piece; [start] grows with every iteration. *)
Fixpoint split_loop (fuel : nat) (input : list Z) (delimiter : Z) (count : nat)
    (start : nat) (end_ : option nat) (elements : list (list Z)) : res (list (list Z)) :=
  match end_ with
  | None =>
      let! item := substr input start None in
      Ok (push_item count delimiter elements item)
  | Some e =>
      match fuel with
      | O => UB
      | S f =>
          let! item := substr input start (Some (e - start)%nat) in
          let elements' := push_item count delimiter elements item in
          let start' := (e + 1)%nat in
          split_loop f input delimiter count start' (find_char input delimiter start') elements'
      end
  end.
Definition split (input : list Z) (delimiter : Z) (count : nat) : res (list (list Z)) :=
  split_loop (S (length input)) input delimiter count 0 (find_char input delimiter 0) [].

(** * trim, string.hpp:551-565 *)
Definition trim (target : list Z) : list Z :=
  let is_non_space := fun ch => negb (is_space ch) in
  let t1 := match find_if is_non_space target with Some i => skipn i target | None => [] end in
  match find_if is_non_space (rev t1) with Some i => firstn (length t1 - i) t1 | None => [] end.

(** * replace_all, string.hpp:567-591; [None]: still looping after [fuel] iterations. *)
Fixpoint replace_all (fuel : nat) (target search replace : list Z) : option (list Z) :=
  match search, find_str target search 0 with
  | [], _ => Some target
  | _, None => Some target
  | _, Some index =>
      match fuel with
      | O => None
      | S f => replace_all f (firstn index target ++ replace ++ skipn (index + length search) target) search replace
      end
  end.
(** string.hpp:567-578: the overload with a replacement character. *)
Definition replace_all_char (fuel : nat) (target search : list Z) (ch : Z) : option (list Z) :=
  replace_all fuel target search [ch].
(** string.hpp:593-598 *)
Definition remove_all (fuel : nat) (target search : list Z) : option (list Z) := replace_all fuel target search [].

(** * wildcard_match, string.hpp:600-633 *)
Definition s_wildcard := 42.
Fixpoint match_segments (source : list Z) (segments : list (list Z)) (index : nat) : bool :=
  match segments with
  | [] => true
  | seg :: r => match find_str source seg index with Some i => match_segments source r i | None => false end
  end.
Definition wildcard_match (source search : list Z) : res bool :=
  let! segments := split search s_wildcard 0 in
  match search, segments with
  | [], _ => Ok false
  | _, [] => Ok true
  | first :: _, seg0 :: _ =>
      Ok ((if first =? s_wildcard then true else starts_with source seg0)
          && (if last search 0 =? s_wildcard then true else ends_with source (last segments []))
          && match_segments source segments 0)
  end.
