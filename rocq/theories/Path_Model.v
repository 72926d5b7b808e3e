(** Model of the path monitor: fly/path/path_monitor.cpp and its Linux implementation fly/path/nix/path_monitor_impl.cpp, with
    the part of inotify(7) they use.  Any number of threads call the monitor; every critical section of m_mutex is one step, except
    that of PathMonitorImpl::poll, whose steps (during which [mode] is not [Free]) are taken one at a time while the mutex is held.
    Simplifications: a directory path (as std::filesystem::path compares it) is a number, a directory in the file system is a number,
    [resolve] says which directory a path names and may change at any moment; a file is a directory path and a name (its bytes, not
    empty, without '/' and NUL), i.e. parent_path() and filename(); callbacks are numbers and return; the poll task is always queued
    again (poll_paths_later, path_monitor.cpp:186-201: the monitor and its task runner exist), so [Free] is a monitor whose poll task
    is queued or in ::poll.  Event cookies are not modelled. *)
From Verif Require Import Common.
Open Scope nat_scope.

Definition name := list Z.
Definition name_eqb (a b : name) : bool := if list_eq_dec Z.eq_dec a b then true else false.

(** * Reading events *)
Definition u32_at (big : bool) (b : list Z) : option Z :=
  match b with
  | b0 :: b1 :: b2 :: b3 :: _ =>
      Some (if big then ((b0 * 256 + b1) * 256 + b2) * 256 + b3 else ((b3 * 256 + b2) * 256 + b1) * 256 + b0)%Z
  | _ => None
  end.
(** The C string at the front of [b], at most [n] bytes long. *)
Fixpoint c_string (b : list Z) : name := match b with [] => [] | c :: r => if (c =? 0)%Z then [] else c :: c_string r end.
(** path_monitor_impl.cpp:96-107: the loop of read_events over the [size] bytes read.  An event is { int wd; uint32_t mask; uint32_t cookie;
    uint32_t len; char name[len]; } in host byte order.  Reading a field or a name past the bytes read is UB (in the program it reads stale bytes
    of m_event_data or past it). *)
Fixpoint parse_events (fuel : nat) (big : bool) (b : list Z) : res (list (Z * Z * name)) :=
  match b, fuel with
  | [], _ => Ok []
  | _, O => UB
  | _, S fuel' =>
      match u32_at big b, u32_at big (skipn 4 b), u32_at big (skipn 12 b) with
      | Some wd, Some mask, Some len =>
          let rest := skipn 16 b in
          if (Z.of_nat (length rest) <? len)%Z then UB
          else
            let! more := parse_events fuel' big (skipn (Z.to_nat len) rest) in
            Ok (if (0 <? len)%Z then (signed 32 wd, mask, c_string (firstn (Z.to_nat len) rest)) :: more else more)
      | _, _, _ => UB
      end
  end.

(** path_monitor.hpp:23-30 *)
Inductive path_event := PNone | PCreated | PDeleted | PChanged.
(** inotify.h *)
Definition IN_MODIFY : Z := 2.
Definition IN_MOVED_FROM : Z := 64.
Definition IN_MOVED_TO : Z := 128.
Definition IN_CREATE : Z := 256.
Definition IN_DELETE : Z := 512.
Definition IN_ISDIR : Z := 1073741824.
Definition test (mask flag : Z) : bool := negb (Z.land mask flag =? 0)%Z.
(** path_monitor_impl.cpp:158-176 convert_to_event *)
Definition convert_to_event (mask : Z) : path_event :=
  if test mask IN_CREATE || test mask IN_MOVED_TO then PCreated
  else if test mask IN_DELETE || test mask IN_MOVED_FROM then PDeleted
  else if test mask IN_MODIFY then PChanged
  else PNone.

(** * The monitor *)
(** path_monitor.hpp PathInfo, path_monitor_impl.hpp:57-73 PathInfoImpl *)
Record info := Info { i_wd : nat; i_path : option nat; i_files : list (name * nat) }.

(** What happens to an entry of a directory, and the mask inotify reports for it (s_change_flags, path_monitor_impl.cpp:18). *)
Inductive change := Create | MoveIn | Delete | MoveOut | Modify.
Definition mask_of (c : change) (is_directory : bool) : Z :=
  ((match c with Create => 256 | MoveIn => 128 | Delete => 512 | MoveOut => 64 | Modify => 2 end) + (if is_directory then 1073741824 else 0))%Z.

Inductive added := Refused | Joined | Created (directory : nat).
Inductive event :=
| EAdd (p : nat) (target : option name) (h : nat) (r : added) (* add_path (None) or add_file; Refused is the result false *)
| ERemovePath (p : nat) (result : bool)
| ERemoveFile (p : nat) (n : name) (found : bool) (prune : bool) (* remove_file; if [prune], it goes on to remove_path *)
| EPrune (p : nat) (result : bool) (* ... which it does here *)
| ERemoveAll
| EChange (d : nat) (c : change) (is_directory : bool) (n : name) (* the file system *)
| EResolve (p : nat) (d : option nat)
| EDirectoryGone (d : nat)
| EOverflow
| EHandled (p : nat) (n : name) (mask : Z) (called : option (nat * path_event)) (* handle_event; the callback it invoked *)
| EReentry. (* a callback called a method of the monitor *)

Inductive phase := Free | Polling | InCallback | Stuck.
Record state := State {
  infos : list (nat * info); (* m_path_info *)
  pruning : list nat; (* calls of remove_file about to call remove_path *)
  mode : phase;
  batch : list (nat * Z * name); (* read and not yet handled *)
  queue : list (nat * Z * name); (* inotify: not yet read *)
  watches : list (nat * nat); (* inotify: directory, watch descriptor *)
  next_wd : nat;
  resolve : nat -> option nat;
  hist : list event }.

Fixpoint find (p : nat) (l : list (nat * info)) : option info :=
  match l with [] => None | (q, i) :: r => if q =? p then Some i else find p r end.
Definition erase (p : nat) (l : list (nat * info)) : list (nat * info) := filter (fun x => negb (fst x =? p)) l.
Fixpoint update (p : nat) (i : info) (l : list (nat * info)) : list (nat * info) :=
  match l with [] => [] | (q, j) :: r => if q =? p then (q, i) :: r else (q, j) :: update p i r end.
Fixpoint find_file (n : name) (l : list (name * nat)) : option nat :=
  match l with [] => None | (m, h) :: r => if name_eqb m n then Some h else find_file n r end.
Definition erase_file (n : name) (l : list (name * nat)) : list (name * nat) := filter (fun x => negb (name_eqb (fst x) n)) l.
Fixpoint find_watch (d : nat) (l : list (nat * nat)) : option nat :=
  match l with [] => None | (e, w) :: r => if e =? d then Some w else find_watch d r end.

(** inotify_add_watch: a directory already watched keeps its descriptor. *)
Definition add_watch (s : state) (d : nat) : nat * (list (nat * nat)) * nat :=
  match find_watch d (watches s) with
  | Some w => (w, watches s, next_wd s)
  | None => (next_wd s, (d, next_wd s) :: watches s, S (next_wd s))
  end.
(** inotify_rm_watch; events already queued stay. *)
Definition rm_watch (w : nat) (l : list (nat * nat)) : list (nat * nat) := filter (fun x => negb (snd x =? w)) l.
(** path_monitor.cpp:62-63 and 134: a callback is stored *)
Definition store (i : info) (target : option name) (h : nat) : info :=
  match target with
  | None => Info (i_wd i) (Some h) (i_files i)
  | Some n => Info (i_wd i) (i_path i) ((n, h) :: erase_file n (i_files i))
  end.
(** path_monitor_impl.cpp:131-141: the file's callback, or that of the directory *)
Definition callback_for (i : info) (n : name) : option nat :=
  match find_file n (i_files i) with Some h => Some h | None => i_path i end.
(** path_monitor_impl.cpp:124-151, with the path found *)
Definition called_for (i : info) (n : name) (mask : Z) : option (nat * path_event) :=
  match convert_to_event mask with
  | PNone => None
  | t => match callback_for i n with Some h => Some (h, t) | None => None end
  end.
(** unordered_map::erase of a PathInfo and ~PathInfoImpl, path_monitor_impl.cpp:197-204 *)
Definition drop_watch (s : state) (p : nat) : list (nat * nat) :=
  match find p (infos s) with Some i => rm_watch (i_wd i) (watches s) | None => watches s end.
Definition empty_info (i : info) : bool := match i_files i, i_path i with [], None => true | _, _ => false end.

Inductive step (s : state) : state -> Prop :=
(* add_path, path_monitor.cpp:46-71, and add_file, 99-127: the checks before the mutex is taken (no callback, not a directory / not a file) *)
| s_add_refused p t h : step s (State (infos s) (pruning s) (mode s) (batch s) (queue s) (watches s) (next_wd s) (resolve s) (hist s ++ [EAdd p t h Refused]))
(* get_or_create_path_info, path_monitor.cpp:163-183, under the mutex *)
| s_add_joined p t h i : mode s = Free -> find p (infos s) = Some i ->
    step s (State (update p (store i t h) (infos s)) (pruning s) Free (batch s) (queue s) (watches s) (next_wd s) (resolve s) (hist s ++ [EAdd p t h Joined]))
| s_add_created p t h d w ws nw : mode s = Free -> find p (infos s) = None -> resolve s p = Some d -> add_watch s d = (w, ws, nw) ->
    step s (State ((p, store (Info w None []) t h) :: infos s) (pruning s) Free (batch s) (queue s) ws nw (resolve s) (hist s ++ [EAdd p t h (Created d)]))
(* remove_path, path_monitor.cpp:74-88 *)
| s_remove_path p : mode s = Free ->
    step s (State (erase p (infos s)) (pruning s) Free (batch s) (queue s) (drop_watch s p) (next_wd s) (resolve s)
                  (hist s ++ [ERemovePath p (match find p (infos s) with Some _ => true | None => false end)]))
(* remove_all_paths, path_monitor.cpp:91-95 *)
| s_remove_all : mode s = Free ->
    step s (State [] (pruning s) Free (batch s) (queue s) (filter (fun x => negb (existsb (fun y => i_wd (snd y) =? snd x) (infos s))) (watches s))
                  (next_wd s) (resolve s) (hist s ++ [ERemoveAll]))
(* remove_file, path_monitor.cpp:130-158 *)
| s_remove_file_none p n : mode s = Free ->
    match find p (infos s) with None => True | Some i => find_file n (i_files i) = None end ->
    step s (State (infos s) (pruning s) Free (batch s) (queue s) (watches s) (next_wd s) (resolve s) (hist s ++ [ERemoveFile p n false false]))
| s_remove_file p n i h : mode s = Free -> find p (infos s) = Some i -> find_file n (i_files i) = Some h ->
    let j := Info (i_wd i) (i_path i) (erase_file n (i_files i)) in
    step s (State (update p j (infos s)) (if empty_info j then p :: pruning s else pruning s) Free (batch s) (queue s) (watches s) (next_wd s) (resolve s)
                  (hist s ++ [ERemoveFile p n true (empty_info j)]))
| s_prune a p b : mode s = Free -> pruning s = a ++ p :: b -> (* path_monitor.cpp:157 *)
    step s (State (erase p (infos s)) (a ++ b) Free (batch s) (queue s) (drop_watch s p) (next_wd s) (resolve s)
                  (hist s ++ [EPrune p (match find p (infos s) with Some _ => true | None => false end)]))
(* The file system and inotify *)
| s_change d c f n w : find_watch d (watches s) = Some w ->
    step s (State (infos s) (pruning s) (mode s) (batch s) (queue s ++ [(w, mask_of c f, n)]) (watches s) (next_wd s) (resolve s) (hist s ++ [EChange d c f n]))
| s_change_merged d c f n w q : find_watch d (watches s) = Some w -> queue s = q ++ [(w, mask_of c f, n)] -> (* equal to the last event not yet read *)
    step s (State (infos s) (pruning s) (mode s) (batch s) (queue s) (watches s) (next_wd s) (resolve s) (hist s ++ [EChange d c f n]))
| s_change_unwatched d c f n : find_watch d (watches s) = None ->
    step s (State (infos s) (pruning s) (mode s) (batch s) (queue s) (watches s) (next_wd s) (resolve s) (hist s ++ [EChange d c f n]))
| s_overflow d c f n : (* the queue is full *)
    step s (State (infos s) (pruning s) (mode s) (batch s) (queue s) (watches s) (next_wd s) (resolve s) (hist s ++ [EChange d c f n; EOverflow]))
| s_resolve p d : (* directories are made, renamed, ... *)
    step s (State (infos s) (pruning s) (mode s) (batch s) (queue s) (watches s) (next_wd s) (fun q => if q =? p then d else resolve s q) (hist s ++ [EResolve p d]))
| s_directory_gone d :
    step s (State (infos s) (pruning s) (mode s) (batch s) (queue s) (filter (fun x => negb (fst x =? d)) (watches s)) (next_wd s) (resolve s)
                  (hist s ++ [EDirectoryGone d]))
(* PathMonitorImpl::poll, path_monitor_impl.cpp:53-74, and read_events, 84-112 *)
| s_poll : mode s = Free -> queue s <> [] ->
    step s (State (infos s) (pruning s) Polling (batch s) (queue s) (watches s) (next_wd s) (resolve s) (hist s))
| s_read k : mode s = Polling -> batch s = [] -> 0 < k <= length (queue s) ->
    step s (State (infos s) (pruning s) Polling (firstn k (queue s)) (skipn k (queue s)) (watches s) (next_wd s) (resolve s) (hist s))
| s_read_none : mode s = Polling -> batch s = [] -> queue s = [] ->
    step s (State (infos s) (pruning s) Free [] (queue s) (watches s) (next_wd s) (resolve s) (hist s))
(* handle_event, path_monitor_impl.cpp:115-155: any path with the event's watch descriptor *)
| s_handle w m n r p i : mode s = Polling -> batch s = (w, m, n) :: r -> In (p, i) (infos s) -> i_wd i = w ->
    step s (State (infos s) (pruning s) (match called_for i n m with Some _ => InCallback | None => Polling end) r (queue s) (watches s) (next_wd s) (resolve s)
                  (hist s ++ [EHandled p n m (called_for i n m)]))
| s_drop_event w m n r : mode s = Polling -> batch s = (w, m, n) :: r -> (forall p i, In (p, i) (infos s) -> i_wd i <> w) ->
    step s (State (infos s) (pruning s) Polling r (queue s) (watches s) (next_wd s) (resolve s) (hist s))
| s_return : mode s = InCallback ->
    step s (State (infos s) (pruning s) Polling (batch s) (queue s) (watches s) (next_wd s) (resolve s) (hist s))
| s_reentry : mode s = InCallback -> (* the mutex is not recursive: the thread waits for itself *)
    step s (State (infos s) (pruning s) Stuck (batch s) (queue s) (watches s) (next_wd s) (resolve s) (hist s ++ [EReentry])).

Definition initial (r : nat -> option nat) : state := State [] [] Free [] [] [] 0 r [].
Inductive reaches : state -> Prop :=
| reaches_initial r : reaches (initial r)
| reaches_step s s' : reaches s -> step s s' -> reaches s'.
