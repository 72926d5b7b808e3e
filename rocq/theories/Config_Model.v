(** Model of fly::config::ConfigManager and Config (fly/config/config_manager.hpp, config_manager.cpp, config.hpp, config.cpp).
    Any number of threads create configs, prune, drop them, read values and change the file.  m_configs_mutex makes create_config
    and prune one step each; update_config is a sequence of steps under the mutex, one for each config, because readers (which only
    take the config's own mutex) see the configs change one after the other.
    A file change sets [dirty] until the path monitor has called the manager's callback, which posts a task (C50; the callback and the
    task runner are otherwise not part of this model).  Identifiers have no character that is escaped, so that they are their own keys.
    Not modelled: a config manager whose last reference is released inside the callback (its destructor deadlocks in the path
    monitor, see C50 reentry_refuted); logging. *)
From Verif Require Import Common Json_Spec Json_Model JsonApi_Model.
Open Scope nat_scope.

Definition ident := list Z.
Record config := Config { c_ident : ident; c_class : nat (* its dynamic type *); c_values : json (* Config::m_values *); c_alive : bool (* it has owners *) }.
Record state := State {
  values : json; (* m_values *)
  configs : list (ident * nat); (* m_configs: identifier, config (a std::weak_ptr) *)
  heap : list config; (* every config that was created; its number is its position *)
  updating : option (list (ident * nat)); (* inside update_config: the entries not yet visited *)
  file : option json; (* what parse_file gives for the file at present *)
  dirty : bool; (* a change of the file has not been reported yet *)
  tasks : nat; (* posted updates *)
  started : bool; (* the constructor has returned, the manager is not destroyed *)
  parses : list (option json) (* ghost: the results of parse_file so far, last first *) }.

(** m_configs.find *)
Fixpoint find (i : ident) (l : list (ident * nat)) : option nat :=
  match l with [] => None | (k, n) :: r => if list_eq_dec Z.eq_dec i k then Some n else find i r end.
Arguments find : simpl never.
(** m_configs[i] = n *)
Definition assign (i : ident) (n : nat) (l : list (ident * nat)) : list (ident * nat) :=
  (i, n) :: filter (fun e => if list_eq_dec Z.eq_dec i (fst e) then false else true) l.
(** weak_ptr::lock *)
Definition alive (h : list config) (n : nat) : bool := match nth_error h n with Some c => c_alive c | None => false end.
(** m_values[identifier]: json.hpp:1810-1815 operator[]: null becomes an object, and a missing entry is added as null.  The instance
    afterwards, and the value of the entry. *)
Definition section_of (v : json) (i : ident) : json * json :=
  match promote_object v with
  | Some m => let m' := fst (map_insert i JNull m) in (JObject m', match map_find i m' with Some (_, x) => x | None => JNull end)
  | None => (v, JNull) (* throws; m_values is always an object or null here *)
  end.
(** config.cpp:8-12 Config::update *)
Definition update (h : list config) (n : nat) (v : json) : list config :=
  match nth_error h n with
  | Some c => firstn n h ++ Config (c_ident c) (c_class c) v (c_alive c) :: skipn (S n) h
  | None => h
  end.
(** The last owner of a config lets it go. *)
Definition drop (h : list config) (n : nat) : list config :=
  match nth_error h n with
  | Some c => firstn n h ++ Config (c_ident c) (c_class c) (c_values c) false :: skipn (S n) h
  | None => h
  end.

(** config_manager.hpp:128-166 create_config<T>: [cls] is T, [i] its identifier.  The result: a config or nullptr. *)
Definition create_config (s : state) (i : ident) (cls : nat) : state * option nat :=
  let fresh :=
    let n := length (heap s) in
    let '(v', x) := section_of (values s) i in
    (State v' (assign i n (configs s)) (heap s ++ [Config i cls x true]) (updating s) (file s) (dirty s) (tasks s) (started s) (parses s), Some n) in
  match find i (configs s) with
  | None => fresh
  | Some n =>
      match nth_error (heap s) n with
      | Some c =>
          if c_alive c then
            if c_class c =? cls (* dynamic_pointer_cast *)
            then let '(v', x) := section_of (values s) i in
                 (State v' (configs s) (update (heap s) n x) (updating s) (file s) (dirty s) (tasks s) (started s) (parses s), Some n)
            else (s, None)
          else fresh
      | None => (s, None)
      end
  end.
(** config_manager.cpp:99-118 prune *)
Definition prune (s : state) : state * nat :=
  let l := filter (fun e => alive (heap s) (snd e)) (configs s) in
  (State (values s) l (heap s) (updating s) (file s) (dirty s) (tasks s) (started s) (parses s), length l).
(** config_manager.cpp:121-135 update_config: the file is parsed *)
Definition parsed (p : option json) : json := match p with Some v => v | None => JNull end.
Definition is_values (v : json) : bool := match v with JObject _ | JNull => true | _ => false end.
Definition begin_update (s : state) (p : option json) (d : bool) : state :=
  if is_values (parsed p)
  then State (parsed p) (configs s) (heap s) (Some (configs s)) (file s) d (pred (tasks s)) (started s) (p :: parses s)
  else State JNull (configs s) (heap s) None (file s) d (pred (tasks s)) (started s) (p :: parses s). (* 155-159 "ignoring update" *)
(** 139-153: one config of the loop *)
Definition update_one (s : state) (i : ident) (n : nat) (r : list (ident * nat)) : state :=
  if alive (heap s) n
  then let '(v', x) := section_of (values s) i in
       State v' (configs s) (update (heap s) n x) (Some r) (file s) (dirty s) (tasks s) (started s) (parses s)
  else State (values s) (filter (fun e => if list_eq_dec Z.eq_dec i (fst e) then false else true) (configs s)) (heap s) (Some r)
         (file s) (dirty s) (tasks s) (started s) (parses s).

(** The parsers build objects as std::map (the file's, and those of its entries). *)
Definition map_result (p : option json) : Prop :=
  match p with Some (JObject m) => sorted_keys m /\ forall i n, In (i, JObject n) m -> sorted_keys n | _ => True end.

Inductive step (s : state) : state -> Prop :=
| s_create i cls : updating s = None -> started s = true -> step s (fst (create_config s i cls))
| s_prune : updating s = None -> started s = true -> step s (fst (prune s))
| s_drop n : step s (State (values s) (configs s) (drop (heap s) n) (updating s) (file s) (dirty s) (tasks s) (started s) (parses s))
| s_file f : map_result f -> (* the file is written, created or removed *)
    step s (State (values s) (configs s) (heap s) (updating s) f true (tasks s) (started s) (parses s))
| s_notify d : (* config_manager.cpp:82-94: the monitor's callback posts a task; there may be further callbacks to come *)
    started s = true -> (dirty s = false -> d = false) ->
    step s (State (values s) (configs s) (heap s) (updating s) (file s) d (S (tasks s)) (started s) (parses s))
| s_update : (* config_manager.cpp:87-89 the task runs *)
    updating s = None -> started s = true -> tasks s <> 0 -> step s (begin_update s (file s) (dirty s))
| s_update_torn p : map_result p -> (* the same, while the file is written: what is read is arbitrary, and a change is reported afterwards *)
    updating s = None -> started s = true -> tasks s <> 0 -> step s (begin_update s p true)
| s_update_one i n r : updating s = Some ((i, n) :: r) -> step s (update_one s i n r)
| s_update_end : updating s = Some [] ->
    step s (State (values s) (configs s) (heap s) None (file s) (dirty s) (tasks s) (started s) (parses s))
| s_destroy : updating s = None -> (* a running task holds a reference *)
    step s (State (values s) (configs s) (heap s) (updating s) (file s) (dirty s) (tasks s) false (parses s)).

(** config_manager.cpp:36-63: the constructor creates the path monitor's config; the file is not read. *)
Definition path_ident : ident := [112; 97; 116; 104]%Z.
Definition initial (f : option json) : state :=
  fst (create_config (State JNull [] [] None f false 0 true []) path_ident 0).
Inductive reachable (f : option json) : state -> Prop :=
| r_initial : reachable f (initial f)
| r_step s s' : reachable f s -> step s s' -> reachable f s'.

(** config.hpp:56-70 get_value: [convert] is the conversion to T; a const operator[] is at() (json.hpp:1818-1822) *)
Definition get_value {A} (sg : bool) (convert : json -> outcome A) (c : config) (name : list Z) (def : A) : outcome A :=
  match c_values c with
  | JObject m =>
      match convert_to_string sg name with
      | Some k =>
          match map_find k m with
          | Some (_, v) => match convert v with Throw _ => Return def | x => x end
          | None => Return def
          end
      | None => Return def
      end
  | _ => Return def
  end.
