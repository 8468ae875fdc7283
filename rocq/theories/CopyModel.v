(** Model of pipeline copying: /repo/pieshell/utils/copy.py, the __deepcopy__
    methods (pipeline/base.py:88-89, command.py:59-60, function.py:40-41,
    pipe.py:33-34, group.py:32-33, redirect.py:32-33) and what Pipeline.run
    (base.py:143-154) does to pipeline objects. *)
From Verif Require Import Py.

(** Objects are numbered; the number is the object's id(). *)
Notation ref := nat (only parsing).
Inductive seqtype := TList | TTuple.
(** Pipeline classes.  A Function keeps its function or iterator in a field that
    is not copied. *)
Inductive node := NBase | NPipe | NGroup | NRedirect | NCommand | NBuiltin (name : nat) | NFunction (f : ref).
(** What running leaves in a pipeline object (_started, _redirects, _pid,
    _running_process ...): whether its _run was called. *)
Inductive obj :=
| OOther (n : nat)                       (* any object the copier does not know: functions, iterators, redirections, R strings, numbers *)
| OStr (exact : bool) (t : list N)       (* str or bytes; not exact: an instance of a subclass *)
| OSeq (k : seqtype) (items : list ref)
| ODict (items : list (ref * ref))
| ONode (c : node) (env : ref) (fields : list ref) (started : bool).
(** The fields of a node: Pipe and Group: both pipelines; Redirect: the pipeline
    and its redirections; Command and builtins: the argument list; Function: the
    argument tuple and the dictionary of named arguments. *)
Definition heap := list obj.
(** The interpreter: objects, the memo dictionaries made so far, and which of
    them is copy_state.memo (copy.py:6). *)
Record cst := mkC { c_heap : heap; c_memos : list (dict nat ref); c_cur : option nat }.
Definition alloc (s : cst) (o : obj) : cst * ref := (mkC (c_heap s ++ [o]) (c_memos s) (c_cur s), List.length (c_heap s)).

(** A new, empty memo dictionary. *)
Definition no_memo : dict nat ref := [].
(** copy.py:8-16 copy_session() without argument, entering: [old_memo or {}] is
    the old memo unless there is none or it is empty. *)
Definition enter_session (s : cst) : cst * nat :=
  match c_cur s with
  | Some m => match nth m (c_memos s) [] with
              | _ :: _ => (s, m)
              | [] => (mkC (c_heap s) (c_memos s ++ [no_memo]) (Some (List.length (c_memos s))), List.length (c_memos s))
              end
  | None => (mkC (c_heap s) (c_memos s ++ [no_memo]) (Some (List.length (c_memos s))), List.length (c_memos s))
  end.
(** copy.py:17-18, leaving. *)
Definition leave_session (s : cst) (old : option nat) : cst := mkC (c_heap s) (c_memos s) old.
Fixpoint set_at {A} (l : list A) (n : nat) (x : A) : list A :=
  match l, n with
  | [], _ => []
  | _ :: l', O => x :: l'
  | y :: l', S n' => y :: set_at l' n' x
  end.
(** copy.py memo[key] = copied *)
Definition memoize (s : cst) (m : nat) (key copied : ref) : cst :=
  mkC (c_heap s) (set_at (c_memos s) m (dset (nth m (c_memos s) []) key copied)) (c_cur s).

(** Evaluating deepcopy(x) for several objects, left to right. *)
Section Each.
  Variable one : cst -> ref -> option (cst * ref).
  Fixpoint each (s : cst) (rs : list ref) : option (cst * list ref) :=
    match rs with
    | [] => Some (s, [])
    | r :: rs' => match one s r with
                  | None => None
                  | Some (s1, c) => match each s1 rs' with
                                    | None => None
                                    | Some (s2, cs) => Some (s2, c :: cs)
                                    end
                  end
    end.
  Fixpoint each2 (s : cst) (rs : list (ref * ref)) : option (cst * list (ref * ref)) :=
    match rs with
    | [] => Some (s, [])
    | (k, v) :: rs' =>
        match one s k with
        | None => None
        | Some (s1, k') => match one s1 v with
                           | None => None
                           | Some (s2, v') => match each2 s2 rs' with
                                              | None => None
                                              | Some (s3, cs) => Some (s3, (k', v') :: cs)
                                              end
                           end
        end
    end.
End Each.
(** copy.py:20-36 deepcopy.  [depth] is what is left of python's recursion limit;
    [None] is the RecursionError.  The __deepcopy__ methods of the pipeline
    classes build a new object of the same class in the same environment from
    copies of the fields; [_started] of a new object is False (base.py:84-87).
    Simplifications: the constructors' list(arg) and *arg repacking
    (command.py:56, function.py:38) is not a second list; a redirection object
    has no __deepcopy__ and is shared, like any other unknown object; classes
    outside pieshell that define __deepcopy__ are not considered. *)
Fixpoint deepcopy (depth : nat) (s : cst) (r : ref) : option (cst * ref) :=
  match depth with
  | O => None
  | S d =>
      let '(s0, m) := enter_session s in
      let finish (x : option (cst * ref)) : option (cst * ref) :=
        match x with
        | None => None
        | Some (s1, c) => let s2 := memoize s1 m r c in Some (leave_session s2 (c_cur s), c)
        end in
      match dget (nth m (c_memos s0) []) r with
      | Some c => Some (leave_session s0 (c_cur s), c)
      | None =>
          match nth_error (c_heap s0) r with
          | None => None
          | Some (OSeq k items) =>
              finish match each (deepcopy d) s0 items with None => None | Some (s1, cs) => Some (alloc s1 (OSeq k cs)) end
          | Some (ODict items) =>
              finish match each2 (deepcopy d) s0 items with None => None | Some (s1, cs) => Some (alloc s1 (ODict cs)) end
          | Some (OStr exact t) =>
              finish (Some (if exact then (s0, r) else alloc s0 (OStr true t)))
          | Some (ONode c env fields _) =>
              finish match each (deepcopy d) s0 fields with None => None | Some (s1, cs) => Some (alloc s1 (ONode c env cs false)) end
          | Some (OOther _) => finish (Some (s0, r))
          end
      end
  end.

(** The order in which a pipeline's nodes are run (pipe.py:37-53, group.py:36-50,
    redirect.py:36-43, function.py:69-116, command.py:133-245): each calls
    base.Pipeline._run on itself (base.py:140-141) and then runs its parts; a
    command runs the pipelines among its arguments and among the values of
    dictionary arguments.  Builtins run nothing else.  Paths are sequences of
    child positions. *)
Definition prefix (i : nat) (ps : list (list nat)) : list (list nat) := map (cons i) ps.
Definition children (h : heap) (r : ref) : list ref :=
  match nth_error h r with
  | Some (OSeq _ items) => items
  | Some (ODict items) => flat_map (fun kv => [fst kv; snd kv]) items
  | Some (ONode _ _ fields _) => fields
  | _ => []
  end.
Definition is_node (h : heap) (r : ref) : bool := match nth_error h r with Some (ONode _ _ _ _) => true | _ => false end.
Section Runs.
  Variable runs : ref -> list (list nat).
  Variable h : heap.
  (** command.py:141-149: the values of a dictionary argument *)
  Fixpoint dict_runs (i : nat) (items : list (ref * ref)) : list (list nat) :=
    match items with
    | [] => []
    | (_, v) :: items' => (if is_node h v then prefix (S (2 * i)) (runs v) else []) ++ dict_runs (S i) items'
    end.
  Fixpoint arg_runs (i : nat) (items : list ref) : list (list nat) :=
    match items with
    | [] => []
    | a :: items' =>
        prefix i match nth_error h a with
                 | Some (ONode _ _ _ _) => runs a
                 | Some (ODict kvs) => dict_runs 0 kvs
                 | _ => []
                 end ++ arg_runs (S i) items'
    end.
End Runs.
Fixpoint run_order (depth : nat) (h : heap) (r : ref) : list (list nat) :=
  match depth with
  | O => []
  | S d =>
      match nth_error h r with
      | Some (ONode NPipe _ [a; b] _) | Some (ONode NGroup _ [a; b] _) =>
          [] :: prefix 0 (run_order d h a) ++ prefix 1 (run_order d h b)
      | Some (ONode NRedirect _ [p; _] _) => [] :: prefix 0 (run_order d h p)
      | Some (ONode NCommand _ [args] _) => [] :: prefix 0 (arg_runs (run_order d h) h 0 (children h args))
      | Some (ONode _ _ _ _) => [ [] ]
      | _ => []
      end
  end.
(** The object at a path. *)
Fixpoint at_path (h : heap) (r : ref) (p : list nat) : option ref :=
  match p with
  | [] => Some r
  | i :: p' => match nth_error (children h r) i with Some c => at_path h c p' | None => None end
  end.
(** base.py:140-141 [_run] of one node *)
Definition start_node (h : heap) (r : ref) : heap :=
  match nth_error h r with
  | Some (ONode c env fs _) => set_at h r (ONode c env fs true)
  | _ => h
  end.
Definition start_all (h : heap) (r : ref) (ps : list (list nat)) : heap :=
  fold_left (fun h' p => match at_path h r p with Some x => start_node h' x | None => h' end) ps h.
(** base.py:143-154 run(): copy within a session, then run the copy.  Result: the
    objects afterwards and the pipeline object that ran. *)
Definition run_pipeline (depth : nat) (s : cst) (r : ref) : option (cst * ref) :=
  let '(s0, _) := enter_session s in
  match deepcopy depth s0 r with
  | None => None
  | Some (s1, c) =>
      let h := c_heap s1 in
      Some (mkC (start_all h c (run_order depth h c)) (c_memos s1) (c_cur s), c)
  end.
