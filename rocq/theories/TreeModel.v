(** Model of the attribute tree of a running pipeline: /repo/pieshell/tree.py,
    the _getkey methods (pipeline/running.py:187-188, 223-226, 245-253,
    322-336) and attribute access on RunningPipeline (running.py:146-153). *)
From Verif Require Import Py PathModel.
From Coq Require Import DecimalString.

(** str(id(x)), for x numbered by its id *)
Definition id_text (n : nat) : text := txt (NilEmpty.string_of_uint (Nat.to_uint n)).
(** What _getkey looks at.  [pr_prefix] and [pr_repr] are cmd._split_args[0] and
    repr(cmd) (command.py:94-123), [pr_name] is cmd._function_name(). *)
Inductive pkind :=
| PProcess (prefix : list text) (rep : text)
| PFunction (name rep : text)
| POther.                        (* fg: BaseRunningItem *)
Record proc := mkP { p_id : nat; p_kind : pkind }.

(** name.split(".")[-1] *)
Definition last_part (t : text) : text := List.last (split_on c_dot t) [].
(** running.py _getkey(level); [prefix[0]] cannot fail where it is used. *)
Definition getkey (p : proc) (level : nat) : text :=
  match p_kind p with
  | POther => id_text (p_id p)
  | PFunction name rep =>
      match level with
      | 0 => last_part name
      | 1 => name
      | 2 => rep
      | _ => id_text (p_id p)
      end
  | PProcess prefix rep =>
      let level := if (List.length prefix =? 1) && (1 <=? level) then S level
                   else if List.length prefix =? 0 then level + 2 else level in
      match level with
      | 0 => match prefix with w :: _ => w | [] => [] end
      | 1 => join_with [c_dot] prefix
      | 2 => rep
      | _ => id_text (p_id p)
      end
  end.
(** _getkey(None) *)
Definition getkey_none (p : proc) : text := id_text (p_id p).

Inductive tree := Leaf (p : proc) | Group (children : dict text tree).
(** tree.py:8-13.  [slug] is slugify.slugify(key, separator="_"), a function of
    another library: a parameter. *)
Definition is_digit (c : N) : bool := ((48 <=? c) && (c <=? 57))%N.
Definition node_key (slug : text -> text) (p : proc) (level : nat) : text :=
  let key := slug (getkey p level) in
  match key with c :: _ => if is_digit c then 110%N :: key else key | [] => key end.
Definition add_proc (slug : text -> text) (level : nat) (procs : dict text (dict text proc)) (p : proc) : dict text (dict text proc) :=
  let key := node_key slug p level in
  let procs := if dmem procs key then procs else dset procs key [] in
  match dget procs key with
  | Some inner => dset procs key (dset inner (getkey_none p) p)
  | None => procs
  end.
Definition collect (slug : text -> text) (level : nat) (children : list proc) : dict text (dict text proc) :=
  fold_left (add_proc slug level) children [].
(** tree.py:5-19 TreeGroup.  [depth] bounds python's recursion; [None] is the
    RecursionError. *)
Section Children.
  Variable build : nat -> list proc -> option tree.
  Fixpoint build_children (level : nat) (procs : dict text (dict text proc)) : option (dict text tree) :=
    match procs with
    | [] => Some []
    | (key, value) :: rest =>
        match (match dvals value with
               | [p] => Some (Leaf p)
               | ps => build (S level) ps
               end) with
        | None => None
        | Some t => match build_children level rest with
                    | None => None
                    | Some d => Some ((key, t) :: d)
                    end
        end
    end.
End Children.
Fixpoint build (slug : text -> text) (depth : nat) (level : nat) (children : list proc) : option tree :=
  match depth with
  | O => None
  | S d => match build_children (build slug d) level (collect slug level children) with
           | None => None
           | Some cs => Some (Group cs)
           end
  end.
(** running.py:145-147 _children, with python's recursion limit [depth] *)
Definition children_tree (slug : text -> text) (depth : nat) (ps : list proc) : option tree := build slug depth 0 ps.

(** Attribute access: the names that RunningPipeline itself has
    (running.py:63-167), tree.py:20-25 and the attribute [children] of a
    TreeGroup come first.  Attributes every python object has (they begin with
    "__") are left out. *)
Definition pipeline_attrs : list text :=
  map txt ["finish_future"; "processes"; "pipeline"; "pipeline_suspended"; "finished"; "iterbytes"; "restart"; "suspend"; "wait";
           "handle_finish"; "remove_output_files"; "failed_processes"; "running_processes"; "is_running"; "is_failed"; "exit_code"; "_children"]%string.
Definition group_attrs : list text := [txt "children"].
Inductive attr := AOwn | ATree (t : tree) | AMissing.
Definition group_attr (t : tree) (key : text) : attr :=
  match t with
  | Leaf _ => AOwn                               (* an attribute of the process itself: not followed further *)
  | Group cs => if existsb (text_eqb key) group_attrs then AOwn
                else match dget cs key with Some t' => ATree t' | None => AMissing end
  end.
Definition pipeline_attr (t : tree) (key : text) : attr :=
  if existsb (text_eqb key) pipeline_attrs then AOwn else group_attr t key.
