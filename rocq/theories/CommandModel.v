(** Model of the command objects of /repo/pieshell/pipeline/command.py:28-153 and
    builtin.py, and of Environment.__getattr__ (environ.py:130-138): how a command
    line is spelled and which argument vector it becomes. *)
From Verif Require Import Py PathModel EnvModel ExpandModel.
From Coq Require Import DecimalString Decimal.

(** An argument.  [AObj t pathlike]: an object that is neither a string, R, dict
    nor something to run; [t] is its str(), [pathlike] whether exec accepts it.
    [APipe hashable fd]: a pipeline, function or iterable; [fd] is the descriptor
    the command gets it on when started (RunModel.v decides it, see C12). *)
Inductive arg :=
| AStr (t : text)
| AR (t : text)
| AObj (t : text) (pathlike : bool)
| APipe (hashable : bool) (fd : nat)
| ADict (kw : list (text * kwval))
with kwval := KTrue | KFalse | KVal (a : arg).
(** command.py:28-57: class of the object and _arg. *)
Inductive cls := CBase | CCmd | CBuiltin (name : text).
Record cmd := mkCmd { c_cls : cls; c_arg : list arg }.

(** builtin.py:3-14 with the registrations of pieshell/__init__.py:28-29 and setup.py:40-48 *)
Definition builtin_names : list text :=
  map txt ["cd"; "bg"; "fg"; "clear_dir_cache"; "bashsource"; "subshell"; "remote"]%string.
Definition tmem (t : text) (l : list text) : bool := existsb (text_eqb t) l.
(** builtin.py:10-14 get_by_name: [name not in cls.builtins] hashes its argument;
    only a str can equal a key. *)
Definition dispatch (a : arg) : res cls :=
  match a with
  | AStr t => Ok (if tmem t builtin_names then CBuiltin t else CCmd)
  | ADict _ => Err TypeError
  | APipe h _ => if h then Ok CCmd else Err TypeError
  | AR _ | AObj _ _ => Ok CCmd
  end.
(** command.py:43-57 __new__ and __init__ *)
Definition construct (c : cls) (args : list arg) : res cmd :=
  match c, args with
  | CBase, a :: _ => let* c' := dispatch a in Ok (mkCmd c' args)
  | _, _ => Ok (mkCmd c args)
  end.

(** Attributes a command object has anyway: base.py (Pipeline), command.py,
    type.mro (every command object is a class, base.py:70-74), and the [name] of
    builtins.  Names beginning with an underscore are left out of the model:
    they are never looked up here. *)
Definition class_attrs (c : cls) : list text :=
  map txt ["run"; "run_interactive"; "async_run_interactive"; "to_dataframe"; "mro"]%string ++
  match c with
  | CBuiltin t => txt "name" :: (if text_eqb t (txt "bashsource") then [txt "parse_decls"] else [])
  | _ => []
  end.
(** environ.py: attributes of an Environment *)
Definition env_attrs : list text := map txt ["running_pipelines"; "last_pipeline"; "temporary_env"; "pyshfunction"]%string.
(** What an attribute access yields: a command or something else. *)
Inductive attr_result := RCmd (c : cmd) | RThing.
(** command.py:83-92 __getattr__ (only called for names not found otherwise) *)
Definition get_attr (c : cmd) (name : text) : res attr_result :=
  if tmem name (class_attrs (c_cls c)) then Ok RThing
  else let* d := construct (c_cls c) (c_arg c ++ [AStr name]) in Ok (RCmd d).
(** command.py:69-81 __call__ *)
Definition call (c : cmd) (pos : list arg) (kw : list (text * kwval)) : res cmd :=
  construct (c_cls c) (c_arg c ++ pos ++ match kw with [] => [] | _ => [ADict kw] end).
(** command.py:65-67 __neg__, 62-63 __sub__ with a command on the right *)
Definition neg (c : cmd) : res arg :=
  match c_arg c with
  | [AStr t] => Ok (AStr (c_dash :: t))
  | [_] => Err TypeError
  | _ => Err AssertionError
  end.
Definition minus (c d : cmd) : res cmd := let* a := neg d in call c [a] [].
(** environ.py:130-138 Environment.__getattr__ *)
Definition env_attr (name : text) : res attr_result :=
  if tmem name env_attrs then Ok RThing
  else if text_eqb name (txt "__getstate__") || text_eqb name (txt "__setstate__") then Err AttributeError
  else if text_eqb name (txt "_") then let* c := construct CBase [] in Ok (RCmd c)
  else let* c := construct CBase [AStr name] in Ok (RCmd c).

(** A way of writing a command after [env._] or [env.name]. *)
Inductive step := SAttr (name : text) | SCall (pos : list arg) (kw : list (text * kwval)) | SMinus (option_name : text).
Definition as_cmd (r : res attr_result) : res cmd :=
  match r with Ok (RCmd c) => Ok c | Ok RThing => Err PlainException | Err e => Err e end.
Definition spell_step (c : cmd) (s : step) : res cmd :=
  match s with
  | SAttr n => as_cmd (get_attr c n)
  | SCall pos kw => call c pos kw
  | SMinus n => let* d := as_cmd (env_attr n) in minus c d
  end.
Fixpoint spell (c : cmd) (ss : list step) : res cmd :=
  match ss with
  | [] => Ok c
  | s :: ss' => let* d := spell_step c s in spell d ss'
  end.
Definition spell_env (first : text) (ss : list step) : res cmd :=
  let* c := as_cmd (env_attr first) in spell c ss.

(** ** command.py:133-153 _arg_list.  A word of the result: a string, or an
    object left as it is. *)
Inductive word := WStr (t : text) | WObj (t : text) (pathlike : bool).
Definition fd_text (n : nat) : text := txt (NilEmpty.string_of_uint (Nat.to_uint n)).
Definition dashes (name : text) : text := map (fun c => if N.eqb c 95 then c_dash else c) name.
Definition word_str (x : word) : text := match x with WStr t => t | WObj t _ => t end.

Section ArgList.
  Context (w : world) (cwd : text) (sc : scope).
  (** command.py:125-131 _handle_arg_pipes_wrapper, 180-211 and environ.py:77-94 *)
  Definition expand_one (a : arg) : res (list word) :=
    match a with
    | AStr t => let* ws := expand_str w cwd sc t in Ok (map WStr ws)
    | AR t => Ok [WStr t]
    | AObj t p => Ok [WObj t p]
    | APipe _ fd => let* ws := expand_str w cwd sc (txt "/dev/fd/" ++ fd_text fd) in Ok (map WStr ws)
    | ADict _ => Err TypeError (* a dict within a dict is an iterable: its keys are sent; not modelled *)
    end.
  Definition kw_words (name : text) (v : kwval) : res (list word) :=
    match v with
    | KFalse => Ok []
    | KTrue => Ok [WStr (txt "--" ++ dashes name)]
    | KVal a => let* ws := expand_one a in Ok (map (fun x => WStr (txt "--" ++ dashes name ++ txt "=" ++ word_str x)) ws)
    end.
  Fixpoint kws_words (kw : list (text * kwval)) : res (list word) :=
    match kw with
    | [] => Ok []
    | (n, v) :: kw' => let* a := kw_words n v in let* b := kws_words kw' in Ok (a ++ b)
    end.
  Definition arg_words (a : arg) : res (list word) :=
    match a with ADict kw => kws_words kw | _ => expand_one a end.
  Fixpoint arg_list (l : list arg) : res (list word) :=
    match l with
    | [] => Ok []
    | a :: l' => let* x := arg_words a in let* y := arg_list l' in Ok (x ++ y)
    end.
End ArgList.

(** command.py:175-178 and 224-234: in the child, os.execvpe takes strings and
    path-like objects; anything else is a TypeError, which has no errno, so the
    child ends with os._exit(-1), status 255.  [run argv] is the status of the
    program itself once executed. *)
Fixpoint exec_argv (ws : list word) : res (list text) :=
  match ws with
  | [] => Ok []
  | WStr t :: r => let* x := exec_argv r in Ok (t :: x)
  | WObj t true :: r => let* x := exec_argv r in Ok (t :: x)
  | WObj _ false :: _ => Err TypeError
  end.
Definition child_status (run : list text -> N) (ws : list word) : N :=
  match exec_argv ws with Ok argv => run argv | Err _ => 255%N end.
