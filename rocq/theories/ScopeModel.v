(** Model of EnvScope (/repo/pieshell/environ.py:200-233), the dictionary used as
    globals of the interactive shell, and of Environment.temporary_env
    (environ.py:177-183). *)
From Verif Require Import Py PathModel EnvModel.

(** Python values as far as the scope looks at them: an Environment, a str, or
    any other object. *)
Inductive val := VEnv (n : nat) | VText (t : text) | VObj (n : nat).
Definition is_text (v : val) : bool := match v with VText _ => true | _ => false end.
(** One scope object with the environments of the process.  [s_vars n] is the
    _exports of environment n, [s_os n] whether that is os.environ itself (which
    accepts only strings); [s_linked n]: environment n has this scope as its
    _scope.  [s_parent] is _parent_scope; [s_builtin] the builtins module.
    Simplification: _exports is followed through directly (an empty dictionary
    standing for os.environ is C38). *)
Record sstate := mkS {
  s_loc : dict text val;
  s_vars : nat -> dict text val;
  s_os : nat -> bool;
  s_linked : nat -> bool;
  s_parent : option (dict text val);
  s_builtin : text -> option val }.

Definition t_env : text := txt "env".
Definition t_under : text := txt "_".
Definition t_exports : text := txt "exports".
Definition t_last : text := txt "last_statement".

Definition set_loc (s : sstate) (d : dict text val) : sstate := mkS d (s_vars s) (s_os s) (s_linked s) (s_parent s) (s_builtin s).
Definition set_vars (s : sstate) (n : nat) (d : dict text val) : sstate :=
  mkS (s_loc s) (fun m => if Nat.eqb m n then d else s_vars s m) (s_os s) (s_linked s) (s_parent s) (s_builtin s).
Definition link (s : sstate) (n : nat) : sstate :=
  mkS (s_loc s) (s_vars s) (s_os s) (fun m => if Nat.eqb m n then true else s_linked s m) (s_parent s) (s_builtin s).
(** dict.__getitem__(self, 'env'): the current environment.  Simplification: an
    object that is no Environment has no _exports (AttributeError). *)
Definition current (s : sstate) : res nat :=
  match dget (s_loc s) t_env with
  | Some (VEnv n) => Ok n
  | Some _ => Err AttributeError
  | None => Err KeyError
  end.
(** env._exports[name] = value; os.environ wants strings. *)
Definition export_set (s : sstate) (n : nat) (name : text) (v : val) : sstate * res unit :=
  if s_os s n && negb (is_text v) then (s, Err TypeError)
  else (set_vars s n (dset (s_vars s n) name v), Ok tt).

(** environ.py:204-214 __setitem__.  [value._scope = self] on a str raises
    AttributeError; on other objects it is taken to succeed. *)
Definition scope_set (s : sstate) (name : text) (v : val) : sstate * res unit :=
  let name := if text_eqb name t_under then t_last else name in
  let '(s1, r) := if text_eqb name t_env then
                    match v with VEnv n => (link s n, Ok tt) | VText _ => (s, Err AttributeError) | VObj _ => (s, Ok tt) end
                  else (s, Ok tt) in
  match r with
  | Err e => (s1, Err e)
  | Ok _ =>
      match current s1 with
      | Err e => (s1, Err e)
      | Ok n => if dmem (s_vars s1 n) name then export_set s1 n name v
                else (set_loc s1 (dset (s_loc s1) name v), Ok tt)
      end
  end.

(** What a lookup yields: a value, the exports mapping of an environment, or an
    attribute of the environment, i.e. usually a command (environ.py:130-138:
    __getattr__ refuses __setstate__; __getstate__ is a method, line 191). *)
Inductive found := FVal (v : val) | FExports (n : nat) | FAttr (n : nat) (name : text).
(** environ.py:215-233 __getitem__ *)
Definition scope_get (s : sstate) (name : text) : res found :=
  match dget (s_loc s) name with
  | Some v => Ok (FVal v)
  | None =>
      let* n := current s in
      let parent := match s_parent s with Some d => dget d name | None => None end in
      if negb (text_eqb name t_under) then
        if text_eqb name t_exports then Ok (FExports n)
        else match dget (s_vars s n) name with
             | Some v => Ok (FVal v)
             | None => match parent with
                       | Some v => Ok (FVal v)
                       | None => match s_builtin s name with
                                 | Some v => Ok (FVal v)
                                 | None => if text_eqb name (txt "__setstate__") then Err AttributeError
                                           else Ok (FAttr n name)
                                 end
                       end
             end
      else Ok (FAttr n name)
  end.

(** What code run in the scope does. *)
Inductive sop :=
| SAssign (name : text) (v : val)     (* name = v at the prompt: STORE_NAME calls __setitem__ *)
| SExport (n : nat) (name : text) (v : val)   (* exports[name] = v, or another way to change the variables of environment n *)
| SUnexport (n : nat) (name : text)
| SGlobal (name : text) (v : val)     (* assignment to a global inside a function: STORE_GLOBAL bypasses __setitem__ *)
| SDel (name : text).                 (* del name: dict.__delitem__ *)
Definition sstep (s : sstate) (o : sop) : sstate :=
  match o with
  | SAssign name v => fst (scope_set s name v)
  | SExport n name v => fst (export_set s n name v)
  | SUnexport n name => set_vars s n (ddel (s_vars s n) name)
  | SGlobal name v => set_loc s (dset (s_loc s) name v)
  | SDel name => set_loc s (ddel (s_loc s) name)
  end.
Definition ssteps (s : sstate) (ops : list sop) : sstate := fold_left sstep ops s.

(** environ.py:177-183 temporary_env: [self._scope["env"] = env], the body, then
    [self._scope["env"] = self] whether or not the body raised.  [body] is what
    the block does to the scope. *)
Definition temporary_env (s : sstate) (self e : nat) (body : sstate -> sstate) : sstate * res unit :=
  if negb (s_linked s self) then (s, Err TypeError)     (* self._scope is None *)
  else match scope_set s t_env (VEnv e) with
       | (s1, Err x) => (s1, Err x)
       | (s1, Ok _) => scope_set (body s1) t_env (VEnv self)
       end.
