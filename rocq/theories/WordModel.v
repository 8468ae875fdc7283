(** Which variable "%(name)s" in a word inserts: the beginning of
    Environment._expand_argument (/repo/pieshell/environ.py:83-84), and the ways
    scopes come about (environ.py:184-189, 313; module.py:22-24). *)
From Verif Require Import Py PathModel EnvModel ScopeModel.

(** environ.py:83: [scope = self._scope or self._exports]; line 84: [arg % scope]
    looks [name] up with scope[name].  [self] is the environment of the command
    the word belongs to; [s] is the scope the code runs in.  Simplification: an
    environment that is linked to any scope is linked to this one. *)
Definition word_get (s : sstate) (self : nat) (name : text) : res found :=
  if s_linked s self then scope_get s name
  else match dget (s_vars s self) name with Some v => Ok (FVal v) | None => Err KeyError end.

(** EnvScope(env = e) (environ.py:313, module.py:23) and, with a parent,
    EnvScope(env=self, _parent_scope=fn.__globals__) (environ.py:186): python's
    dict constructor does not call __setitem__, so e._scope stays None.  [vars]:
    the variables of the environments. *)
Definition new_scope (e : nat) (vars : nat -> dict text val) (os : nat -> bool) (parent : option (dict text val)) (py : text -> option val) : sstate :=
  mkS [(t_env, VEnv e)] vars os (fun _ => false) parent py.
(** environ.py:277-294 execute_startup, as far as the environment is concerned:
    [env = self["env"]] ... [self["env"] = env] *)
Definition startup (s : sstate) : sstate :=
  match scope_get s t_env with Ok (FVal v) => fst (scope_set s t_env v) | _ => s end.
