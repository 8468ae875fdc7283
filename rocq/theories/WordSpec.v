(** Histories for C82, independently of the scope's code. *)
From Verif Require Import Py PathModel EnvModel ScopeModel ScopeSpec.

(** Operations after which [env] still is an environment assigned at the prompt:
    it is not deleted, not bound inside a function, and only environments are
    assigned to it. *)
Definition keeps_env (o : sop) : Prop :=
  match o with
  | SAssign name v => name = t_env -> exists n, v = VEnv n
  | SGlobal name _ | SDel name => name <> t_env
  | SExport _ _ _ | SUnexport _ _ => True
  end.
(** Operations that do not assign to env (or _) at all. *)
Definition not_env (o : sop) : Prop :=
  match o with SAssign name _ | SGlobal name _ | SDel name => name <> t_env | _ => True end.
(** What a name denotes where the scope's environment is [n]. *)
Definition denotes (s : sstate) (n : nat) (name : text) (f : found) : Prop :=
  first_hit s n name [Local; ExportsName; Variables; Enclosing; PyBuiltin] f.
