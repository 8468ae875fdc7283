(** The default redirects of environments (/repo/pieshell/environ.py:42-59, 103-130,
    139-160; /repo/pieshell/pipeline/base.py:143-154): environments hold references to
    Redirects objects, and a pipeline is run with those of its own environment. *)
From Verif Require Import Py RedirModel Os PerformModel RunModel RunTopSpec OperModel.

(** The Redirects objects, and for each environment the one it refers to
    (environ.py:59). *)
Record envs := mkEnvs { v_objs : list redirects; v_refs : list nat }.
Definition no_envs : envs := mkEnvs [] [].
Inductive envop :=
| ENew                               (* Environment() *)
| EWith (rs : redirects)             (* Environment(redirects = rs) *)
| EDerive (e : nat)                  (* env(...), env[path] *)
| EDeriveWith (e : nat) (rs : redirects)   (* env(redirects = rs) *)
| ESet (e : nat) (r : redirect)      (* env._redirects.register(r), .redirect(...) *)
| EOr (e : nat) (x : obj)            (* env | x *)
| ERor (e : nat) (x : obj).          (* x | env, x being no pipeline *)
Definition object_of (s : envs) (e : nat) : option redirects :=
  match nth_error (v_refs s) e with Some k => nth_error (v_objs s) k | None => None end.
(** Changing an object in place. *)
Fixpoint store (l : list redirects) (k : nat) (rs : redirects) : list redirects :=
  match l, k with [], _ => [] | _ :: l', 0 => rs :: l' | x :: l', S k' => x :: store l' k' rs end.
(** environ.py:53-59 with a Redirects object nobody else has.  Simplification: an
    object given as an argument is not given to two environments. *)
Definition add_env (s : envs) (rs : redirects) : envs := mkEnvs (v_objs s ++ [rs]) (v_refs s ++ [List.length (v_objs s)]).
(** redir.py:235-245 _coerce: isinstance(thing, (str, unicode)) evaluates a name that
    is defined nowhere (redir.py:239), whatever the thing. *)
Definition coerce_redirects (x : obj) : res redirects := Err NameError.
(** environ.py:152-157 __ror__, __or__ *)
Definition set_default (s : envs) (e : nat) (x : obj) : envs * res unit :=
  match object_of s e, nth_error (v_refs s) e with
  | Some rs, Some k =>
      match coerce_redirects x with
      | Ok new => match register_all rs new with
                  | Ok rs' => (mkEnvs (store (v_objs s) k rs') (v_refs s), Ok tt)
                  | Err er => (s, Err er)
                  end
      | Err er => (s, Err er)
      end
  | _, _ => (s, Err AttributeError)
  end.
Definition envstep (s : envs) (op : envop) : envs * res unit :=
  match op with
  | ENew => match default_redirects with Ok rs => (add_env s rs, Ok tt) | Err er => (s, Err er) end
  | EWith rs => (add_env s rs, Ok tt)
  | EDerive e =>       (* environ.py:121-123 *)
      match nth_error (v_refs s) e with Some k => (mkEnvs (v_objs s) (v_refs s ++ [k]), Ok tt) | None => (s, Err AttributeError) end
  | EDeriveWith e rs => (add_env s rs, Ok tt)
  | ESet e r =>        (* redir.py:170-181 *)
      match object_of s e, nth_error (v_refs s) e with
      | Some rs, Some k => match register rs r with Ok rs' => (mkEnvs (store (v_objs s) k rs') (v_refs s), Ok tt) | Err er => (s, Err er) end
      | _, _ => (s, Err AttributeError)
      end
  | EOr e x => set_default s e x
  | ERor e x => set_default s e x
  end.
(** The state after a history (an exception ends a statement, not the session). *)
Definition after (h : list envop) : envs := fold_left (fun s op => fst (envstep s op)) h no_envs.

(** A pipeline of parts made in different environments: base.py:115-126 __or__ makes the
    Pipe in the environment of the left operand. *)
Inductive epl := EPart (e : nat) (p : pl) | EPipe (a b : epl).
Fixpoint env_of (p : epl) : nat := match p with EPart e _ => e | EPipe a _ => env_of a end.
Fixpoint parts (p : epl) : pl := match p with EPart _ q => q | EPipe a b => PPipe (parts a) (parts b) end.
(** base.py:143-154 Pipeline.run; [piped]: for iteration, base.py:170-182. *)
Definition run_in (L : limits) (pf : ofd -> bool) (v : envs) (piped : bool) (p : epl) : RM rresult :=
  match object_of v (env_of p) with
  | Some rs => run_top L pf rs (if piped then [stdout_pipe] else []) (parts p)
  | None => rraise AttributeError
  end.
