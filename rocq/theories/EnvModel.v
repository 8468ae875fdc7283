(** Model of Environment in /repo/pieshell/environ.py: directories, variables,
    derived environments. *)
From Verif Require Import Py PathModel.

(** What the operating system answers: home directories, whether a path exists
    and is a directory, what os.getcwd() says after os.chdir(p), and glob.glob. *)
Inductive kind := KDir | KFile.
Record machine := mkMachine {
  m_home : text -> option text;
  m_kind : text -> option kind;
  m_real : text -> text;
  m_glob : text -> list text }.

(** environ.py:44-61 an Environment object.  [e_exp] is _exports_value: None or a
    reference to a dict object.  Simplification: _redirects, _scope, _dir_cache,
    _bashfunctions and running_pipelines are left out (redirects are in
    RunModel.v, running pipelines in WorldModel.v, the scope in ScopeModel.v). *)
Record env := mkEnv { e_cwd : text; e_exp : option nat; e_inter : bool }.
Definition vars := dict text text.
(** The process: working directory, dict objects by number (number 0 is
    os.environ) and environments by number. *)
Record world := mkW { w_m : machine; w_pcwd : text; w_dicts : list vars; w_envs : list env }.

Definition dict_at (w : world) (r : nat) : vars := nth r (w_dicts w) [].
Definition env_at (w : world) (e : nat) : env := nth e (w_envs w) (mkEnv [] None false).
Fixpoint set_nth {A} (l : list A) (n : nat) (x : A) : list A :=
  match l, n with
  | [], _ => []
  | _ :: l', 0 => x :: l'
  | y :: l', S n' => y :: set_nth l' n' x
  end.
Definition set_dict (w : world) (r : nat) (d : vars) : world := mkW (w_m w) (w_pcwd w) (set_nth (w_dicts w) r d) (w_envs w).
Definition set_env (w : world) (e : nat) (x : env) : world := mkW (w_m w) (w_pcwd w) (w_dicts w) (set_nth (w_envs w) e x).

(** environ.py:63-65 the _exports property: [self._exports_value or os.environ];
    an empty dict is falsy. *)
Definition exports_ref (w : world) (x : env) : nat :=
  match e_exp x with
  | None => 0
  | Some r => match dict_at w r with [] => 0 | _ => r end
  end.
Definition exports (w : world) (x : env) : vars := dict_at w (exports_ref w x).

(** environ.py:71-76 _expand_path *)
Definition expand_path (w : world) (cwd p : text) : text :=
  let p1 := if negb (startswith p [c_slash]) && negb (startswith p [c_tilde]) then path_join cwd p else p in
  abspath (w_pcwd w) (expanduser (m_home (w_m w)) p1).

(** environ.py:95-102 _cd on the attributes of one environment, with the process
    directory.  os.path.exists is true of files; os.chdir then raises
    NotADirectoryError (an OSError; errno modelled as EPERM) after _cwd has been
    assigned. *)
Definition cd_core (w : world) (x : env) (p : text) : (env * text) * res unit :=
  let q := expand_path w (e_cwd x) p in
  match m_kind (w_m w) q with
  | None => ((x, w_pcwd w), Err (OSError ENOENT))
  | Some k =>
      let x' := mkEnv q (e_exp x) (e_inter x) in
      if e_inter x then
        match k with
        | KDir => ((x', m_real (w_m w) q), Ok tt)
        | KFile => ((x', w_pcwd w), Err (OSError EPERM))
        end
      else ((x', w_pcwd w), Ok tt)
  end.
Definition set_pcwd (w : world) (p : text) : world := mkW (w_m w) p (w_dicts w) (w_envs w).
Definition do_cd (w : world) (e : nat) (p : text) : world * res unit :=
  let '((x, pc), r) := cd_core w (env_at w e) p in
  (set_env (set_pcwd w pc) e x, r).

(** environ.py:44-61 __init__; a constructor that raises yields no environment,
    but an os.chdir that happened stays. *)
Definition do_new (w : world) (cwd : option text) (ex : option nat) (inter : bool) : world * res nat :=
  let x0 := mkEnv (w_pcwd w) ex inter in
  let '((x, pc), r) := match cwd with None => ((x0, w_pcwd w), Ok tt) | Some p => cd_core w x0 p end in
  let w1 := set_pcwd w pc in
  match r with
  | Err z => (w1, Err z)
  | Ok _ => (mkW (w_m w1) (w_pcwd w1) (w_dicts w1) (w_envs w1 ++ [x]), Ok (List.length (w_envs w1)))
  end.

(** environ.py:103-126 __call__: copy the variables unless given, construct with
    the own directory, then _cd on the new environment. *)
Definition do_derive (w : world) (e : nat) (cwd : option text) (ex : option nat) (inter : option bool) : world * res nat :=
  let src := env_at w e in
  let '(w1, ref) := match ex with
                    | Some r => (w, r)
                    | None => (mkW (w_m w) (w_pcwd w) (w_dicts w ++ [exports w src]) (w_envs w), List.length (w_dicts w))
                    end in
  let i := match inter with Some b => b | None => e_inter src end in
  match do_new w1 (Some (e_cwd src)) (Some ref) i with
  | (w2, Err z) => (w2, Err z)
  | (w2, Ok n) =>
      match cwd with
      | None => (w2, Ok n)
      | Some p => match do_cd w2 n p with
                  | (w3, Ok _) => (w3, Ok n)
                  | (w3, Err z) => (w3, Err z)
                  end
      end
  end.

(** builtins.py:21-32 CdBuiltin: "~" without arguments, else the joined
    arguments with PARENT and ROOT replaced. *)
Definition cd_replace (a : text) : text :=
  if text_eqb a (txt "PARENT") then t_dotdot else if text_eqb a (txt "ROOT") then [c_slash] else a.
Definition cd_path (args : list text) : text :=
  match args with
  | [] => [c_tilde]
  | a :: rest => path_join_all (cd_replace a) (map cd_replace rest)
  end.

Inductive op :=
| ONew (cwd : option text) (ex : option nat) (inter : bool)
| ODerive (e : nat) (cwd : option text) (ex : option nat) (inter : option bool)
| OCd (e : nat) (p : text)
| OCdCmd (e : nat) (args : list text)     (* builtins.py:23-32 *)
| OSet (e : nat) (k v : text)             (* env._exports[k] = v, e.g. environ.py:212 *)
| ODel (e : nat) (k : text)
| ODictNew (d : vars)                     (* the user makes a dict *)
| ODictSet (r : nat) (k v : text)         (* and changes it *)
| OMachine (m : machine)                  (* files and users change *)
| OChdir (p : text).                      (* os.chdir by someone else *)

Definition step (w : world) (o : op) : world :=
  match o with
  | ONew c ex i => fst (do_new w c ex i)
  | ODerive e c ex i => fst (do_derive w e c ex i)
  | OCd e p => fst (do_cd w e p)
  | OCdCmd e args => fst (do_cd w e (cd_path args))
  | OSet e k v => let r := exports_ref w (env_at w e) in set_dict w r (dset (dict_at w r) k v)
  | ODel e k => let r := exports_ref w (env_at w e) in set_dict w r (ddel (dict_at w r) k)
  | ODictNew d => mkW (w_m w) (w_pcwd w) (w_dicts w ++ [d]) (w_envs w)
  | ODictSet r k v => set_dict w r (dset (dict_at w r) k v)
  | OMachine m => mkW m (w_pcwd w) (w_dicts w) (w_envs w)
  | OChdir p => match m_kind (w_m w) p with
                | Some KDir => set_pcwd w (m_real (w_m w) p)
                | _ => w
                end
  end.
Definition steps (w : world) (ops : list op) : world := fold_left step ops w.
