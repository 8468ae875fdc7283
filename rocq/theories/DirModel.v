(** Model of Environment.__dir__ and its cache (/repo/pieshell/environ.py:163-176),
    of the clear_dir_cache builtin (pipeline/builtins.py:82-89) and of python's
    dir(), list.sort and comparison of strings. *)
From Verif Require Import Py PathModel EnvModel.

(** Comparison of str: by code points. *)
Fixpoint text_leb (a b : text) : bool :=
  match a, b with
  | [], _ => true
  | _ :: _, [] => false
  | x :: a', y :: b' => (x <? y)%N || (N.eqb x y && text_leb a' b')
  end.
(** list.sort *)
Fixpoint insert_sorted (x : text) (l : list text) : list text :=
  match l with [] => [x] | y :: r => if text_leb x y then x :: l else y :: insert_sorted x r end.
Fixpoint sort_texts (l : list text) : list text := match l with [] => [] | x :: r => insert_sorted x (sort_texts r) end.

(** An environment as far as dir() looks at it.  [d_list p]: os.listdir(p), None:
    an OSError (the directory is missing or unreadable); [d_path]: the PATH of its
    exports; [d_builtins]: the registered builtins. *)
Record denv := mkD { d_list : text -> option (list text); d_path : option text; d_cwd : text; d_builtins : list text; d_cache : option (list text) }.
Definition set_cache (s : denv) (c : option (list text)) : denv := mkD (d_list s) (d_path s) (d_cwd s) (d_builtins s) c.
(** environ.py:170-173: the loop over the directories; [acc] is _dir_cache, which
    keeps what was added when a listdir raises. *)
Fixpoint list_dirs (s : denv) (pcwd : text) (dirs : list text) (acc : list text) : list text * bool :=
  match dirs with
  | [] => (acc, true)
  | p :: r => let q := abspath pcwd (if startswith p [c_slash] then p else path_join (d_cwd s) p) in
              match d_list s q with
              | Some l => list_dirs s pcwd r (acc ++ l)
              | None => (acc, false)
              end
  end.
(** environ.py:165-176, and dir(): a sorted copy of what __dir__ returns.  The
    exception of a listdir is an OSError, that of a missing PATH a KeyError. *)
Definition do_dir (s : denv) (pcwd : text) : denv * res (list text) :=
  match d_cache s with
  | Some l => (s, Ok (sort_texts l))
  | None =>
      match d_path s with
      | None => (set_cache s (Some []), Err KeyError)
      | Some p =>
          let '(l, ok) := list_dirs s pcwd (split_on 58%N p) [] in
          if ok then let c := sort_texts (l ++ d_builtins s) in (set_cache s (Some c), Ok (sort_texts c))
          else (set_cache s (Some l), Err (OSError ENOENT))
      end
  end.
(** What may happen between two uses of dir(). *)
Inductive dop :=
| DDir (pcwd : text)                       (* dir(env) or a completion *)
| DClearBuiltin                            (* clear_dir_cache: builtins.py:88 calls self.env._clear_dir_cache(); self.env
                                              is command.py:83-92, a new command, and so is the attribute of it that is
                                              called: two objects are made and dropped *)
| DClear                                   (* env._clear_dir_cache(): environ.py:163-164 *)
| DFiles (f : text -> option (list text))  (* programs are installed or removed *)
| DPath (p : option text)                  (* PATH is changed *)
| DCd (d : text).
Definition dstep (s : denv) (o : dop) : denv :=
  match o with
  | DDir pcwd => fst (do_dir s pcwd)
  | DClearBuiltin => s
  | DClear => set_cache s None
  | DFiles f => mkD f (d_path s) (d_cwd s) (d_builtins s) (d_cache s)
  | DPath p => mkD (d_list s) p (d_cwd s) (d_builtins s) (d_cache s)
  | DCd d => mkD (d_list s) (d_path s) d (d_builtins s) (d_cache s)
  end.
Definition dsteps (s : denv) (l : list dop) : denv := fold_left dstep l s.
