(** Model of completion for the cd command: CdBuiltin.__dir__
    (/repo/pieshell/pipeline/builtins.py:34-43) and choosing one of the names offered. *)
From Verif Require Import Py PathModel EnvModel ExpandModel CommandModel.

(** builtins.py:16-19 the class and command.py:69-92: cd with the words [args] *)
Definition cd_object (args : list text) : cmd := mkCmd (CBuiltin (txt "cd")) (AStr (txt "cd") :: map AStr args).
(** builtins.py:26-27 self._arg[1:]; here all arguments are strings *)
Definition words_of (c : cmd) : list text := map (fun a => match a with AStr t => t | _ => [] end) (tl (c_arg c)).
(** builtins.py:30-32 _run *)
Definition cd_run (w : world) (e : nat) (c : cmd) : world * res unit := do_cd w e (cd_path (words_of c)).

(** builtins.py:21 the keys of _replacements *)
Definition special : list text := [txt "PARENT"; txt "ROOT"].
(** builtins.py:34-43 __dir__.  [lists d]: os.listdir of the directory d (absolute), each
    name with the kind of what it names (os.path.isdir follows links); None: it raises
    (no such directory, not a directory, no permission), which line 42 catches.
    Line 38: "." is the directory of the process. *)
Definition cd_dir (lists : text -> option (list (text * kind))) (w : world) (e : nat) (args : list text) : list text :=
  let d := match args with [] => w_pcwd w | _ => expand_path w (e_cwd (env_at w e)) (cd_path args) end in
  match lists d with
  | Some l => map fst (filter (fun x => match snd x with KDir => true | KFile => false end) l) ++ special
  | None => special
  end.
(** What typing cd.a.b.n and running it does: command.py:83-92, builtins.py:30-32.
    None: cd.a.b.n is no command. *)
Definition choose (w : world) (e : nat) (args : list text) (n : text) : option (world * res unit) :=
  match get_attr (cd_object args) n with
  | Ok (RCmd c) => Some (cd_run w e c)
  | _ => None
  end.
