(** Model of completing the arguments of a command: BaseCommand._arg_list_sh
    (/repo/pieshell/pipeline/command.py:155-161), Command._complete
    (command.py:247-249) and the beginning of resources/get_completions. *)
From Verif Require Import Py PathModel EnvModel ExpandModel CommandModel ReprModel.

Section Complete.
  Variable printable : N -> bool.   (* see ReprModel.repr_str *)
  (** command.py:156-160 quote_arg *)
  Definition quote_arg (w : text) : text := if mem 32%N w then repr_str printable w else w.
  (** command.py:161 and 248: the words joined by blanks, and a blank *)
  Definition complete_line (ws : list text) : text := join_with (txt " ") (map quote_arg ws) ++ txt " ".
  (** command.py:249: self._env.get_completions(cmd) is a command with one
      argument, which is expanded (command.py:133-153) like any other: [Ok argv]
      are the arguments of the program get_completions. *)
  Definition completion_argv (w : world) (cwd : text) (sc : scope) (ws : list text) : res (list text) :=
    expand_str w cwd sc (complete_line ws).
End Complete.
(** resources/get_completions, last line and line 20: the function is called with
    the first argument of the program, and does [eval set -- "$@"]: this is the
    text the shell reads and executes. *)
Definition evaluated (argv : list text) : text := txt "set -- " ++ hd [] argv.
