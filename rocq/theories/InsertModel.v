(** Which commands are started when a pipeline is run, with the commands whose
    output its arguments insert: /repo/pieshell/environ.py:83-85 ("%(date)s" with
    EnvScope.__getitem__, environ.py:215-233, makes str() of the command, which
    runs it, base.py:177-182), at every place where arguments are expanded:
    command.py:133-153 (_arg_list), called by _run and by _repr.
    Simplifications: every expansion and every start succeeds; an inserted
    command is inserted once per conversion. *)
From Verif Require Import Py.

(** Commands are told apart by numbers.  An argument is a string with the
    pipelines its conversions run, an argument pipeline, or anything else
    (R(...), functions, iterables). *)
Inductive ipl :=
| ICmd (id : nat) (args : list iarg)
| IFun
| IPipe (a b : ipl)
| IGroup (a b : ipl)
| IRedir (p : ipl)
with iarg :=
| IStr (inserts : list ipl)
| ISub (p : ipl)
| IOther.

(** [began p]: the commands started by p.run(), in order: base.py:143-154.
    pipe.py:37-53, group.py:36-50, redirect.py:36-43: log.log("..." % repr(self))
    builds its text whether or not it is logged, then the parts are run.
    command.py:213-245: repr(self), _arg_list, repr(self), fork.
    [shown p]: those started by repr(p): pipe.py:35-36, group.py:34-35, redirect.py:34-35;
    command.py:94-123 expands the arguments, argument pipelines being shown as
    /dev/fd/X (command.py:125-131). *)
Fixpoint began (p : ipl) : list nat :=
  match p with
  | ICmd id args =>
      let shown_args := flat_map (fun a => match a with IStr l => flat_map began l | _ => [] end) args in
      shown_args ++ flat_map (fun a => match a with IStr l => flat_map began l | ISub q => began q | IOther => [] end) args ++ shown_args ++ [id]
  | IFun => []
  | IPipe a b => (shown a ++ shown b) ++ began a ++ began b
  | IGroup a b => (shown a ++ shown b) ++ began a ++ began b
  | IRedir q => shown q ++ began q
  end
with shown (p : ipl) : list nat :=
  match p with
  | ICmd _ args => flat_map (fun a => match a with IStr l => flat_map began l | _ => [] end) args
  | IFun => []
  | IPipe a b => shown a ++ shown b
  | IGroup a b => shown a ++ shown b
  | IRedir q => shown q
  end.
