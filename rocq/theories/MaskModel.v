(** Model of the signal settings of the shell and of the programs it starts: which signals
    are blocked and what each of them does.  Signal numbers as in WorldModel (Linux). *)
From Verif Require Import Py WorldModel.

Inductive disposition := Default | Ignored | Handled.
Record sigs := mkSigs { sg_blocked : N -> bool; sg_disp : N -> disposition }.
Definition SIGINT : N := 2. Definition SIGPIPE : N := 13. Definition SIGXFSZ : N := 25.

(** execve(2): handled signals are set to their default, ignored ones stay ignored, the mask
    is kept. *)
Definition sig_exec (s : sigs) : sigs := mkSigs (sg_blocked s) (fun n => match sg_disp s n with Handled => Default | d => d end).
(** fork(2): the child has the settings of its parent. *)
Definition sig_fork (s : sigs) : sigs := s.
Definition set_disp (s : sigs) (n : N) (d : disposition) : sigs := mkSigs (sg_blocked s) (fun m => if N.eqb m n then d else sg_disp s m).
(** What the python interpreter does when it starts (CPython Python/pylifecycle.c
    init_signals: SIGPIPE and SIGXFSZ are ignored; Modules/signalmodule.c: SIGINT is handled
    unless it was ignored). *)
Definition python_start (s : sigs) : sigs :=
  let s := set_disp (set_disp s SIGPIPE Ignored) SIGXFSZ Ignored in
  match sg_disp s SIGINT with Default => set_disp s SIGINT Handled | _ => s end.
(** The signals the manager takes: manager_signalfd.py:16, manager_asyncio.py:11 *)
Definition taken (n : N) : bool := N.eqb n SIGCHLD || N.eqb n SIGTSTP.
(** SignalManager.__init__: manager_signalfd.py:16-20 blocks them, manager_asyncio.py:11-15
    installs handlers.  Nothing in pieshell undoes either. *)
Definition manager_start (mgr : manager) (s : sigs) : sigs :=
  match mgr with
  | Signalfd => mkSigs (fun n => taken n || sg_blocked s n) (sg_disp s)
  | Asyncio => mkSigs (sg_blocked s) (fun n => if taken n then Handled else sg_disp s n)
  end.
(** A pieshell started by something with the settings [s] *)
Definition pieshell_start (mgr : manager) (s : sigs) : sigs := manager_start mgr (python_start (sig_exec (sig_fork s))).
(** command.py:175-179,221-233: a command is forked and executed; Redirects.perform and
    os.chdir in between do not touch signals. *)
Definition command_start (s : sigs) : sigs := sig_exec (sig_fork s).
(** A program started by a pieshell started by a pieshell ... ([ms]: their managers, the
    outermost first; remote pieshells and scripts) started with [s]. *)
Definition program_sigs (ms : list manager) (s : sigs) : sigs := command_start (fold_left (fun s m => pieshell_start m s) ms s).
(** What a signal does to a process with such settings: signal(7). *)
Inductive effect := Waits | Nothing | Runs_handler | Acts.
Definition receives (s : sigs) (n : N) : effect :=
  if sg_blocked s n then Waits else match sg_disp s n with Default => Acts | Ignored => Nothing | Handled => Runs_handler end.
