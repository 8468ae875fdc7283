(** Several pipelines running at the same time: a = x.run(); b = y.run(); ... a.wait();
    b.wait() (/repo/pieshell/pipeline/base.py:143-165 does not wait for what it starts,
    running.py:87-104 waits for one pipeline).  Each pipeline is a job of JobModel.v; the
    files are shared, everything else is the job's own.
    Simplified: the pipes of a job are its own (they are made by its start and the shell
    keeps none of their ends, C07, C111), and so is what it reads of the shell's standard
    input ([k_typed]); the files of one job are opened at the moment it is started. *)
From Verif Require Import Py RedirModel Os PerformModel RunModel FileModel NetModel JobModel.

(** A started pipeline (base.py:143-165): the states of pieshell before and after
    starting it, what was started, the programs, their standard input. *)
Record task := mkTask { k_s : st; k_s' : st; k_its : list item; k_progs : list prog; k_typed : list N }.
Record sys := mkSys { y_fs : fs; y_jobs : list (task * job) }.
(** base.py:143-165 run() of a further pipeline; or one step of a process of the k-th
    job, or of wait() on it (running.py:87-104). *)
Inductive blabel := BStart (a : task) | BStep (k : nat) (l : jlabel).
(** POSIX, no /repo code: the job sees the files as they are now. *)
Definition with_fs (f : fs) (j : job) : job :=
  mkJ (j_procs j) (j_pipes j) f (j_desc j) (j_term j) (j_in j) (j_ok j) (j_wait j).
(** One step of the k-th job (command.py:224-238 for what its processes have). *)
Definition task_step (L : limits) (logfd maxfd cap : nat) (a : task) (j : job) (l : jlabel) : option job :=
  jstep (s_np (k_s a)) cap (proc_fds logfd maxfd) (map (item_sees L logfd maxfd) (k_its a)) (s_tab (k_s' a)) j l.
Definition bstep (L : limits) (logfd maxfd cap : nat) (y : sys) (l : blabel) : option sys :=
  match l with
  | BStart a => match begin_job L logfd maxfd (k_its a) (y_fs y) (k_progs a) (k_typed a) with
                | Some j => Some (mkSys (j_fs j) (y_jobs y ++ [(a, j)]))
                | None => None
                end
  | BStep k l => match nth_error (y_jobs y) k with
                 | Some (a, j) => match task_step L logfd maxfd cap a (with_fs (y_fs y) j) l with
                                  | Some j' => Some (mkSys (j_fs j') (set_nth (y_jobs y) k (a, j')))
                                  | None => None
                                  end
                 | None => None
                 end
  end.
Fixpoint bsteps (L : limits) (logfd maxfd cap : nat) (y : sys) (ls : list blabel) : option sys :=
  match ls with [] => Some y | l :: ls' => match bstep L logfd maxfd cap y l with Some y' => bsteps L logfd maxfd cap y' ls' | None => None end end.
(** No pipeline started yet. *)
Definition idle (f0 : fs) : sys := mkSys f0 [].
