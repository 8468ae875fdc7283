(** A session (/repo/pieshell/environ.py, /repo/pieshell/pipeline/base.py:143-168): statements
    that make and change environments, and jobs (c0 | c1 | ... | cn) run in an environment and
    waited for, one after the other. *)
From Verif Require Import Py RedirModel Os PerformModel PerformSpec RunModel RunSpec RunTopSpec RunEnds IterModel FileModel FileSpec NetModel NetSpec JobModel JobSpec
  EnvRedirModel EnvRedirSpec.

(** One statement: about environments, or running words [c], [cs] in environment [e], where
    the words denote programs [progs] and [typed] is what there is to read on the shell's
    standard input. *)
Inductive stmt :=
| SEnv (op : envop)
| SRun (e : nat) (c : list string) (cs : list (list string)) (progs : list prog) (typed : list N).

Section Session.
  Variables (L : limits) (pf : ofd -> bool) (logfd maxfd cap : nat).
  (** A shell that has standard files and whose pipes are all older. *)
  Definition usable (s : st) : Prop :=
    refers (s_tab s) 0 <> None /\ refers (s_tab s) 1 <> None /\ tget (s_tab s) 2 <> None /\
    (forall n o, refers (s_tab s) n = Some o -> is_end o -> pipe_no o < s_np s) /\
    (forall n p f, refers (s_tab s) n <> Some (OFile p f)).
  (** [session h f l f' w]: after the statements [h] about environments and with the files
      [f], the statements [l] were executed, by some scheduling of the processes (each wait()
      came to its end); then the files are [f'], and [w] is what has been written to the
      shell's own open files.  Simplification: the shell's table is any usable one each time. *)
  Inductive session : list envop -> fs -> list stmt -> fs -> list (ofd * N) -> Prop :=
  | s_end h f : session h f [] f []
  | s_env h f op l f' w : session (h ++ [op]) f l f' w -> session h f (SEnv op :: l) f' w
  | s_run h f e c cs progs typed l s s' ret its ls t f' w :
      usable s -> run_in L pf (after h) false (EPart e (chain c cs)) s = (s', Ok (ret, its)) ->
      (forall rs t argv, In (IProc rs t argv) its -> room L logfd rs t /\ find_free_fd rs < maxfd) ->
      ran L logfd maxfd cap s s' its f progs typed ls t -> j_wait t <> None ->
      session h (j_fs t) l f' w ->
      session h f (SRun e c cs progs typed :: l) f' (j_term t ++ w).
End Session.
