(** Running a pipeline of programs without reading its output in python: cmd.run() and
    wait(), or a command line typed in (/repo/pieshell/pipeline/base.py:143-165,
    running.py:87-104): the processes, the kernel's pipes between them, the files their
    standard input and output are redirected to, and the shell's own files.
    Which process reads, writes or keeps open what is read off the descriptor tables the
    processes were started with (command.py:224-238, redir.py:205-213) and the table of
    the shell, as in NetModel.v, whose simplifications hold here as well.  Moreover: the
    files are opened (redir.py:104-110) before the first step of any program, in the
    order of the processes; only descriptors 0 and 1 are read and written; nobody else
    changes the files. *)
From Verif Require Import Py RedirModel Os PerformModel PerformSpec RunModel RunSpec RunTopSpec IterModel FileModel NetModel.

Section Job.
  Variable np : nat.                          (* pipes with numbers from np on are those of this run *)
  Variable cap : nat.                         (* capacity of a pipe *)
  Variable fds : list nat.                    (* descriptor numbers a process can have *)
  Variable sees : list (nat -> option ofd).   (* what process i has on each descriptor *)
  Variable shell : tab.                       (* descriptors of the shell *)

  (** [j_desc i n]: the open file behind descriptor n of process i, if that is a file
      opened by the process; [j_term o]: what has been written to the shell's own open
      file o; [j_in]: what can still be read from there; [j_wait]: whether wait() has
      returned (true) or raised PipelineFailed (false). *)
  Record job := mkJ { j_procs : list (option prog); j_pipes : nat -> list N; j_fs : fs; j_desc : nat -> nat -> option desc;
                      j_term : list (ofd * N); j_in : list N; j_ok : bool; j_wait : option bool }.

  Definition shell_holds (test : option ofd -> bool) : bool := existsb (fun n => test (refers shell n)) (seq 0 (List.length shell)).
  Definition j_writer (s : job) (k : nat) : bool := some_live fds (is_w k) (j_procs s) sees || shell_holds (is_w k).
  Definition j_reader (s : job) (k : nat) : bool := some_live fds (is_r k) (j_procs s) sees || shell_holds (is_r k).
  Definition set_pipe (s : job) (k : nat) (c : list N) : job :=
    mkJ (j_procs s) (fun j => if Nat.eqb j k then c else j_pipes s j) (j_fs s) (j_desc s) (j_term s) (j_in s) (j_ok s) (j_wait s).
  Definition set_desc (s : job) (f : fs) (i n : nat) (d : desc) : job :=
    mkJ (j_procs s) (j_pipes s) f (fun a b => if Nat.eqb a i && Nat.eqb b n then Some d else j_desc s a b) (j_term s) (j_in s) (j_ok s) (j_wait s).
  Definition turns (s : job) (i : nat) (p : option prog) (ok : bool) : job :=
    mkJ (set_nth (j_procs s) i p) (j_pipes s) (j_fs s) (j_desc s) (j_term s) (j_in s) (j_ok s && ok) (j_wait s).
  Definition goes_on (s : job) (i : nat) (p : prog) : job := turns s i (Some p) true.

  (** read(2), one byte, on an open file *)
  Definition file_read (s : job) (d : desc) : option N := match j_fs s (d_path d) with Some c => nth_error c (d_off d) | None => None end.
  (** One step of process i.  None: blocked (or gone). *)
  Definition jproc (s : job) (i : nat) : option job :=
    match nth i (j_procs s) None with
    | None => None
    | Some (Exits ok) => Some (turns s i None ok)
    | Some (Writes b f) =>
        match nth i sees (fun _ => None) 1 with
        | Some (OPipeW k) =>
            if ours np k then
              if negb (j_reader s k) then Some (goes_on s i (f false))   (* EPIPE *)
              else if List.length (j_pipes s k) <? cap then Some (goes_on (set_pipe s k (j_pipes s k ++ [b])) i (f true))
              else None
            else Some (goes_on (mkJ (j_procs s) (j_pipes s) (j_fs s) (j_desc s) (j_term s ++ [(OPipeW k, b)]) (j_in s) (j_ok s) (j_wait s)) i (f true))
        | Some (OFile _ _) =>
            match j_desc s i 1 with
            | Some d => match sys_write (j_fs s) d [b] with
                        | (fs', Ok d') => Some (goes_on (set_desc s fs' i 1 d') i (f true))
                        | (_, Err _) => Some (goes_on s i (f true))       (* an ignored EBADF *)
                        end
            | None => Some (goes_on s i (f true))
            end
        | Some o => Some (goes_on (mkJ (j_procs s) (j_pipes s) (j_fs s) (j_desc s) (j_term s ++ [(o, b)]) (j_in s) (j_ok s) (j_wait s)) i (f true))
        | None => Some (goes_on s i (f true))
        end
    | Some (Reads f) =>
        match nth i sees (fun _ => None) 0 with
        | Some o =>
            match o with
            | OFile _ _ =>
                match j_desc s i 0 with
                | Some d => match file_read s d with
                            | Some b => Some (goes_on (set_desc s (j_fs s) i 0 (mkD (d_path d) (S (d_off d)) (d_append d) (d_writable d))) i (f (Some b)))
                            | None => Some (goes_on s i (f None))
                            end
                | None => Some (goes_on s i (f None))
                end
            | _ =>
                match (match o with OPipeR k => if ours np k then Some k else None | _ => None end) with
                | Some k => match j_pipes s k with
                            | b :: r => Some (goes_on (set_pipe s k r) i (f (Some b)))
                            | [] => if j_writer s k then None else Some (goes_on s i (f None))
                            end
                | None => match j_in s with
                          | b :: r => Some (goes_on (mkJ (j_procs s) (j_pipes s) (j_fs s) (j_desc s) (j_term s) r (j_ok s) (j_wait s)) i (f (Some b)))
                          | [] => Some (goes_on s i (f None))
                          end
                end
            end
        | None => Some (goes_on s i (f None))
        end
    end.

  (** What the scheduler may choose: a process, or that wait() comes to its end, once no
      process is running (running.py:93), raising if one has failed (101-102). *)
  Inductive jlabel := JProc (i : nat) | JWait.
  Definition jstep (s : job) (l : jlabel) : option job :=
    match l with
    | JProc i => jproc s i
    | JWait => match j_wait s with
               | None => if forallb (fun p => match p with Some _ => false | None => true end) (j_procs s)
                         then Some (mkJ (j_procs s) (j_pipes s) (j_fs s) (j_desc s) (j_term s) (j_in s) (j_ok s) (Some (j_ok s)))
                         else None
               | Some _ => None
               end
    end.
  Fixpoint jsteps (s : job) (ls : list jlabel) : option job :=
    match ls with [] => Some s | l :: ls' => match jstep s l with Some s' => jsteps s' ls' | None => None end end.

  (** redir.py:104-110 in each child: the files on its descriptors 0 and 1 are opened.
      None: a file cannot be opened (then the program is not run, C65). *)
  Definition open_one (s : job) (i n : nat) : option job :=
    match nth i sees (fun _ => None) n with
    | Some (OFile p flag) => match sys_open (j_fs s) p flag with (f, Ok d) => Some (set_desc s f i n d) | (_, Err _) => None end
    | _ => Some s
    end.
  Fixpoint open_all (s : job) (is : list nat) : option job :=
    match is with
    | [] => Some s
    | i :: is' => match open_one s i 0 with
                  | Some s1 => match open_one s1 i 1 with Some s2 => open_all s2 is' | None => None end
                  | None => None
                  end
    end.
  Definition job_start (f0 : fs) (progs : list prog) (inp : list N) : option job :=
    open_all (mkJ (map Some progs) (fun _ => []) f0 (fun _ _ => None) [] inp true None) (seq 0 (List.length progs)).
End Job.

(** The processes of a started pipeline: process i is its i-th item; [s] and [s'] are
    pieshell's states before and after starting it. *)
Definition begin_job (L : limits) (logfd maxfd : nat) (its : list item) : fs -> list prog -> list N -> option job :=
  job_start (map (item_sees L logfd maxfd) its).
Definition run_job (L : limits) (logfd maxfd cap : nat) (s s' : st) (its : list item) : job -> list jlabel -> option job :=
  jsteps (s_np s) cap (proc_fds logfd maxfd) (map (item_sees L logfd maxfd) its) (s_tab s').
