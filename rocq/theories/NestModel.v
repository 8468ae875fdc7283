(** Running a started pipeline whose commands have pipelines as arguments,
    diff(a | b, c) (in a shell: diff <(a | b) <(c)): NetModel.v with programs that
    also read the files their arguments name.  Which process reads, writes or keeps
    open which pipe is read off the descriptor tables and argument vectors the
    processes were started with (RunModel.v: command.py:180-245).
    Simplifications as in NetModel.v; opening /dev/fd/N is another name for
    descriptor N (as it is for pipes on Linux, see fifo(7)). *)
From Verif Require Import Py RedirModel Os PerformModel PerformSpec RunModel RunSpec RunTopSpec IterModel NetModel.

(** No /repo code: what a program reads from: its standard input, or the file its
    i-th argument names (counted from 0, the name of the program). *)
Inductive chan := Stdin | Argument (i : nat).
(** No /repo code: a program as in NetModel.v, reading from several files. *)
CoInductive mprog := MReads (c : chan) (k : option N -> mprog) | MWrites (b : N) (k : bool -> mprog) | MExits (ok : bool).

(** command.py:211: the descriptor behind an argument /dev/fd/N *)
Definition chan_fd (argv : list aword) (c : chan) : option nat :=
  match c with
  | Stdin => Some 0
  | Argument i => match nth_error argv i with Some (DevFd n) => Some n | _ => None end
  end.

Section Nest.
  (** As in NetModel.v. *)
  Variable H : Type.
  Variable h_wants : H -> bool.
  Variable h_event : H -> bytes -> H * bool.
  Variable h_next h_resume : H -> H * outcome.
  Variable h_open : H -> bool.
  Variable np : nat.                          (* pipes with numbers from np on are those of this run *)
  Variable cap : nat.                         (* capacity of a pipe *)
  Variable fds : list nat.                    (* descriptor numbers a process can have *)
  Variable sees : list (nat -> option ofd).   (* what process i has on each descriptor *)
  Variable argvs : list (list aword).         (* the argument vector of process i *)
  Variable shell : tab.                       (* descriptors of the shell *)
  Variable x : nat.                           (* the one of them whose end of file ends the iteration *)
  Variable K : nat.                           (* the pipe it is the reading end of *)

  (** As [net] in NetModel.v (running.py:64-71,123-127,276-281). *)
  Record nest := mkNest { m_procs : list (option mprog); m_pipes : nat -> list N; m_in : list N; m_rd : rstate H; m_ok : bool }.

  (** Some process that has not gone has such a descriptor. *)
  Fixpoint m_live (test : option ofd -> bool) (ps : list (option mprog)) (ss : list (nat -> option ofd)) : bool :=
    match ps, ss with
    | p :: ps', see :: ss' => (match p with Some _ => has fds test see | None => false end) || m_live test ps' ss'
    | _, _ => false
    end.
  Definition m_writer (s : nest) (ps : list (option mprog)) (k : nat) : bool := m_live (is_w k) ps sees || shell_has H h_open shell x (is_w k) (m_rd s).
  Definition m_reader (s : nest) (k : nat) : bool := m_live (is_r k) (m_procs s) sees || shell_has H h_open shell x (is_r k) (m_rd s).

  Definition m_content (s : nest) (k : nat) : list N := if Nat.eqb k K then r_pend (m_rd s) else m_pipes s k.
  (** write(2) and read(2) on a pipe *)
  Definition m_push (s : nest) (k : nat) (b : N) : nest :=
    if Nat.eqb k K then mkNest (m_procs s) (m_pipes s) (m_in s) (with_pend H (m_rd s) (r_pend (m_rd s) ++ [b]) (r_sent (m_rd s) ++ [b])) (m_ok s)
    else mkNest (m_procs s) (fun j => if Nat.eqb j k then m_pipes s k ++ [b] else m_pipes s j) (m_in s) (m_rd s) (m_ok s).
  Definition m_pop (s : nest) (k : nat) : nest :=
    if Nat.eqb k K then mkNest (m_procs s) (m_pipes s) (m_in s) (with_pend H (m_rd s) (tl (r_pend (m_rd s))) (r_sent (m_rd s))) (m_ok s)
    else mkNest (m_procs s) (fun j => if Nat.eqb j k then tl (m_pipes s k) else m_pipes s j) (m_in s) (m_rd s) (m_ok s).
  Definition m_becomes (s : nest) (i : nat) (p : mprog) : nest := mkNest (set_nth (m_procs s) i (Some p)) (m_pipes s) (m_in s) (m_rd s) (m_ok s).
  (** A process goes: the kernel closes its descriptors. *)
  Definition m_gone (s : nest) (i : nat) (ok : bool) : nest :=
    let ps := set_nth (m_procs s) i None in
    let r := m_rd s in
    mkNest ps (m_pipes s) (m_in s) (mkR (r_h r) (r_pend r) (r_wopen r && m_writer s ps K) (r_phase r) (r_out r) (r_sent r)) (m_ok s && ok).

  (** What process i has behind a file it reads. *)
  Definition chan_ofd (i : nat) (c : chan) : option ofd :=
    match chan_fd (nth i argvs []) c with Some m => nth i sees (fun _ => None) m | None => None end.

  (** One step of process i.  None: blocked (or gone).  Reading an argument that is
      no /dev/fd/N is not reading a file of this run: it is left to the program,
      and here such a file is empty. *)
  Definition m_proc (s : nest) (i : nat) : option nest :=
    match nth i (m_procs s) None with
    | None => None
    | Some (MExits ok) => Some (m_gone s i ok)
    | Some (MWrites b f) =>
        match nth i sees (fun _ => None) 1 with
        | Some (OPipeW k) =>
            if ours np k then
              if negb (m_reader s k) then Some (m_becomes s i (f false))   (* EPIPE *)
              else if List.length (m_content s k) <? cap then Some (m_becomes (m_push s k b) i (f true))
              else None
            else Some (m_becomes s i (f true))
        | _ => Some (m_becomes s i (f true))
        end
    | Some (MReads c f) =>
        match chan_ofd i c with
        | Some (OPipeR k) =>
            if ours np k then
              match m_content s k with
              | b :: _ => Some (m_becomes (m_pop s k) i (f (Some b)))
              | [] => if m_writer s (m_procs s) k then None else Some (m_becomes s i (f None))
              end
            else match m_in s with
                 | b :: r => Some (m_becomes (mkNest (m_procs s) (m_pipes s) r (m_rd s) (m_ok s)) i (f (Some b)))
                 | [] => Some (m_becomes s i (f None))
                 end
        | Some _ => match m_in s with
                    | b :: r => Some (m_becomes (mkNest (m_procs s) (m_pipes s) r (m_rd s) (m_ok s)) i (f (Some b)))
                    | [] => Some (m_becomes s i (f None))
                    end
        | None => Some (m_becomes s i (f None))
        end
    end.

  (** What the scheduler may choose (NetModel.v), and running.py:76,78,93-95,101-102. *)
  Definition m_may (s : nest) (l : nlabel) : bool :=
    match l with
    | NAtEof ok => forallb (fun p => match p with Some _ => false | None => true end) (m_procs s) && Bool.eqb ok (m_ok s)
    | _ => true
    end.
  Definition m_step (s : nest) (l : nlabel) : option nest :=
    if negb (m_may s l) then None else
    match l with
    | NProc i => m_proc s i
    | _ => match reader_label l with
           | Some rl => match rstep H h_wants h_event h_next h_resume h_open true (m_rd s) rl with
                        | Some r => Some (mkNest (m_procs s) (m_pipes s) (m_in s) r (m_ok s))
                        | None => None
                        end
           | None => None
           end
    end.
  Fixpoint m_steps (s : nest) (ls : list nlabel) : option nest :=
    match ls with [] => Some s | l :: ls' => match m_step s l with Some s' => m_steps s' ls' | None => None end end.
  Definition m_start (h : H) (progs : list mprog) (inp : list N) : nest :=
    mkNest (map Some progs) (fun _ => []) inp (r_init H h) true.
End Nest.
Arguments mkNest {H}. Arguments m_procs {H}. Arguments m_pipes {H}. Arguments m_in {H}. Arguments m_rd {H}. Arguments m_ok {H}.

(** command.py:224-238: the argument vector a process was started with *)
Definition item_argv (it : item) : list aword := match it with IProc _ _ argv => argv | IFun _ _ _ => [] end.
(** bytes(pipeline) and async iteration over it (base.py:170-182), as in NetModel.v. *)
Definition nest_bytes (L : limits) (logfd maxfd cap : nat) (s s' : st) (its : list item) (x : nat) :=
  m_steps byte_handler byte_wants byte_event byte_next byte_resume bi_open
    (s_np s) cap (proc_fds logfd maxfd) (map (item_sees L logfd maxfd) its) (map item_argv its) (s_tab s') x (caller_pipe (s_tab s') x).
Definition nest_lines (L : limits) (logfd maxfd cap : nat) (s s' : st) (its : list item) (x : nat) :=
  m_steps line_handler line_wants line_event line_next line_next li_open
    (s_np s) cap (proc_fds logfd maxfd) (map (item_sees L logfd maxfd) its) (map item_argv its) (s_tab s') x (caller_pipe (s_tab s') x).
