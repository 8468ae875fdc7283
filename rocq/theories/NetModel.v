(** Running a started pipeline of programs: the processes of RunModel.v, the
    kernel's pipes between them, and pieshell reading the end
    (/repo/pieshell/pipeline/running.py:75-78, IterModel.v), under an arbitrary scheduler.
    Which process reads, writes or keeps open which pipe is not assumed: it is
    read off the descriptor tables the processes were started with
    (command.py:224-238, redir.py:205-213) and the table of the shell.
    Simplifications: the processes make their first step once all of them have
    been started (pieshell itself is busy until then); an exit is noticed at once
    (WorldModel.v has the details; with processes only, every exit wakes the
    waiter, running.py:197-198); nobody suspends or kills anything. *)
From Verif Require Import Py RedirModel Os PerformModel PerformSpec RunModel RunSpec RunTopSpec IterModel.

(** No /repo code: a program, as far as its standard input and output are
    concerned: it reads a byte (None: end of file), writes a byte (and is told
    whether that failed with EPIPE: CPython ignores SIGPIPE, exec keeps that and
    pieshell does not restore it in command.py:224-238), or exits with status 0 or
    another one.
    Simplifications: deterministic; does not close its files before it exits;
    does not depend on how bytes are grouped by read(2) and write(2). *)
CoInductive prog := Reads (k : option N -> prog) | Writes (b : N) (k : bool -> prog) | Exits (ok : bool).

Fixpoint set_nth {A} (l : list A) (i : nat) (x : A) : list A :=
  match l, i with [], _ => [] | _ :: r, 0 => x :: r | y :: r, S j => y :: set_nth r j x end.

Section Net.
  (** The reading side: one of the handlers of IterModel.v. *)
  Variable H : Type.
  Variable h_wants : H -> bool.
  Variable h_event : H -> bytes -> H * bool.
  Variable h_next h_resume : H -> H * outcome.
  Variable h_open : H -> bool.
  Variable np : nat.                          (* pipes with numbers from np on are those of this run *)
  Variable cap : nat.                         (* capacity of a pipe *)
  Variable fds : list nat.                    (* descriptor numbers a process can have *)
  Variable sees : list (nat -> option ofd).   (* what process i has on each descriptor *)
  Variable shell : tab.                       (* descriptors of the shell *)
  Variable x : nat.                           (* the one of them whose end of file ends the iteration *)
  Variable K : nat.                           (* the pipe it is the reading end of *)

  (** [n_procs]: None when the process has gone; [n_pipes]: content of the pipes
      other than K, whose content is in the reader's state; [n_in]: what can still
      be read from files that are not pipes of this run; [n_ok]: no process has
      ended with a status other than 0 (running.py:123-127,276-281). *)
  Record net := mkN { n_procs : list (option prog); n_pipes : nat -> list N; n_in : list N; n_rd : rstate H; n_ok : bool }.

  Definition is_r (k : nat) (o : option ofd) : bool := match o with Some (OPipeR j) => Nat.eqb j k | _ => false end.
  Definition is_w (k : nat) (o : option ofd) : bool := match o with Some (OPipeW j) => Nat.eqb j k | _ => false end.
  Definition has (test : option ofd -> bool) (see : nat -> option ofd) : bool := existsb (fun n => test (see n)) fds.
  (** Some process that has not gone has such a descriptor. *)
  Fixpoint some_live (test : option ofd -> bool) (ps : list (option prog)) (ss : list (nat -> option ofd)) : bool :=
    match ps, ss with
    | p :: ps', see :: ss' => (match p with Some _ => has test see | None => false end) || some_live test ps' ss'
    | _, _ => false
    end.
  Definition shell_has (test : option ofd -> bool) (rd : rstate H) : bool :=
    existsb (fun n => test (refers shell n) && (negb (Nat.eqb n x) || h_open (r_h rd))) (seq 0 (List.length shell)).
  Definition writer_left (s : net) (ps : list (option prog)) (k : nat) : bool := some_live (is_w k) ps sees || shell_has (is_w k) (n_rd s).
  Definition reader_left (s : net) (k : nat) : bool := some_live (is_r k) (n_procs s) sees || shell_has (is_r k) (n_rd s).

  Definition content (s : net) (k : nat) : list N := if Nat.eqb k K then r_pend (n_rd s) else n_pipes s k.
  Definition with_pend (r : rstate H) (p sent : list N) : rstate H := mkR (r_h r) p (r_wopen r) (r_phase r) (r_out r) sent.
  (** write(2) and read(2) on a pipe *)
  Definition push (s : net) (k : nat) (b : N) : net :=
    if Nat.eqb k K then mkN (n_procs s) (n_pipes s) (n_in s) (with_pend (n_rd s) (r_pend (n_rd s) ++ [b]) (r_sent (n_rd s) ++ [b])) (n_ok s)
    else mkN (n_procs s) (fun j => if Nat.eqb j k then n_pipes s k ++ [b] else n_pipes s j) (n_in s) (n_rd s) (n_ok s).
  Definition pop (s : net) (k : nat) : net :=
    if Nat.eqb k K then mkN (n_procs s) (n_pipes s) (n_in s) (with_pend (n_rd s) (tl (r_pend (n_rd s))) (r_sent (n_rd s))) (n_ok s)
    else mkN (n_procs s) (fun j => if Nat.eqb j k then tl (n_pipes s k) else n_pipes s j) (n_in s) (n_rd s) (n_ok s).
  Definition becomes (s : net) (i : nat) (p : prog) : net := mkN (set_nth (n_procs s) i (Some p)) (n_pipes s) (n_in s) (n_rd s) (n_ok s).
  (** A process goes: the kernel closes its descriptors. *)
  Definition gone (s : net) (i : nat) (ok : bool) : net :=
    let ps := set_nth (n_procs s) i None in
    let r := n_rd s in
    mkN ps (n_pipes s) (n_in s) (mkR (r_h r) (r_pend r) (r_wopen r && writer_left s ps K) (r_phase r) (r_out r) (r_sent r)) (n_ok s && ok).
  Definition ours (k : nat) : bool := np <=? k.

  (** One step of process i.  None: blocked (or gone). *)
  Definition proc_step (s : net) (i : nat) : option net :=
    match nth i (n_procs s) None with
    | None => None
    | Some (Exits ok) => Some (gone s i ok)
    | Some (Writes b f) =>
        match nth i sees (fun _ => None) 1 with
        | Some (OPipeW k) =>
            if ours k then
              if negb (reader_left s k) then Some (becomes s i (f false))   (* EPIPE *)
              else if List.length (content s k) <? cap then Some (becomes (push s k b) i (f true))
              else None
            else Some (becomes s i (f true))
        | _ => Some (becomes s i (f true))                                         (* another file, or an ignored EBADF *)
        end
    | Some (Reads f) =>
        match nth i sees (fun _ => None) 0 with
        | Some (OPipeR k) =>
            if ours k then
              match content s k with
              | b :: _ => Some (becomes (pop s k) i (f (Some b)))
              | [] => if writer_left s (n_procs s) k then None else Some (becomes s i (f None))
              end
            else match n_in s with
                 | b :: r => Some (becomes (mkN (n_procs s) (n_pipes s) r (n_rd s) (n_ok s)) i (f (Some b)))
                 | [] => Some (becomes s i (f None))
                 end
        | Some _ => match n_in s with
                    | b :: r => Some (becomes (mkN (n_procs s) (n_pipes s) r (n_rd s) (n_ok s)) i (f (Some b)))
                    | [] => Some (becomes s i (f None))
                    end
        | None => Some (becomes s i (f None))
        end
    end.

  (** What the scheduler may choose: a process, or a step of pieshell's reader. *)
  Inductive nlabel := NProc (i : nat) | NReadable (n : nat) | NNext | NWake | NAtEof (ok : bool).
  Definition reader_label (l : nlabel) : option label :=
    match l with NProc _ => None | NReadable n => Some (LReadable n) | NNext => Some LNext | NWake => Some LWake | NAtEof ok => Some (LAtEof ok) end.
  (** running.py:76,78 at_eof=self.wait and 93-95: the end of the iteration waits
      until no process is left, and 101-102: it raises if one has failed. *)
  Definition may (s : net) (l : nlabel) : bool :=
    match l with
    | NAtEof ok => forallb (fun p => match p with Some _ => false | None => true end) (n_procs s) && Bool.eqb ok (n_ok s)
    | _ => true
    end.
  Definition nstep (s : net) (l : nlabel) : option net :=
    if negb (may s l) then None else
    match l with
    | NProc i => proc_step s i
    | _ => match reader_label l with
           | Some rl => match rstep H h_wants h_event h_next h_resume h_open true (n_rd s) rl with
                        | Some r => Some (mkN (n_procs s) (n_pipes s) (n_in s) r (n_ok s))
                        | None => None
                        end
           | None => None
           end
    end.
  Fixpoint nsteps (s : net) (ls : list nlabel) : option net :=
    match ls with [] => Some s | l :: ls' => match nstep s l with Some s' => nsteps s' ls' | None => None end end.
  Definition net_start (h : H) (progs : list prog) (inp : list N) : net :=
    mkN (map Some progs) (fun _ => []) inp (r_init H h) true.
End Net.
Arguments mkN {H}. Arguments n_procs {H}. Arguments n_pipes {H}. Arguments n_in {H}. Arguments n_rd {H}. Arguments n_ok {H}.

(** The network of a started pipeline: process i is its i-th item. *)
Definition item_sees (L : limits) (logfd maxfd : nat) (it : item) : nat -> option ofd :=
  match it with IProc rs t _ => program_fd L logfd maxfd rs t | IFun _ _ _ => fun _ => None end.
(** The log descriptor is left out: it is a copy of the shell's own stdout
    (log.py:25-33), which is not a pipe of this run. *)
Definition proc_fds (logfd maxfd : nat) : list nat := filter (fun n => negb (Nat.eqb n logfd)) (seq 0 maxfd).
(** The pipe whose reading end the caller was given (base.py:170-172, 180-182:
    the stdout redirect's pipe). *)
Definition caller_pipe (shell : tab) (x : nat) : nat := match refers shell x with Some (OPipeR k) => k | _ => 0 end.
(** bytes(pipeline) and async iteration over it (base.py:170-182): pieshell's
    state was [s] before the pipeline was started and [s'] after, [its] was
    started and [x] is the descriptor iterated over. *)
Definition bytes_run (L : limits) (logfd maxfd cap : nat) (s s' : st) (its : list item) (x : nat) :=
  nsteps byte_handler byte_wants byte_event byte_next byte_resume bi_open
    (s_np s) cap (proc_fds logfd maxfd) (map (item_sees L logfd maxfd) its) (s_tab s') x (caller_pipe (s_tab s') x).
Definition lines_run (L : limits) (logfd maxfd cap : nat) (s s' : st) (its : list item) (x : nat) :=
  nsteps line_handler line_wants line_event line_next line_next li_open
    (s_np s) cap (proc_fds logfd maxfd) (map (item_sees L logfd maxfd) its) (s_tab s') x (caller_pipe (s_tab s') x).
