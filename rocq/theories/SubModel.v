(** Running a started pipeline some of whose commands are subshells,
    a | subshell(b | c) | d: NetModel.v with the processes of the subshells
    (/repo/pieshell/pipeline/builtins.py:176-194).  A subshell is a command like
    any other to the pipeline it is part of (builtins.py:179-180: its argument is not
    run by the parent); its child process gets its descriptors in the same way and
    then, instead of executing a program, starts its own pipeline with the default
    redirects of the environment and waits for it.
    Which process reads, writes or keeps open which pipe is read off the
    descriptor tables they were started with.
    Simplifications as in NetModel.v; a subshell has started its pipeline before
    the first step; the descriptors of its event loop and signal handler are left
    out (they are no pipes of the pipeline); its argument is a pipeline of commands. *)
From Verif Require Import Py RedirModel Os PerformModel PerformSpec RunModel RunSpec RunTopSpec IterModel NetModel.

(** A command, or subshell(c | cs...). *)
Inductive stage := Command (ws : list string) | Subshell (c : list string) (cs : list (list string)).
(** What the pipeline sees of it: builtins.py:176-180, a Command whose argument
    stays what it is ([Word]: nobody looks at it). *)
Definition stage_words (g : stage) : list string := match g with Command ws => ws | Subshell _ _ => ["subshell"%string] end.

(** A stage that has been started: a program, or a process with a table and
    processes of its own. *)
Inductive part := Program (it : item) | Shell (t : tab) (its : list item).
(** builtins.py:182-188 SubShell._child: redirects.perform(), then run_interactive()
    (base.py:143-153,155-161) in that process.  [np], [nt]: the next names of pipes and
    temporary files, which are the kernel's and hence global. *)
Definition enter (L : limits) (pf : ofd -> bool) (logfd maxfd : nat) (g : stage) (it : item) (np nt : nat) : option (part * nat * nat) :=
  match g, it with
  | Command _, _ => Some (Program it, np, nt)
  | Subshell c cs, IProc rs t _ =>
      match perform L logfd maxfd rs t with
      | (t', None) =>
          match start L pf false (chain c cs) (mkSt t' np nt) with
          | (s', Ok (_, its)) => Some (Shell (s_tab s') its, s_np s', s_nt s')
          | _ => None
          end
      | _ => None
      end
  | Subshell _ _, IFun _ _ _ => None
  end.
Fixpoint enter_all (L : limits) (pf : ofd -> bool) (logfd maxfd : nat) (gs : list stage) (its : list item) (np nt : nat) : option (list part) :=
  match gs, its with
  | [], [] => Some []
  | g :: gs', it :: its' =>
      match enter L pf logfd maxfd g it np nt with
      | Some (p, np', nt') => match enter_all L pf logfd maxfd gs' its' np' nt' with Some ps => Some (p :: ps) | None => None end
      | None => None
      end
  | _, _ => None
  end.

(** The programs of the stages, in order; the subshells, with their first and last
    program; and the processes pieshell itself has started (running.py:64-71). *)
Definition part_items (p : part) : list item := match p with Program it => [it] | Shell _ its => its end.
Definition part_len (p : part) : nat := List.length (part_items p).
Record sub := mkSub { b_sees : nat -> option ofd; b_first : nat; b_last : nat }.
Fixpoint subs_from (i : nat) (ps : list part) : list sub :=
  match ps with
  | [] => []
  | p :: ps' => match p with Program _ => [] | Shell t its => [mkSub (refers t) i (i + (List.length its - 1))] end ++ subs_from (i + part_len p) ps'
  end.
Inductive child := OwnProgram (i : nat) | OwnSub (j : nat).
Fixpoint children_from (i j : nat) (ps : list part) : list child :=
  match ps with
  | [] => []
  | Program _ :: ps' => OwnProgram i :: children_from (S i) j ps'
  | Shell _ its :: ps' => OwnSub j :: children_from (i + List.length its) (S j) ps'
  end.

(** A program is going on, or has gone with status 0 or another one. *)
Inductive pstate := Going (p : prog) | Gone (ok : bool).
(** What the scheduler may choose: as in NetModel.v, or a subshell that has
    nothing left to wait for. *)
Inductive ulabel := URun (l : nlabel) | ULeave (j : nat).

Section Sub.
  (** As in NetModel.v. *)
  Variable H : Type.
  Variable h_wants : H -> bool.
  Variable h_event : H -> bytes -> H * bool.
  Variable h_next h_resume : H -> H * outcome.
  Variable h_open : H -> bool.
  Variable np : nat.                          (* pipes with numbers from np on are those of this run *)
  Variable cap : nat.                         (* capacity of a pipe *)
  Variable fds : list nat.                    (* descriptor numbers a process can have *)
  Variable sees : list (nat -> option ofd).   (* what program i has on each descriptor *)
  Variable subs : list sub.
  Variable children : list child.
  Variable shell : tab.                       (* descriptors of the shell *)
  Variable x : nat.                           (* the one of them whose end of file ends the iteration *)
  Variable K : nat.                           (* the pipe it is the reading end of *)

  (** As [net] in NetModel.v; [u_subs]: Some ok when the subshell has exited. *)
  Record snet := mkU { u_procs : list pstate; u_subs : list (option bool); u_pipes : nat -> list N; u_in : list N; u_rd : rstate H }.

  Definition u_state (ps : list pstate) (i : nat) : pstate := nth i ps (Gone true).
  Definition going (ps : list pstate) (i : nat) : bool := match u_state ps i with Going _ => true | Gone _ => false end.
  Definition waits (bs : list (option bool)) (j : nat) : bool := match nth j bs (Some true) with None => true | Some _ => false end.
  (** Some program, or subshell, that has not gone has such a descriptor. *)
  Definition u_live (test : option ofd -> bool) (ps : list pstate) (bs : list (option bool)) : bool :=
    existsb (fun i => going ps i && has fds test (nth i sees (fun _ => None))) (seq 0 (List.length sees)) ||
    existsb (fun j => waits bs j && has fds test (match nth_error subs j with Some b => b_sees b | None => fun _ => None end)) (seq 0 (List.length subs)).
  Definition u_writer (s : snet) (ps : list pstate) (bs : list (option bool)) (k : nat) : bool := u_live (is_w k) ps bs || shell_has H h_open shell x (is_w k) (u_rd s).
  Definition u_reader (s : snet) (k : nat) : bool := u_live (is_r k) (u_procs s) (u_subs s) || shell_has H h_open shell x (is_r k) (u_rd s).

  Definition u_content (s : snet) (k : nat) : list N := if Nat.eqb k K then r_pend (u_rd s) else u_pipes s k.
  (** write(2) and read(2) on a pipe *)
  Definition u_push (s : snet) (k : nat) (b : N) : snet :=
    if Nat.eqb k K then mkU (u_procs s) (u_subs s) (u_pipes s) (u_in s) (with_pend H (u_rd s) (r_pend (u_rd s) ++ [b]) (r_sent (u_rd s) ++ [b]))
    else mkU (u_procs s) (u_subs s) (fun j => if Nat.eqb j k then u_pipes s k ++ [b] else u_pipes s j) (u_in s) (u_rd s).
  Definition u_pop (s : snet) (k : nat) : snet :=
    if Nat.eqb k K then mkU (u_procs s) (u_subs s) (u_pipes s) (u_in s) (with_pend H (u_rd s) (tl (r_pend (u_rd s))) (r_sent (u_rd s)))
    else mkU (u_procs s) (u_subs s) (fun j => if Nat.eqb j k then tl (u_pipes s k) else u_pipes s j) (u_in s) (u_rd s).
  Definition u_becomes (s : snet) (i : nat) (p : prog) : snet := mkU (set_nth (u_procs s) i (Going p)) (u_subs s) (u_pipes s) (u_in s) (u_rd s).
  (** A process goes: the kernel closes its descriptors. *)
  Definition u_went (s : snet) (ps : list pstate) (bs : list (option bool)) : snet :=
    let r := u_rd s in
    mkU ps bs (u_pipes s) (u_in s) (mkR (r_h r) (r_pend r) (r_wopen r && u_writer s ps bs K) (r_phase r) (r_out r) (r_sent r)).

  (** One step of program i.  None: blocked (or gone). *)
  Definition u_proc (s : snet) (i : nat) : option snet :=
    match u_state (u_procs s) i with
    | Gone _ => None
    | Going (Exits ok) => Some (u_went s (set_nth (u_procs s) i (Gone ok)) (u_subs s))
    | Going (Writes b f) =>
        match nth i sees (fun _ => None) 1 with
        | Some (OPipeW k) =>
            if ours np k then
              if negb (u_reader s k) then Some (u_becomes s i (f false))   (* EPIPE *)
              else if List.length (u_content s k) <? cap then Some (u_becomes (u_push s k b) i (f true))
              else None
            else Some (u_becomes s i (f true))
        | _ => Some (u_becomes s i (f true))
        end
    | Going (Reads f) =>
        match nth i sees (fun _ => None) 0 with
        | Some (OPipeR k) =>
            if ours np k then
              match u_content s k with
              | b :: _ => Some (u_becomes (u_pop s k) i (f (Some b)))
              | [] => if u_writer s (u_procs s) (u_subs s) k then None else Some (u_becomes s i (f None))
              end
            else match u_in s with
                 | b :: r => Some (u_becomes (mkU (u_procs s) (u_subs s) (u_pipes s) r (u_rd s)) i (f (Some b)))
                 | [] => Some (u_becomes s i (f None))
                 end
        | Some _ => match u_in s with
                    | b :: r => Some (u_becomes (mkU (u_procs s) (u_subs s) (u_pipes s) r (u_rd s)) i (f (Some b)))
                    | [] => Some (u_becomes s i (f None))
                    end
        | None => Some (u_becomes s i (f None))
        end
    end.

  (** builtins.py:187-194 with running.py:93-102,113-127: the subshell waits until all
      processes of its pipeline have gone; it exits with the exit code of the
      pipeline, that of its last process, if one of them has failed and with 0
      otherwise (C68). *)
  Definition worked (p : pstate) : bool := match p with Gone ok => ok | Going _ => false end.
  Definition u_leave (s : snet) (j : nat) : option snet :=
    match nth_error subs j with
    | Some b =>
        let own := seq (b_first b) (S (b_last b) - b_first b) in
        if waits (u_subs s) j && forallb (fun i => negb (going (u_procs s) i)) own then
          let status := if forallb (fun i => worked (u_state (u_procs s) i)) own then true else worked (u_state (u_procs s) (b_last b)) in
          Some (u_went s (u_procs s) (set_nth (u_subs s) j (Some status)))
        else None
    | None => None
    end.

  (** running.py:76,78 at_eof=self.wait and 93-95: the end of the iteration waits for
      the processes of the pipeline itself, and 101-102: it raises if one has
      failed. *)
  Definition child_gone (s : snet) (c : child) : bool := match c with OwnProgram i => negb (going (u_procs s) i) | OwnSub j => negb (waits (u_subs s) j) end.
  Definition child_ok (s : snet) (c : child) : bool :=
    match c with OwnProgram i => worked (u_state (u_procs s) i) | OwnSub j => match nth j (u_subs s) (Some true) with Some ok => ok | None => false end end.
  Definition u_may (s : snet) (l : nlabel) : bool :=
    match l with
    | NAtEof ok => forallb (child_gone s) children && Bool.eqb ok (forallb (child_ok s) children)
    | _ => true
    end.
  Definition u_step (s : snet) (ul : ulabel) : option snet :=
    match ul with
    | ULeave j => u_leave s j
    | URun l =>
        if negb (u_may s l) then None else
        match l with
        | NProc i => u_proc s i
        | _ => match reader_label l with
               | Some rl => match rstep H h_wants h_event h_next h_resume h_open true (u_rd s) rl with
                            | Some r => Some (mkU (u_procs s) (u_subs s) (u_pipes s) (u_in s) r)
                            | None => None
                            end
               | None => None
               end
        end
    end.
  Fixpoint u_steps (s : snet) (ls : list ulabel) : option snet :=
    match ls with [] => Some s | l :: ls' => match u_step s l with Some s' => u_steps s' ls' | None => None end end.
  Definition u_start (h : H) (progs : list prog) (inp : list N) : snet :=
    mkU (map Going progs) (map (fun _ => None) subs) (fun _ => []) inp (r_init H h).
End Sub.
Arguments mkU {H}. Arguments u_procs {H}. Arguments u_subs {H}. Arguments u_pipes {H}. Arguments u_in {H}. Arguments u_rd {H}.

(** bytes(pipeline) and async iteration over it (base.py:170-182), as in NetModel.v;
    [parts]: the stages as started. *)
Definition parts_sees (L : limits) (logfd maxfd : nat) (parts : list part) := map (item_sees L logfd maxfd) (flat_map part_items parts).
Definition sub_bytes (L : limits) (logfd maxfd cap : nat) (s s' : st) (parts : list part) (x : nat) :=
  u_steps byte_handler byte_wants byte_event byte_next byte_resume bi_open
    (s_np s) cap (proc_fds logfd maxfd) (parts_sees L logfd maxfd parts) (subs_from 0 parts) (children_from 0 0 parts) (s_tab s') x (caller_pipe (s_tab s') x).
Definition sub_lines (L : limits) (logfd maxfd cap : nat) (s s' : st) (parts : list part) (x : nat) :=
  u_steps line_handler line_wants line_event line_next line_next li_open
    (s_np s) cap (proc_fds logfd maxfd) (parts_sees L logfd maxfd parts) (subs_from 0 parts) (children_from 0 0 parts) (s_tab s') x (caller_pipe (s_tab s') x).
