(** Several pipelines of programs run by one shell at the same time: NetModel.v with
    any number of them, started at any time while others are running
    (/repo/pieshell/pipeline/base.py:143-153: Pipeline.run returns at once) and iterated
    over by different tasks of the event loop.
    All processes, all pipes and the one table of the shell are looked at for who can
    still read or write a pipe: nothing is assumed about which pipeline they belong to.
    Simplifications as in NetModel.v; besides, a start that fails is left out (C76),
    and all pipelines are read in the same way (bytes or lines). *)
From Verif Require Import Py RedirModel Os PerformModel PerformSpec RunModel RunSpec RunTopSpec IterModel NetModel.

(** What the scheduler may choose: the shell starts c | cs..., whose programs are
    [progs], and iterates over it, or the j-th pipeline started makes a step. *)
Inductive mlabel := MStart (c : list string) (cs : list (list string)) (progs : list prog) | MStep (j : nat) (l : nlabel).

Section Many.
  (** As in NetModel.v. *)
  Variable H : Type.
  Variable h_wants : H -> bool.
  Variable h_event : H -> bytes -> H * bool.
  Variable h_next h_resume : H -> H * outcome.
  Variable h_open : H -> bool.
  Variable h0 : H.                            (* a new handler *)
  Variable L : limits.
  Variable pf : ofd -> bool.
  Variables logfd maxfd : nat.
  Variable cap : nat.                         (* capacity of a pipe *)
  Variable np0 : nat.                         (* pipes with lower numbers are older than all pipelines *)

  (** A pipeline: what was started, the descriptor iterated over, the pipe it is the
      reading end of, and as in NetModel.v. *)
  Record pjob := mkP { p_its : list item; p_x : nat; p_K : nat; p_procs : list (option prog); p_rd : rstate H; p_ok : bool }.
  (** [w_tab], [w_np], [w_nt]: state of the shell (RunModel.v); [w_pipes]: content of the
      pipes nobody iterates over; [w_in]: what can still be read from the shell's
      standard input. *)
  Record world := mkW { w_tab : tab; w_np : nat; w_nt : nat; w_pipes : nat -> list N; w_in : list N; w_jobs : list pjob }.

  Definition p_sees (q : pjob) : list (nat -> option ofd) := map (item_sees L logfd maxfd) (p_its q).
  (** Some process that has not gone, or the shell, has such a descriptor. *)
  Definition w_has (test : option ofd -> bool) (t : tab) (jobs : list pjob) : bool :=
    existsb (fun q => some_live (proc_fds logfd maxfd) test (p_procs q) (p_sees q)) jobs ||
    existsb (fun n => test (refers t n)) (seq 0 (List.length t)).

  Definition iterates (k : nat) (q : pjob) : bool := Nat.eqb (p_K q) k.
  Definition w_content (w : world) (k : nat) : list N :=
    match find (iterates k) (w_jobs w) with Some q => r_pend (p_rd q) | None => w_pipes w k end.
  Definition with_rd (q : pjob) (r : rstate H) : pjob := mkP (p_its q) (p_x q) (p_K q) (p_procs q) r (p_ok q).
  Definition with_jobs (w : world) (jobs : list pjob) : world := mkW (w_tab w) (w_np w) (w_nt w) (w_pipes w) (w_in w) jobs.
  Definition with_pipe (w : world) (k : nat) (v : list N) : world :=
    mkW (w_tab w) (w_np w) (w_nt w) (fun i => if Nat.eqb i k then v else w_pipes w i) (w_in w) (w_jobs w).
  (** write(2) and read(2) on a pipe *)
  Definition w_push (w : world) (k : nat) (b : N) : world :=
    if existsb (iterates k) (w_jobs w)
    then with_jobs w (map (fun q => if iterates k q then with_rd q (with_pend H (p_rd q) (r_pend (p_rd q) ++ [b]) (r_sent (p_rd q) ++ [b])) else q) (w_jobs w))
    else with_pipe w k (w_pipes w k ++ [b]).
  Definition w_pop (w : world) (k : nat) : world :=
    if existsb (iterates k) (w_jobs w)
    then with_jobs w (map (fun q => if iterates k q then with_rd q (with_pend H (p_rd q) (tl (r_pend (p_rd q))) (r_sent (p_rd q))) else q) (w_jobs w))
    else with_pipe w k (tl (w_pipes w k)).
  Definition w_becomes (w : world) (j i : nat) (p : prog) : world :=
    match nth_error (w_jobs w) j with
    | Some q => with_jobs w (set_nth (w_jobs w) j (mkP (p_its q) (p_x q) (p_K q) (set_nth (p_procs q) i (Some p)) (p_rd q) (p_ok q)))
    | None => w
    end.
  (** A process goes: the kernel closes its descriptors, and the readers of pipes nobody
      has open for writing any more come to know. *)
  Definition w_gone (w : world) (j i : nat) (ok : bool) : world :=
    match nth_error (w_jobs w) j with
    | Some q =>
        let jobs := set_nth (w_jobs w) j (mkP (p_its q) (p_x q) (p_K q) (set_nth (p_procs q) i None) (p_rd q) (p_ok q && ok)) in
        with_jobs w (map (fun q' => let r := p_rd q' in
          with_rd q' (mkR (r_h r) (r_pend r) (r_wopen r && w_has (is_w (p_K q')) (w_tab w) jobs) (r_phase r) (r_out r) (r_sent r))) jobs)
    | None => w
    end.
  Definition w_drop_in (w : world) : world := mkW (w_tab w) (w_np w) (w_nt w) (w_pipes w) (tl (w_in w)) (w_jobs w).

  (** One step of process i of pipeline j.  None: blocked (or gone). *)
  Definition w_proc (w : world) (j i : nat) : option world :=
    match nth_error (w_jobs w) j with
    | None => None
    | Some q =>
        match nth i (p_procs q) None with
        | None => None
        | Some (Exits ok) => Some (w_gone w j i ok)
        | Some (Writes b f) =>
            match nth i (p_sees q) (fun _ => None) 1 with
            | Some (OPipeW k) =>
                if ours np0 k then
                  if negb (w_has (is_r k) (w_tab w) (w_jobs w)) then Some (w_becomes w j i (f false))   (* EPIPE *)
                  else if List.length (w_content w k) <? cap then Some (w_becomes (w_push w k b) j i (f true))
                  else None
                else Some (w_becomes w j i (f true))
            | _ => Some (w_becomes w j i (f true))
            end
        | Some (Reads f) =>
            match nth i (p_sees q) (fun _ => None) 0 with
            | Some (OPipeR k) =>
                if ours np0 k then
                  match w_content w k with
                  | b :: _ => Some (w_becomes (w_pop w k) j i (f (Some b)))
                  | [] => if w_has (is_w k) (w_tab w) (w_jobs w) then None else Some (w_becomes w j i (f None))
                  end
                else Some (w_becomes (w_drop_in w) j i (f (hd_error (w_in w))))
            | Some _ => Some (w_becomes (w_drop_in w) j i (f (hd_error (w_in w))))
            | None => Some (w_becomes w j i (f None))
            end
        end
    end.
  (** running.py:93-95,101-102 for pipeline j, as in NetModel.v. *)
  Definition p_may (q : pjob) (l : nlabel) : bool :=
    match l with
    | NAtEof ok => forallb (fun p => match p with Some _ => false | None => true end) (p_procs q) && Bool.eqb ok (p_ok q)
    | _ => true
    end.
  (** iterio.py:29-38,155-160,194-199: a handler at the end of its file closes it. *)
  Definition w_step (w : world) (j : nat) (l : nlabel) : option world :=
    match nth_error (w_jobs w) j with
    | None => None
    | Some q =>
        if negb (p_may q l) then None else
        match l with
        | NProc i => w_proc w j i
        | _ => match reader_label l with
               | Some rl =>
                   match rstep H h_wants h_event h_next h_resume h_open true (p_rd q) rl with
                   | Some r =>
                       Some (mkW (if h_open (r_h (p_rd q)) && negb (h_open (r_h r)) then tset (w_tab w) (p_x q) None else w_tab w)
                                 (w_np w) (w_nt w) (w_pipes w) (w_in w) (set_nth (w_jobs w) j (with_rd q r)))
                   | None => None
                   end
               | None => None
               end
        end
    end.
  (** base.py:143-153,170-182: the shell starts a pipeline and iterates over it. *)
  Definition new_job (s' : st) (its : list item) (x : nat) (progs : list prog) : pjob :=
    mkP its x (caller_pipe (s_tab s') x) (map Some progs) (r_init H h0) true.
  (** [m_start]: as long as each child has room for its descriptors. *)
  Inductive mstep (w : world) : mlabel -> world -> Prop :=
  | m_start c cs progs s' ret its x :
      start L pf true (chain c cs) (mkSt (w_tab w) (w_np w) (w_nt w)) = (s', Ok (ret, its)) -> caller_fds ret = [x] -> List.length progs = S (List.length cs) ->
      (forall rs t argv, In (IProc rs t argv) its -> room L logfd rs t /\ find_free_fd rs < maxfd) ->
      mstep w (MStart c cs progs) (mkW (s_tab s') (s_np s') (s_nt s') (w_pipes w) (w_in w) (w_jobs w ++ [new_job s' its x progs]))
  | m_step j l w' : w_step w j l = Some w' -> mstep w (MStep j l) w'.
  Inductive msteps (w : world) : list mlabel -> world -> Prop :=
  | m_none : msteps w [] w
  | m_more ls w1 l w2 : msteps w ls w1 -> mstep w1 l w2 -> msteps w (ls ++ [l]) w2.
  Definition m_world (t : tab) (nt : nat) (inp : list N) : world := mkW t np0 nt (fun _ => []) inp [].
End Many.
Arguments mkP {H}. Arguments p_its {H}. Arguments p_x {H}. Arguments p_K {H}. Arguments p_procs {H}. Arguments p_rd {H}. Arguments p_ok {H}.
Arguments mkW {H}. Arguments w_tab {H}. Arguments w_np {H}. Arguments w_nt {H}. Arguments w_pipes {H}. Arguments w_in {H}. Arguments w_jobs {H}.

Definition many_bytes (L : limits) (pf : ofd -> bool) (logfd maxfd cap : nat) (s : st) (inp : list N) :=
  msteps byte_handler byte_wants byte_event byte_next byte_resume bi_open byte_init L pf logfd maxfd cap (s_np s) (m_world byte_handler (s_np s) (s_tab s) (s_nt s) inp).
Definition many_lines (L : limits) (pf : ofd -> bool) (logfd maxfd cap : nat) (s : st) (inp : list N) :=
  msteps line_handler line_wants line_event line_next line_next li_open line_init L pf logfd maxfd cap (s_np s) (m_world line_handler (s_np s) (s_tab s) (s_nt s) inp).
(** What pipeline j does next, if it can. *)
Definition many_bytes_step (L : limits) (logfd maxfd cap : nat) (s : st) :=
  w_step byte_handler byte_wants byte_event byte_next byte_resume bi_open L logfd maxfd cap (s_np s).
Definition many_lines_step (L : limits) (logfd maxfd cap : nat) (s : st) :=
  w_step line_handler line_wants line_event line_next line_next li_open L logfd maxfd cap (s_np s).
