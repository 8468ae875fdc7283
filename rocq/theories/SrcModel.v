(** Running a started pipeline whose first item is a python iterator and whose
    others are programs (/repo/pieshell/pipeline/function.py:69-116): the network
    of NetModel.v with, in the shell's own event loop, the output handler of
    IterModel.v (/repo/pieshell/iterio.py:70-142).  A write(2) of the handler that
    does not fit blocks the event loop, and with it the reader of the result.
    The end of an item reaches pieshell's waiter in a step of its own.
    Simplification: from there the waiter is woken in the same step (WorldModel.v
    has the details). *)
From Verif Require Import Py RedirModel Os PerformModel PerformSpec RunModel RunSpec RunTopSpec IterModel NetModel.

Section Src.
  Variable H : Type.
  Variable h_wants : H -> bool.
  Variable h_event : H -> bytes -> H * bool.
  Variable h_next h_resume : H -> H * outcome.
  Variable h_open : H -> bool.
  Variables np cap : nat.
  Variable pipe_buf : nat.                    (* free space poll(2) requires to report a pipe writable *)
  Variable fds : list nat.
  Variable sees : list (nat -> option ofd).   (* 0: the files of the python function *)
  Variable shell : tab.                       (* the descriptors of the shell that are not the function's *)
  Variables x K : nat.
  Variable k0 : nat.                          (* the pipe the function writes into *)

  (** [f_net]: the programs and the reader, as in NetModel.v; its process 0 stands
      for the function's descriptors and is gone when they are closed (it makes no
      steps of its own).  [f_wr]: the event loop is inside os.write
      (iterio.py:136), having written so many bytes, with these left.  [f_told]: of
      which items the end has been reported (signalio/__init__.py:45-74 for a process;
      running.py:196-198); [f_woken]: wait() is about to look (running.py:93). *)
  Record fnet := mkF { f_net : net H; f_out : ostate; f_wr : option (nat * list N); f_told : nat -> bool; f_woken : bool }.
  Inductive flabel := FNet (l : nlabel) | FWritable | FStart | FYield | FPush | FTold (i : nat) | FCheck.
  Notation nstepF := (nstep H h_wants h_event h_next h_resume h_open np cap fds sees shell x K).
  Notation reader_leftF := (reader_left H h_open fds sees shell x).
  (** iterio.py:76-83 and running.py:229-231: the function has not failed *)
  Definition status (o : ostate) : bool := match o_done o with Some (Some _) => false | _ => true end.
  (** The handler makes a step; when it is destroyed (iterio.py:29-38, 88-94) its
      descriptor is closed. *)
  Definition handler (s : fnet) (l : olabel) : option fnet :=
    match ostep (f_out s) l with
    | Some o => Some (mkF (if o_open (f_out s) && negb (o_open o) then gone H h_open fds sees shell x K (f_net s) 0 (status o) else f_net s) o None (f_told s) (f_woken s))
    | None => None
    end.
  (** running.py:128-132,135-137 running_processes, is_running: iterio.py:76-78
      for the function, and a process until its end has been reported. *)
  Definition running (s : fnet) : bool :=
    match o_done (f_out s) with None => true | Some _ => existsb (fun i => negb (f_told s i)) (seq 1 (pred (List.length (n_procs (f_net s))))) end.
  Definition at_eof (n : net H) : bool := match r_phase (n_rd n) with PAtEof => true | _ => false end.
  Definition fstep (s : fnet) (l : flabel) : option fnet :=
    match l with
    | FNet (NProc 0) => None
    | FNet nl =>
        if match nl with
           | NProc _ => true
           | NAtEof _ => match f_wr s with None => f_woken s && negb (running s) | Some _ => false end   (* running.py:93,101-102 *)
           | _ => match f_wr s with None => true | Some _ => false end
           end
        then match nstepF (f_net s) nl with
             | Some n => Some (mkF n (f_out s) (f_wr s) (f_told s) (f_woken s || (at_eof n && negb (at_eof (f_net s)))))   (* at_eof: wait() begins *)
             | None => None
             end
        else None
    | FPush =>                                (* inside os.write *)
        match f_wr s with
        | None => None
        | Some (n, rest) =>
            match rest with
            | [] => handler s (OYield WFull)
            | b :: r =>
                if negb (reader_leftF (f_net s) k0) then handler s (OYield (match n with 0 => WFail (OSError EPIPE) | _ => WShort n end))
                else if List.length (content H K (f_net s) k0) <? cap
                then Some (mkF (push H K (f_net s) k0 b) (f_out s) (Some (S n, r)) (f_told s) (f_woken s))
                else None
            end
        end
    | _ =>
        match f_wr s with
        | Some _ => None
        | None =>
            match l with
            | FWritable =>                    (* iterio.py:96-97, called when poll(2) says so *)
                if (pipe_buf + List.length (content H K (f_net s) k0) <=? cap) || negb (reader_leftF (f_net s) k0)
                then handler s OWritable else None
            | FStart => handler s OStart
            | FTold i =>
                (* running.py:196-198 await_finish and 107-118 handle_finish; if the
                   function has failed, iohandler.wait() raises (iterio.py:85-86)
                   and handle_finish is not called *)
                if negb (f_told s i) && match i with
                                       | 0 => match o_done (f_out s) with Some None => true | _ => false end
                                       | S _ => (i <? List.length (n_procs (f_net s))) && match nth i (n_procs (f_net s)) None with None => true | Some _ => false end
                                       end
                then Some (mkF (f_net s) (f_out s) None (fun j => Nat.eqb j i || f_told s j) true)
                else None
            | FCheck =>                       (* running.py:93-95: somebody is running: wait for the next report *)
                if at_eof (f_net s) && f_woken s && running s then Some (mkF (f_net s) (f_out s) None (f_told s) false) else None
            | _ =>                            (* FYield: the awaited item is there; iterio.py:133-142 *)
                match o_inflight (f_out s), o_open (f_out s), o_items (f_out s) with
                | S _, true, Some v :: _ => Some (mkF (f_net s) (f_out s) (Some (0, v ++ [nl])) (f_told s) (f_woken s))
                | _, _, _ => handler s (OYield WFull)   (* a closed descriptor: EBADF, in [ostep] *)
                end
            end
        end
    end.
  Fixpoint fsteps (s : fnet) (ls : list flabel) : option fnet :=
    match ls with [] => Some s | l :: ls' => match fstep s l with Some s' => fsteps s' ls' | None => None end end.
  Definition fnet_start (h : H) (items : list (option bytes)) (e : iend) (progs : list prog) : fnet :=
    mkF (net_start H h (Exits true :: progs) []) (o_init items e) None (fun _ => false) false.
End Src.
Arguments mkF {H}. Arguments f_net {H}. Arguments f_out {H}. Arguments f_wr {H}. Arguments f_told {H}. Arguments f_woken {H}.
Arguments running {H}. Arguments at_eof {H}.

(** The descriptors of a python function are the shell's (function.py:89,108). *)
Definition item_has (L : limits) (logfd maxfd : nat) (shell : tab) (it : item) : nat -> option ofd :=
  match it with
  | IFun infd outfd _ => fun n => match n with
                                  | 0 => match infd with Some fd => refers shell fd | None => None end
                                  | 1 => refers shell outfd
                                  | _ => None end
  | _ => item_sees L logfd maxfd it
  end.
(** The shell's descriptors except those. *)
Definition without (t : tab) (l : list nat) : tab := fold_right (fun n t => set_nth t n None) t l.
Definition source_pipe (shell : tab) (its : list item) : nat :=
  match its with IFun _ outfd _ :: _ => match refers shell outfd with Some (OPipeW k) => k | _ => 0 end | _ => 0 end.
(** bytes(pipeline) and iterating over it, as in NetModel.v. *)
Definition bytes_frun (L : limits) (logfd maxfd cap pipe_buf : nat) (s s' : st) (its : list item) (x : nat) :=
  fsteps byte_handler byte_wants byte_event byte_next byte_resume bi_open
    (s_np s) cap pipe_buf (proc_fds logfd maxfd) (map (item_has L logfd maxfd (s_tab s')) its)
    (without (s_tab s') (function_fds its)) x (caller_pipe (s_tab s') x) (source_pipe (s_tab s') its).
Definition lines_frun (L : limits) (logfd maxfd cap pipe_buf : nat) (s s' : st) (its : list item) (x : nat) :=
  fsteps line_handler line_wants line_event line_next line_next li_open
    (s_np s) cap pipe_buf (proc_fds logfd maxfd) (map (item_has L logfd maxfd (s_tab s')) its)
    (without (s_tab s') (function_fds its)) x (caller_pipe (s_tab s') x) (source_pipe (s_tab s') its).
