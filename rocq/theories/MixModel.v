(** Running a started pipeline of programs and python functions in any order,
    c0 | f1 | c2 | ... : the processes and pipes of NetModel.v, and for each
    function the handlers of iterio.py on its two descriptors
    (/repo/pieshell/pipeline/function.py:69-116), all of them in one event loop,
    together with the reader of the result (/repo/pieshell/pipeline/running.py:75-78).
    A write(2) of a handler that does not fit blocks the whole event loop.
    Simplifications as in NetModel.v; and the end of an item reaches pieshell's
    waiter in a step of its own (WorldModel.v has the details). *)
From Verif Require Import Py RedirModel Os PerformModel PerformSpec RunModel RunSpec RunTopSpec IterModel NetModel SrcModel.

(** No /repo code: what an asynchronous generator (function.py:86-103) does, as
    far as the pipeline can see: it asks its input for a line (None: the
    iteration over the input has ended), yields a value (already converted to
    bytes, function.py:75-84; None is skipped), or ends.  Decoding a line
    (iterio.py:217) is counted as part of the generator.
    Simplification: deterministic. *)
CoInductive fn := FAsk (k : option bytes -> fn) | FGive (v : option bytes) (k : fn) | FEnd (e : iend).
(** An item of the pipeline and what it runs. *)
Inductive code := CProg (p : prog) | CFun (f : fn).

(** iterio.py:106-142 send_output: no task is inside it; one runs the generator;
    waits for input (iterio.py:207-209); has been woken; or the generator has ended
    (recursion_lock stays set). *)
Inductive fphase := QIdle | QRunning | QWaiting | QWoken | QOver.
(** A running function: its generator, the handler of its input, tasks created
    but not begun (iterio.py:96-97), whether poll(2) has reported the output
    writable and the callback has not run yet, whether the output is open, and
    the result of done_future (iterio.py:73,88-93: true if there was no
    exception). *)
Record fstate := mkFS { g_code : fn; g_in : line_handler; g_phase : fphase; g_tasks : nat; g_flag : bool; g_open : bool; g_done : option bool }.
Inductive istate := SProc (p : option prog) | SFun (g : fstate).

Inductive mlabel :=
| MProc (i : nat)                  (* a step of process i *)
| MReadable (i n : nat)            (* the loop runs the reader callback of function i; os.read returns n bytes *)
| MPoll (i : nat)                  (* poll(2) reports the output of function i writable *)
| MWritable (i : nat)              (* the loop runs the writer callback *)
| MStart (i : nat)                 (* a task of function i begins *)
| MRun (i : nat)                   (* the generator of function i goes on *)
| MWake (i : nat)                  (* its task resumes after the future it waited for *)
| MPush                            (* inside os.write *)
| MTold (i : nat)                  (* the end of item i is reported *)
| MCheck                           (* wait() looks, and waits again *)
| MRd (l : label).                 (* a step of the reader of the result *)

Section Mix.
  Variable H : Type.
  Variable h_wants : H -> bool.
  Variable h_event : H -> bytes -> H * bool.
  Variable h_next h_resume : H -> H * outcome.
  Variable h_open : H -> bool.
  Variables np cap : nat.
  Variable pipe_buf : nat.                    (* free space poll(2) requires to report a pipe writable *)
  Variable fds : list nat.
  Variable sees : list (nat -> option ofd).   (* the files of item i *)
  Variable shell : tab.                       (* the descriptors of the shell that are not the functions' *)
  Variables x K : nat.
  Notation see i := (nth i sees (fun _ => None)).

  (** [m_wr]: the event loop is inside os.write (iterio.py:136) for this function,
      having written so many bytes, with these left; [m_told], [m_woken]: as in
      SrcModel.v. *)
  Record mix := mkM { m_items : list istate; m_pipes : nat -> list N; m_in : list N; m_rd : rstate H; m_ok : bool;
                      m_wr : option (nat * nat * list N); m_told : nat -> bool; m_woken : bool }.

  (** Which pipe ends an item has open. *)
  Definition holds_r (k : nat) (st : istate) (sf : nat -> option ofd) : bool :=
    match st with SProc None => false | SProc (Some _) => has fds (is_r k) sf | SFun g => li_open (g_in g) && is_r k (sf 0) end.
  Definition holds_w (k : nat) (st : istate) (sf : nat -> option ofd) : bool :=
    match st with SProc None => false | SProc (Some _) => has fds (is_w k) sf | SFun g => g_open g && is_w k (sf 1) end.
  Fixpoint some_item (test : istate -> (nat -> option ofd) -> bool) (its : list istate) (ss : list (nat -> option ofd)) : bool :=
    match its, ss with st :: its', sf :: ss' => test st sf || some_item test its' ss' | _, _ => false end.
  Definition w_left (its : list istate) (rd : rstate H) (k : nat) : bool := some_item (holds_w k) its sees || shell_has H h_open shell x (is_w k) rd.
  Definition r_left (s : mix) (k : nat) : bool := some_item (holds_r k) (m_items s) sees || shell_has H h_open shell x (is_r k) (m_rd s).

  Definition mcontent (s : mix) (k : nat) : list N := if Nat.eqb k K then r_pend (m_rd s) else m_pipes s k.
  Definition mpush (s : mix) (k : nat) (b : N) : mix :=
    if Nat.eqb k K then mkM (m_items s) (m_pipes s) (m_in s) (with_pend H (m_rd s) (r_pend (m_rd s) ++ [b]) (r_sent (m_rd s) ++ [b])) (m_ok s) (m_wr s) (m_told s) (m_woken s)
    else mkM (m_items s) (fun j => if Nat.eqb j k then m_pipes s k ++ [b] else m_pipes s j) (m_in s) (m_rd s) (m_ok s) (m_wr s) (m_told s) (m_woken s).
  Definition mpop (s : mix) (k n : nat) : mix :=
    if Nat.eqb k K then mkM (m_items s) (m_pipes s) (m_in s) (with_pend H (m_rd s) (skipn n (r_pend (m_rd s))) (r_sent (m_rd s))) (m_ok s) (m_wr s) (m_told s) (m_woken s)
    else mkM (m_items s) (fun j => if Nat.eqb j k then skipn n (m_pipes s k) else m_pipes s j) (m_in s) (m_rd s) (m_ok s) (m_wr s) (m_told s) (m_woken s).
  (** Item i changes without closing anything. *)
  Definition item_is (s : mix) (i : nat) (st : istate) : mix :=
    mkM (set_nth (m_items s) i st) (m_pipes s) (m_in s) (m_rd s) (m_ok s) (m_wr s) (m_told s) (m_woken s).
  (** Item i changes, some of its descriptors are closed, and it has failed if
      not [ok]. *)
  Definition item_closes (s : mix) (i : nat) (st : istate) (ok : bool) : mix :=
    let its := set_nth (m_items s) i st in
    let r := m_rd s in
    mkM its (m_pipes s) (m_in s) (mkR (r_h r) (r_pend r) (r_wopen r && w_left its r K) (r_phase r) (r_out r) (r_sent r)) (m_ok s && ok) (m_wr s) (m_told s) (m_woken s).
  Definition writes (s : mix) (w : option (nat * nat * list N)) : mix :=
    mkM (m_items s) (m_pipes s) (m_in s) (m_rd s) (m_ok s) w (m_told s) (m_woken s).
  Definition takes (s : mix) (inp : list N) : mix :=
    mkM (m_items s) (m_pipes s) inp (m_rd s) (m_ok s) (m_wr s) (m_told s) (m_woken s).

  (** As in NetModel.v. *)
  Definition proc_goes (s : mix) (i : nat) (p : prog) : option mix :=
    match p with
    | Exits ok => Some (item_closes s i (SProc None) ok)
    | Writes b f =>
        match see i 1 with
        | Some (OPipeW k) =>
            if ours np k then
              if negb (r_left s k) then Some (item_is s i (SProc (Some (f false))))   (* EPIPE *)
              else if List.length (mcontent s k) <? cap then Some (item_is (mpush s k b) i (SProc (Some (f true))))
              else None
            else Some (item_is s i (SProc (Some (f true))))
        | _ => Some (item_is s i (SProc (Some (f true))))
        end
    | Reads f =>
        match see i 0 with
        | Some o =>
            match (match o with OPipeR k => if ours np k then Some k else None | _ => None end) with
            | Some k =>
                match mcontent s k with
                | b :: _ => Some (item_is (mpop s k 1) i (SProc (Some (f (Some b)))))
                | [] => if w_left (m_items s) (m_rd s) k then None else Some (item_is s i (SProc (Some (f None))))
                end
            | None => match m_in s with
                      | b :: r => Some (item_is (takes s r) i (SProc (Some (f (Some b)))))
                      | [] => Some (item_is s i (SProc (Some (f None))))
                      end
            end
        | None => Some (item_is s i (SProc (Some (f None))))
        end
    end.

  (** iterio.py:192-201 handle_event of the input handler of function i, when
      poll(2) says that the pipe can be read.  A call that does nothing because a
      complete line is buffered (193) is left out. *)
  Definition fun_reads (s : mix) (i : nat) (g : fstate) (n : nat) : option mix :=
    match see i 0 with
    | Some (OPipeR k) =>
        if li_open (g_in g) && line_wants (g_in g) &&
           match mcontent s k with
           | [] => negb (w_left (m_items s) (m_rd s) k) && (n =? 0)
           | _ => (1 <=? n) && (n <=? 1024) && (n <=? List.length (mcontent s k))
           end
        then let '(h, wake) := line_event (g_in g) (firstn n (mcontent s k)) in
             Some (item_closes (mpop s k n) i (SFun (mkFS (g_code g) h (if wake then QWoken else g_phase g) (g_tasks g) (g_flag g) (g_open g) (g_done g))) true)
        else None
    | _ => None
    end.
  (** iterio.py:88-94, 29-38 destroy of the output handler; [ok]: no exception. *)
  Definition fun_ends (s : mix) (i : nat) (g : fstate) (ph : fphase) (ok : bool) : mix :=
    item_closes s i (SFun (mkFS (g_code g) (g_in g) ph (g_tasks g) false false (match g_done g with None => Some ok | d => d end)))
      (match g_done g with None => ok | Some _ => true end).
  (** The generator goes on until it asks, yields or ends (iterio.py:111, 133). *)
  Definition fun_runs (s : mix) (i : nat) (g : fstate) : option mix :=
    match g_phase g with
    | QRunning =>
        match g_code g with
        | FAsk k =>
            let '(h, o) := line_next (g_in g) in
            Some (item_is s i (SFun (match o with
              | NWait => mkFS (g_code g) h QWaiting (g_tasks g) (g_flag g) (g_open g) (g_done g)
              | NItem l => mkFS (k (Some l)) h QRunning (g_tasks g) (g_flag g) (g_open g) (g_done g)
              | NEof => mkFS (k None) h QRunning (g_tasks g) (g_flag g) (g_open g) (g_done g)
              end)))
        | FGive v k =>
            let s1 := item_is s i (SFun (mkFS k (g_in g) QIdle (g_tasks g) (g_flag g) (g_open g) (g_done g))) in
            Some (match v with
                  | None => s1
                  | Some b => if g_open g then writes s1 (Some (i, 0, b ++ [nl])) else s1   (* EBADF: destroy() again *)
                  end)
        | FEnd e => Some (fun_ends s i g QOver (match e with EStop => true | ERaise _ => false end))
        end
    | _ => None
    end.
  (** iterio.py:136: inside os.write. *)
  Definition fun_pushes (s : mix) (i n : nat) (rest : list N) (g : fstate) : option mix :=
    match see i 1 with
    | Some (OPipeW k) =>
        match rest with
        | [] => Some (writes s None)
        | b :: r =>
            if negb (r_left s k)
            then Some (writes (match n with 0 => fun_ends s i g (g_phase g) false | _ => s end) None)   (* EPIPE, or a short write *)
            else if List.length (mcontent s k) <? cap then Some (writes (mpush s k b) (Some (i, S n, r)))
            else None
        end
    | _ => Some (writes s None)
    end.

  (** running.py:128-132,135-137 *)
  Definition item_runs (told : bool) (st : istate) : bool :=
    match st with SProc _ => negb told | SFun g => match g_done g with None => true | Some _ => false end end.
  Definition mrunning (s : mix) : bool :=
    existsb (fun i => item_runs (m_told s i) (nth i (m_items s) (SProc None))) (seq 0 (List.length (m_items s))).
  Definition m_at_eof (r : rstate H) : bool := match r_phase r with PAtEof => true | _ => false end.
  Definition with_rd (s : mix) (r : rstate H) : mix :=
    mkM (m_items s) (m_pipes s) (m_in s) r (m_ok s) (m_wr s) (m_told s) (m_woken s || (m_at_eof r && negb (m_at_eof (m_rd s)))).
  Definition with_flags (s : mix) (i : nat) (g : fstate) (ph : fphase) (tasks : nat) (flag : bool) : mix :=
    item_is s i (SFun (mkFS (g_code g) (g_in g) ph tasks flag (g_open g) (g_done g))).

  (** The event loop is not inside os.write. *)
  Definition loop_step (s : mix) (l : mlabel) : option mix :=
    match l with
    | MProc _ | MPush => None
    | MReadable i n => match nth i (m_items s) (SProc None) with SFun g => fun_reads s i g n | _ => None end
    | MPoll i =>
        (* asyncio runs everything that was ready, callbacks and tasks, before it
           polls again: of one handler at most a task created since then is left *)
        match nth i (m_items s) (SProc None), see i 1 with
        | SFun g, Some (OPipeW k) =>
            if g_open g && negb (g_flag g) && (g_tasks g <=? 1) && ((pipe_buf + List.length (mcontent s k) <=? cap) || negb (r_left s k))
            then Some (with_flags s i g (g_phase g) (g_tasks g) true) else None
        | _, _ => None
        end
    | MWritable i =>                   (* iterio.py:96-97 *)
        match nth i (m_items s) (SProc None) with
        | SFun g => if g_flag g then Some (with_flags s i g (g_phase g) (S (g_tasks g)) false) else None
        | _ => None
        end
    | MStart i =>                      (* iterio.py:107-111, 129-133: nothing if the lock is set *)
        match nth i (m_items s) (SProc None) with
        | SFun g => match g_tasks g with
                    | S k => Some (with_flags s i g (match g_phase g with QIdle => QRunning | ph => ph end) k (g_flag g))
                    | 0 => None
                    end
        | _ => None
        end
    | MRun i => match nth i (m_items s) (SProc None) with SFun g => fun_runs s i g | _ => None end
    | MWake i =>                       (* iterio.py:207: the condition is looked at again *)
        match nth i (m_items s) (SProc None) with
        | SFun g => match g_phase g with QWoken => Some (with_flags s i g QRunning (g_tasks g) (g_flag g)) | _ => None end
        | _ => None
        end
    | MTold i =>
        (* running.py:196-198 await_finish and 107-118 handle_finish; if the function
           has failed, iohandler.wait() raises (iterio.py:85-86) and handle_finish is
           not called *)
        if negb (m_told s i) && (i <? List.length (m_items s)) &&
           match nth i (m_items s) (SProc None) with SProc p => match p with None => true | Some _ => false end | SFun g => match g_done g with Some true => true | _ => false end end
        then Some (mkM (m_items s) (m_pipes s) (m_in s) (m_rd s) (m_ok s) None (fun j => Nat.eqb j i || m_told s j) true)
        else None
    | MCheck =>                        (* running.py:93-95 *)
        if m_at_eof (m_rd s) && m_woken s && mrunning s
        then Some (mkM (m_items s) (m_pipes s) (m_in s) (m_rd s) (m_ok s) None (m_told s) false) else None
    | MRd rl =>
        if match rl with
           | LFeed _ | LClose => false
           | LAtEof ok => m_woken s && negb (mrunning s) && Bool.eqb ok (m_ok s)   (* running.py:93,101-102 *)
           | _ => true
           end
        then match rstep H h_wants h_event h_next h_resume h_open true (m_rd s) rl with Some r => Some (with_rd s r) | None => None end
        else None
    end.
  Definition mstep (s : mix) (l : mlabel) : option mix :=
    match l with
    | MProc i => match nth i (m_items s) (SProc None) with SProc (Some p) => proc_goes s i p | _ => None end
    | _ => match m_wr s with
           | None => loop_step s l
           | Some (i, n, rest) =>
               match l, nth i (m_items s) (SProc None) with
               | MPush, SFun g => fun_pushes s i n rest g
               | _, _ => None
               end
           end
    end.
  Fixpoint msteps (s : mix) (ls : list mlabel) : option mix :=
    match ls with [] => Some s | l :: ls' => match mstep s l with Some s' => msteps s' ls' | None => None end end.
  (** function.py:86-90: an iterator (at the beginning) has no input handler. *)
  Definition item_start (c : code) (sf : nat -> option ofd) : istate :=
    match c with
    | CProg p => SProc (Some p)
    | CFun f => SFun (mkFS f (match sf 0 with Some _ => line_init | None => mkLine [] true false false end) QIdle 0 false true None)
    end.
  Definition mix_start (h : H) (codes : list code) (inp : list N) : mix :=
    mkM (map (fun cs => item_start (fst cs) (snd cs)) (combine codes sees)) (fun _ => []) inp (r_init H h) true None (fun _ => false) false.
End Mix.
Arguments mkM {H}. Arguments m_items {H}. Arguments m_pipes {H}. Arguments m_in {H}. Arguments m_rd {H}. Arguments m_ok {H}. Arguments m_wr {H}. Arguments m_told {H}. Arguments m_woken {H}.

(** bytes(pipeline) and iterating over it, as in NetModel.v. *)
Definition bytes_mrun (L : limits) (logfd maxfd cap pipe_buf : nat) (s s' : st) (its : list item) (x : nat) :=
  msteps byte_handler byte_wants byte_event byte_next byte_resume bi_open
    (s_np s) cap pipe_buf (proc_fds logfd maxfd) (map (item_has L logfd maxfd (s_tab s')) its)
    (without (s_tab s') (function_fds its)) x (caller_pipe (s_tab s') x).
Definition lines_mrun (L : limits) (logfd maxfd cap pipe_buf : nat) (s s' : st) (its : list item) (x : nat) :=
  msteps line_handler line_wants line_event line_next line_next li_open
    (s_np s) cap pipe_buf (proc_fds logfd maxfd) (map (item_has L logfd maxfd (s_tab s')) its)
    (without (s_tab s') (function_fds its)) x (caller_pipe (s_tab s') x).
Definition mix_begin (L : limits) (logfd maxfd : nat) (s' : st) (its : list item) {H} (h : H) (codes : list code) (inp : list N) : mix H :=
  mix_start H (map (item_has L logfd maxfd (s_tab s')) its) h codes inp.
