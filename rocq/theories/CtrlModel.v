(** Model of CTRL-C and CTRL-Z as the shell's main thread sees them: a call of
    run_until_complete (/repo/pieshell/pipeline/base.py:157-165) around the worlds of
    WorldModel.  The event loop runs only inside such a call. *)
From Verif Require Import Py WorldModel.

(** How such a call ended: wait() returned or raised PipelineFailed/Suspended, a bare
    KeyboardInterrupt came out of the event loop, or wait()'s own PipelineInterrupted
    (running.py:96-97) with its pipeline. *)
Inductive answer := Returned (r : wres) (p : nat) | Keyboard | Interrupted (p : nat).
(** [s_call]: the wait() that run_until_complete was called with; None: python computes or
    shows the prompt.  [s_tstp]: SIGTSTP is pending; both managers only take it while the
    loop runs (manager_signalfd.py:19-21 blocks it and reads a signalfd,
    manager_asyncio.py:15 add_signal_handler). *)
Record shell := mkS { s_w : world; s_call : option nat; s_tstp : bool; s_said : list answer }.
Definition s_init : shell := mkS w_init None false [].

(** Where the main thread is when python handles SIGINT during a call: in the event loop
    (select, or a callback, which lets KeyboardInterrupt through: asyncio/events.py
    Handle._run), or in the instructions of the wait() task itself inside its try
    (running.py:91-97).  Simplified: a callback is interrupted before or after it, and the
    instructions of wait() behind the try count as the loop. *)
Inductive place := InLoop | InWait.
Inductive slabel :=
| SChild (pid : N) (e : child_event)          (* the kernel *)
| SKeyZ                                       (* CTRL-Z is hit *)
| SStart (ss : list sitem) (inter bad : bool) (* ~pipeline: started in the background *)
| SSuspend (p : nat) | SRestart (p : nat)     (* p.suspend(), p.restart() *)
| SRun (p : nat)                              (* run_until_complete(p.wait()) *)
| SLoop (l : label)                           (* the event loop goes on *)
| SReadZ (sender : N)                         (* it takes the pending SIGTSTP *)
| SEnd                                        (* the wait() is over: the call returns *)
| SKeyC (a : place)                           (* CTRL-C during a call *)
| SRunKeyC (p n : nat).                       (* CTRL-C in wait() before it first awaits *)

(** What the event loop does by itself. *)
Definition of_loop (l : label) : bool :=
  match l with LSigchld | LReap _ | LReapEnd | LTask _ | LResume _ | LFunDone _ _ => true | _ => false end.
(** The wait() task has ended by an exception, with its finally clause (running.py:103-104).
    Its result is the call's answer; for the world it is just over. *)
Definition wait_raised (w : world) (t : nat) : world :=
  set_wt (set_current w None) t (mkW (wt_pl (w_wt w t)) (WDone RSuspended) (wt_owner (w_wt w t))).

Section Shell.
  Variable mgr : manager.
  Definition to_world (s : shell) (w : option world) : option shell :=
    match w with Some w => Some (mkS w (s_call s) (s_tstp s) (s_said s)) | None => None end.
  Definition sstep (s : shell) (l : slabel) : option shell :=
    let w := s_w s in
    match l, s_call s with
    | SChild pid e, _ => to_world s (step mgr w (LChild pid e))
    | SKeyZ, _ => Some (mkS w (s_call s) true (s_said s))
    | SStart ss inter bad, None => to_world s (step mgr w (LStart ss inter bad))
    | SSuspend p, None => to_world s (step mgr w (LSuspend p))
    | SRestart p, None => to_world s (step mgr w (LRestart p))
    (* base.py:157-165, asyncio's run_until_complete *)
    | SRun p, None => match step mgr w (LWait p) with Some w' => Some (mkS w' (Some (w_nw w)) (s_tstp s) (s_said s)) | None => None end
    | SLoop l, Some _ => if of_loop l then to_world s (step mgr w l) else None
    | SReadZ sender, Some t => if s_tstp s
                               then match step mgr w (LTstp sender) with Some w' => Some (mkS w' (Some t) false (s_said s)) | None => None end
                               else None
    | SEnd, Some t => match wt_phase (w_wt w t) with
                      | WDone r => Some (mkS w None (s_tstp s) (s_said s ++ [Returned r (wt_pl (w_wt w t))]))
                      | _ => None
                      end
    (* run_until_complete lets the exception out; the task is left as it is *)
    | SKeyC InLoop, Some _ => if w_reaping w then None else Some (mkS w None (s_tstp s) (s_said s ++ [Keyboard]))
    (* running.py:91-97,103-104; asyncio/tasks.py Task.__step lets KeyboardInterrupt out *)
    | SKeyC InWait, Some t => match wt_phase (w_wt w t) with
                              | WReady => if w_reaping w then None
                                          else Some (mkS (wait_raised w t) None (s_tstp s) (s_said s ++ [Interrupted (wt_pl (w_wt w t))]))
                              | _ => None
                              end
    (* the same in its first instructions: n processes have been sent SIGCONT *)
    | SRunKeyC p n, None =>
        if w_reaping w then None else if p <? w_np w
        then Some (mkS (set_current (fold_left (signal_item SIGCONT) (firstn n (p_items (w_pl w p))) (set_susp w p false)) None)
                       None (s_tstp s) (s_said s ++ [Interrupted p]))
        else None
    | _, _ => None
    end.
  Fixpoint ssteps (s : shell) (ls : list slabel) : option shell :=
    match ls with
    | [] => Some s
    | l :: ls' => match sstep s l with Some s' => ssteps s' ls' | None => None end
    end.
End Shell.
