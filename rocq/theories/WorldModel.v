(** Model of child events, running items, running pipelines and waiters
    (signalio/, pipeline/running.py, the starting part of pipeline/base.py and
    fg/bg of pipeline/builtins.py) as one transition system: the kernel's
    children, the signal manager, the event loop and the user. *)
From Verif Require Import Py.

(** ** Status words *)

(** What can happen to a child (waitpid(2)): exit with a code, death by a
    signal with or without core dump, stop, continue. *)
Inductive child_event := CExit (code : N) | CKill (sig : N) (core : bool) | CStop (sig : N) | CCont.
(** The status word of each (Linux kernel/exit.c, wait(2)). *)
Definition status_word (e : child_event) : N :=
  match e with
  | CExit c => c * 256
  | CKill s core => s + (if core then 128 else 0)
  | CStop s => s * 256 + 127
  | CCont => 65535
  end%N.

(** os.WIFEXITED ... as in <bits/waitstatus.h>. *)
Definition WTERMSIG (s : N) : N := N.land s 127.
Definition WEXITSTATUS (s : N) : N := N.land (N.shiftr s 8) 255.
Definition WSTOPSIG := WEXITSTATUS.
Definition WIFEXITED (s : N) : bool := N.eqb (WTERMSIG s) 0.
Definition WCOREDUMP (s : N) : bool := negb (N.eqb (N.land s 128) 0).
Definition WIFCONTINUED (s : N) : bool := N.eqb s 65535.
Definition WIFSTOPPED (s : N) : bool := N.eqb (N.land s 255) 127.
(** ((signed char) ((s & 0x7f) + 1) >> 1) > 0 *)
Definition WIFSIGNALED (s : N) : bool := negb (N.eqb (WTERMSIG s) 0) && negb (N.eqb (WTERMSIG s) 127).

(** signalio/signalutils.py:7-12 *)
Definition CLD_EXITED : N := 1. Definition CLD_KILLED : N := 2. Definition CLD_DUMPED : N := 3.
Definition CLD_STOPPED : N := 5. Definition CLD_CONTINUED : N := 6.
Definition SIGCHLD : N := 17. Definition SIGTSTP : N := 20. Definition SIGCONT : N := 18. Definition SIGSTOP : N := 19.

(** The siginfo dict; only the entries that are ever looked at. *)
Record siginfo := mkSI { ssi_signo : N; ssi_pid : N; ssi_code : N; ssi_status : N }.

(** signalio/signalutils.py:65-81 (the body of get_sigchlds for one status) *)
Definition classify (s : N) : N * N :=
  if WIFEXITED s then (CLD_EXITED, WEXITSTATUS s)
  else if WCOREDUMP s then (CLD_DUMPED, WTERMSIG s)
  else if WIFCONTINUED s then (CLD_CONTINUED, 0%N)
  else if WIFSTOPPED s then (CLD_STOPPED, WSTOPSIG s)
  else if WIFSIGNALED s then (CLD_KILLED, WTERMSIG s)
  else (0%N, 0%N).
Definition sigchld_info (pid s : N) : siginfo := mkSI SIGCHLD pid (fst (classify s)) (snd (classify s)).

(** ** State *)

(** Items of a running pipeline: pipeline/running.py:255-289 RunningProcess,
    :228-231 RunningFunction, builtins.py:57-69 RunnningFg. *)
Inductive ikind := KProc (pid : N) | KFun | KFg (pl : nat).
(** The item's await_finish task (running.py:195-198, builtins.py:60,67-69):
    created but not yet run (only RunnningFg: the others do nothing before they
    wait), waiting, ended by an exception, ended normally. *)
Inductive tstate := TNew | TWait | TDead | TEnded.
(** [i_done]: done_future, with whether it holds an exception (iterio.py:78-94,
    signalio/__init__.py:45-74).  [i_seen] (ghost): events its handler got. *)
Record item := mkI { i_kind : ikind; i_pl : nat; i_last : option siginfo; i_done : option bool;
                     i_task : tstate; i_seen : list siginfo }.
(** running.py:63-74 RunningPipeline.  [p_future]: the waiter whose future is
    finish_future.  [p_inter]: pipeline._env._interactive.  [p_bad]: reading the
    captured output at the end raises (undecodable content, running.py:212-213).
    [p_cleaned] (ghost): how often the end-of-pipeline clean-up ran. *)
Record pline := mkP { p_items : list nat; p_future : option nat; p_susp : bool; p_finished : bool;
                      p_inter : bool; p_bad : bool; p_cleaned : nat }.
Inductive wres := ROk | RFailed | RSuspended.
Inductive wphase := WWait | WReady | WDone (r : wres).
(** A coroutine running RunningPipeline.wait; [wt_owner]: the RunnningFg item
    whose await_finish is awaiting it, if any. *)
Record waiter := mkW { wt_pl : nat; wt_phase : wphase; wt_owner : option nat }.

(** The kernel's side of a child: which item it really is, and the status not
    yet collected (a new stop/continue replaces the previous one). *)
Inductive kchild := KFree | KAlive (i : nat) (pend : option child_event) | KZombie (i : nat) (e : child_event).

(** Keys of SignalManager.signal_handlers: {"ssi_pid": pid} or {"ssi_signo": SIGTSTP}. *)
Inductive hkey := HPid (pid : N) | HStop.
Definition hkey_eqb (a b : hkey) : bool :=
  match a, b with HPid p, HPid q => N.eqb p q | HStop, HStop => true | _, _ => false end.

(** Which signal manager: signalio/__init__.py:6-13. *)
Inductive manager := Signalfd | Asyncio.

(** A signal sent with os.kill: to whom we meant it, and whether that process had
    already been reaped. *)
Record kill := mkK { k_item : nat; k_pid : N; k_sig : N; k_reaped : bool }.

Record world := mkWorld {
  w_kern : N -> kchild;
  w_chld : bool;                     (* SIGCHLD pending *)
  w_reaping : bool;                  (* the manager is inside get_sigchlds *)
  w_reg : list (hkey * nat);         (* signal_handlers, in insertion order *)
  w_item : nat -> item; w_ni : nat;
  w_pl : nat -> pline; w_np : nat;
  w_wt : nat -> waiter; w_nw : nat;
  w_running : list nat;              (* env.running_pipelines *)
  w_current : option nat;            (* stop_signal_handler.current_pipeline *)
  w_kills : list kill;               (* signals sent so far *)
  w_hist : nat -> list child_event   (* ghost: what waitpid returned for each item *)
}.
Definition upd {A} (f : nat -> A) (i : nat) (a : A) : nat -> A := fun j => if Nat.eqb i j then a else f j.
Definition updN {A} (f : N -> A) (i : N) (a : A) : N -> A := fun j => if N.eqb i j then a else f j.

Definition no_item : item := mkI KFun 0 None None TEnded [].
Definition no_pl : pline := mkP [] None false false false false 0.
Definition no_wt : waiter := mkW 0 (WDone ROk) None.
(** At start only the StopSignalHandler is registered (running.py:41-45). *)
Definition w_init : world :=
  mkWorld (fun _ => KFree) false false [(HStop, 0)] (fun _ => no_item) 0 (fun _ => no_pl) 0
          (fun _ => no_wt) 0 [] None [] (fun _ => []).

Definition set_kern w k := mkWorld k (w_chld w) (w_reaping w) (w_reg w) (w_item w) (w_ni w) (w_pl w) (w_np w) (w_wt w) (w_nw w) (w_running w) (w_current w) (w_kills w) (w_hist w).
Definition set_chld w b := mkWorld (w_kern w) b (w_reaping w) (w_reg w) (w_item w) (w_ni w) (w_pl w) (w_np w) (w_wt w) (w_nw w) (w_running w) (w_current w) (w_kills w) (w_hist w).
Definition set_reaping w b := mkWorld (w_kern w) (w_chld w) b (w_reg w) (w_item w) (w_ni w) (w_pl w) (w_np w) (w_wt w) (w_nw w) (w_running w) (w_current w) (w_kills w) (w_hist w).
Definition set_reg w r := mkWorld (w_kern w) (w_chld w) (w_reaping w) r (w_item w) (w_ni w) (w_pl w) (w_np w) (w_wt w) (w_nw w) (w_running w) (w_current w) (w_kills w) (w_hist w).
Definition set_items w f n := mkWorld (w_kern w) (w_chld w) (w_reaping w) (w_reg w) f n (w_pl w) (w_np w) (w_wt w) (w_nw w) (w_running w) (w_current w) (w_kills w) (w_hist w).
Definition set_pls w f n := mkWorld (w_kern w) (w_chld w) (w_reaping w) (w_reg w) (w_item w) (w_ni w) f n (w_wt w) (w_nw w) (w_running w) (w_current w) (w_kills w) (w_hist w).
Definition set_wts w f n := mkWorld (w_kern w) (w_chld w) (w_reaping w) (w_reg w) (w_item w) (w_ni w) (w_pl w) (w_np w) f n (w_running w) (w_current w) (w_kills w) (w_hist w).
Definition set_running w l := mkWorld (w_kern w) (w_chld w) (w_reaping w) (w_reg w) (w_item w) (w_ni w) (w_pl w) (w_np w) (w_wt w) (w_nw w) l (w_current w) (w_kills w) (w_hist w).
Definition set_current w c := mkWorld (w_kern w) (w_chld w) (w_reaping w) (w_reg w) (w_item w) (w_ni w) (w_pl w) (w_np w) (w_wt w) (w_nw w) (w_running w) c (w_kills w) (w_hist w).
Definition set_kills w l := mkWorld (w_kern w) (w_chld w) (w_reaping w) (w_reg w) (w_item w) (w_ni w) (w_pl w) (w_np w) (w_wt w) (w_nw w) (w_running w) (w_current w) l (w_hist w).
Definition set_hist w h := mkWorld (w_kern w) (w_chld w) (w_reaping w) (w_reg w) (w_item w) (w_ni w) (w_pl w) (w_np w) (w_wt w) (w_nw w) (w_running w) (w_current w) (w_kills w) h.
Definition set_item w i x := set_items w (upd (w_item w) i x) (w_ni w).
Definition set_pl w p x := set_pls w (upd (w_pl w) p x) (w_np w).
Definition set_wt w t x := set_wts w (upd (w_wt w) t x) (w_nw w).

(** ** Signal manager *)

(** manager_signalfd.py:26-31 / manager_asyncio.py:21-26 register: a dict item
    assignment. *)
Fixpoint reg_set (r : list (hkey * nat)) (k : hkey) (h : nat) : list (hkey * nat) :=
  match r with
  | [] => [(k, h)]
  | (k', h') :: r' => if hkey_eqb k' k then (k', h) :: r' else (k', h') :: reg_set r' k h
  end.
(** manager_*.py deregister: del *)
Definition reg_del (r : list (hkey * nat)) (k : hkey) : list (hkey * nat) :=
  filter (fun x => negb (hkey_eqb (fst x) k)) r.
(** manager_*.py match_signal for the two kinds of filters *)
Definition matches (e : siginfo) (k : hkey) : bool :=
  match k with HPid p => N.eqb (ssi_pid e) p | HStop => N.eqb (ssi_signo e) SIGTSTP end.

(** running.py:33-39 StopSignalHandler.handle_event *)
Definition stop_event (w : world) : world :=
  match w_current w with
  | None => w
  | Some p =>
      let x := w_pl w p in
      let w1 := set_pl w p (mkP (p_items x) None true (p_finished x) (p_inter x) (p_bad x) (p_cleaned x)) in
      match p_future x with
      | None => w1
      | Some t => set_wt w1 t (mkW (wt_pl (w_wt w1 t)) WReady (wt_owner (w_wt w1 t)))
      end
  end.
(** signalio/__init__.py:52-62 ProcessSignalHandler.handle_event *)
Definition proc_event (w : world) (i : nat) (e : siginfo) : world :=
  let x := w_item w i in
  let ex := N.eqb (ssi_code e) CLD_EXITED in
  let w1 := set_item w i (mkI (i_kind x) (i_pl x) (Some e) (if ex then Some false else i_done x) (i_task x) (i_seen x ++ [e])) in
  if ex then match i_kind x with KProc pid => set_reg w1 (reg_del (w_reg w1) (HPid pid)) | _ => w1 end else w1.
(** manager_signalfd.py:71-73 / manager_asyncio.py:75-77: the handlers present
    when the event is taken up are tried one after the other. *)
Definition dispatch1 (e : siginfo) (w : world) (kh : hkey * nat) : world :=
  if matches e (fst kh) then match fst kh with HPid _ => proc_event w (snd kh) e | HStop => stop_event w end else w.
Definition dispatch (w : world) (e : siginfo) : world := fold_left (dispatch1 e) (w_reg w) w.

(** ** Running pipelines *)

(** RunningProcess / RunningFunction.is_running: running.py:199-201,
    signalio/__init__.py:64-66; RunnningFg.is_running: builtins.py:61-63, which
    asks the wrapped pipeline: running.py:128-137.  [f] bounds the nesting of fg;
    a pipeline wraps only pipelines started before it, so [w_np w] is enough. *)
Fixpoint running_f (f : nat) (w : world) (i : nat) : bool :=
  match i_kind (w_item w i) with
  | KFg p => match f with 0 => false | S f' => existsb (running_f f' w) (p_items (w_pl w p)) end
  | _ => match i_done (w_item w i) with None => true | Some _ => false end
  end.
Definition item_running (w : world) (i : nat) : bool := running_f (w_np w) w i.
Definition pl_running (w : world) (p : nat) : bool := existsb (item_running w) (p_items (w_pl w p)).
(** is_failed: running.py:276-281 (exit_code is the last event's status),
    :229-231, builtins.py:64-66 with running.py:123-127,138-140. *)
Fixpoint failed_f (f : nat) (w : world) (i : nat) : bool :=
  match i_kind (w_item w i) with
  | KProc _ => match i_last (w_item w i) with Some e => negb (N.eqb (ssi_status e) 0) | None => false end
  | KFun => match i_done (w_item w i) with Some b => b | None => false end
  | KFg p => match f with 0 => false
             | S f' => existsb (fun j => negb (running_f f' w j) && failed_f f' w j) (p_items (w_pl w p)) end
  end.
Definition pl_failed (w : world) (p : nat) : bool :=
  existsb (fun i => negb (item_running w i) && failed_f (w_np w) w i) (p_items (w_pl w p)).

(** running.py:279-281 exit_code of a RunningProcess (None: last_event is still
    None and the lookup raises) *)
Definition exit_code (w : world) (i : nat) : option N :=
  match i_last (w_item w i) with Some e => Some (ssi_status e) | None => None end.

Definition remove_first (l : list nat) (p : nat) : list nat :=
  (fix go l := match l with [] => [] | x :: l' => if Nat.eqb x p then l' else x :: go l' end) l.

(** running.py:116-118 *)
Definition wake (w : world) (p : nat) : world :=
  let x := w_pl w p in
  match p_future x with
  | None => w
  | Some t => set_wt (set_pl w p (mkP (p_items x) None (p_susp x) (p_finished x) (p_inter x) (p_bad x) (p_cleaned x)))
                t (mkW (wt_pl (w_wt w t)) WReady (wt_owner (w_wt w t)))
  end.
(** running.py:107-118 handle_finish.  The clean-up itself is in FinishModel.v;
    here it only matters whether it raises, which skips everything after it. *)
Definition handle_finish (w : world) (p : nat) : world :=
  let x := w_pl w p in
  if negb (pl_running w p) && negb (p_finished x) then
    let w1 := set_pl w p (mkP (p_items x) (p_future x) (p_susp x) true (p_inter x) (p_bad x) (S (p_cleaned x))) in
    if p_bad x then w1
    else wake (set_running w1 (remove_first (w_running w1) p)) p
  else wake w p.

(** Has the process behind item [i] been collected? *)
Definition reaped (w : world) (i : nat) : bool :=
  existsb (fun e => match e with CExit _ | CKill _ _ => true | _ => false end) (w_hist w i).
(** running.py:263-272 RunningProcess.restart / suspend, 183-186 otherwise *)
Definition signal_item (s : N) (w : world) (i : nat) : world :=
  match i_kind (w_item w i) with
  | KProc pid => set_kills w (w_kills w ++ [mkK i pid s (reaped w i)])
  | _ => w
  end.
Definition set_susp (w : world) (p : nat) (b : bool) : world :=
  let x := w_pl w p in
  set_pl w p (mkP (p_items x) (p_future x) b (p_finished x) (p_inter x) (p_bad x) (p_cleaned x)).
(** running.py:79-86 *)
Definition pl_restart (w : world) (p : nat) : world :=
  fold_left (signal_item SIGCONT) (p_items (w_pl w p)) (set_susp w p false).
Definition pl_suspend (w : world) (p : nat) : world :=
  fold_left (signal_item SIGSTOP) (p_items (w_pl w p)) (set_susp w p true).

(** running.py:93-104 from the head of the loop: wait again, or finish; when the
    coroutine belongs to a RunnningFg, its await_finish goes on
    (builtins.py:68-69). *)
Definition wait_loop (w : world) (t : nat) : world :=
  let p := wt_pl (w_wt w t) in
  let o := wt_owner (w_wt w t) in
  let x := w_pl w p in
  if negb (p_susp x) && pl_running w p then
    set_wt (set_pl w p (mkP (p_items x) (Some t) (p_susp x) (p_finished x) (p_inter x) (p_bad x) (p_cleaned x)))
           t (mkW p WWait o)
  else
    let '(w1, r) := if p_susp x then (pl_suspend w p, RSuspended)
                    else if pl_failed w p then (w, RFailed) else (w, ROk) in
    let w2 := set_wt (set_current w1 None) t (mkW p (WDone r) o) in
    match o with
    | None => w2
    | Some i =>
        let y := w_item w2 i in
        match r with
        | ROk => handle_finish (set_item w2 i (mkI (i_kind y) (i_pl y) (i_last y) (i_done y) TEnded (i_seen y))) (i_pl y)
        | _ => set_item w2 i (mkI (i_kind y) (i_pl y) (i_last y) (i_done y) TDead (i_seen y))
        end
    end.
(** running.py:87-95 wait() from its beginning *)
Definition wait_begin (w : world) (p : nat) (o : option nat) : world :=
  let t := w_nw w in
  let w1 := set_wts w (upd (w_wt w) t (mkW p WReady o)) (S t) in
  let w2 := if p_inter (w_pl w1 p) then set_current w1 (Some p) else w1 in
  wait_loop (pl_restart w2 p) t.

(** What a pipeline to be started consists of. *)
Inductive sitem := SProc (pid : N) | SFun | SFg (p : nat).
(** Creating one running item: a forked process is registered with the signal
    manager at once (running.py:256-262, signalio/__init__.py:46-50). *)
Definition start_item (p : nat) (w : world) (s : sitem) : world :=
  let i := w_ni w in
  match s with
  | SProc pid =>
      set_reg (set_kern (set_items w (upd (w_item w) i (mkI (KProc pid) p None None TWait [])) (S i))
                        (updN (w_kern w) pid (KAlive i None)))
              (reg_set (w_reg w) (HPid pid) i)
  | SFun => set_items w (upd (w_item w) i (mkI KFun p None None TWait [])) (S i)
  | SFg q => set_items w (upd (w_item w) i (mkI (KFg q) p None None TNew [])) (S i)
  end.
(** The kernel gives a pid that is free; fg names a pipeline that exists. *)
Fixpoint startable (w : world) (used : list N) (ss : list sitem) : bool :=
  match ss with
  | [] => true
  | SProc pid :: ss' => match w_kern w pid with KFree => true | _ => false end
                        && negb (existsb (N.eqb pid) used) && negb (N.eqb pid 0) && startable w (pid :: used) ss'
  | SFun :: ss' => startable w used ss'
  | SFg q :: ss' => (q <? w_np w) && startable w used ss'
  end.
(** base.py:148-154 with running.py:64-74.  [_run] is modelled in RunModel.v;
    here it delivers the items. *)
Definition do_start (w : world) (ss : list sitem) (inter bad : bool) : world :=
  let p := w_np w in
  let w1 := fold_left (start_item p) ss w in
  let w2 := set_pls w1 (upd (w_pl w1) p (mkP (seq (w_ni w) (List.length ss)) None false false inter bad 0)) (S p) in
  let w3 := handle_finish w2 p in
  set_running w3 (w_running w3 ++ [p]).

Inductive label :=
(* the kernel *)
| LChild (pid : N) (e : child_event)     (* something happens to a child *)
(* the event loop *)
| LSigchld                               (* SIGCHLD is delivered *)
| LReap (pid : N)                        (* waitpid returns this child *)
| LReapEnd                               (* waitpid has nothing more *)
| LTstp (sender : N)                     (* SIGTSTP is delivered *)
| LFunDone (i : nat) (failed : bool)     (* a function's output handler is destroyed *)
| LTask (i : nat)                        (* an await_finish task continues *)
| LResume (t : nat)                      (* a waiter whose future was resolved continues *)
(* the user *)
| LStart (ss : list sitem) (inter bad : bool)
| LWait (p : nat) | LSuspend (p : nat) | LRestart (p : nat).

Definition valid_event (e : child_event) : bool :=
  match e with
  | CExit c => (c <? 256)%N
  | CKill s _ | CStop s => (1 <=? s)%N && (s <=? 64)%N
  | CCont => true
  end.
Definition terminal (e : child_event) : bool := match e with CExit _ | CKill _ _ => true | _ => false end.

(** waitpid(-1, WNOHANG) has nothing to report: no child has an uncollected
    status (every child is some item's process). *)
Definition collectable (c : kchild) : bool :=
  match c with KAlive _ (Some _) | KZombie _ _ => true | _ => false end.
Definition nothing_pending (w : world) : bool :=
  forallb (fun i => match i_kind (w_item w i) with KProc pid => negb (collectable (w_kern w pid)) | _ => true end)
          (seq 0 (w_ni w)).

Section Step.
  Variable mgr : manager.
  Definition step (w : world) (l : label) : option world :=
    match l with
    | LChild pid e =>
        match w_kern w pid with
        | KAlive i _ =>
            if valid_event e
            then Some (set_chld (set_kern w (updN (w_kern w) pid (if terminal e then KZombie i e else KAlive i (Some e)))) true)
            else None
        | _ => None
        end
    | LSigchld => if w_chld w && negb (w_reaping w) then Some (set_reaping (set_chld w false) true) else None
    | LReap pid =>
        if w_reaping w then
          match w_kern w pid with
          | KAlive i (Some e) =>
              Some (dispatch (set_hist (set_kern w (updN (w_kern w) pid (KAlive i None)))
                                       (upd (w_hist w) i (w_hist w i ++ [e])))
                             (sigchld_info pid (status_word e)))
          | KZombie i e =>
              Some (dispatch (set_hist (set_kern w (updN (w_kern w) pid KFree))
                                       (upd (w_hist w) i (w_hist w i ++ [e])))
                             (sigchld_info pid (status_word e)))
          | _ => None
          end
        else None
    | LReapEnd => if w_reaping w && nothing_pending w then Some (set_reaping w false) else None
    | LTstp sender =>
        if w_reaping w then None else
        match mgr with
        | Signalfd => Some (dispatch w (mkSI SIGTSTP sender 0 0))
        (* manager_asyncio.py:14-15: the callback's signo is always the last of
           the mask, SIGTSTP; :63-64 then collects children instead *)
        | Asyncio => Some (set_reaping w true)
        end
    | LFunDone i failed =>
        if w_reaping w then None else
        let x := w_item w i in
        match i_kind x, i_done x with
        | KFun, None => if i <? w_ni w
                        then Some (set_item w i (mkI KFun (i_pl x) (i_last x) (Some failed) (i_task x) (i_seen x)))
                        else None
        | _, _ => None
        end
    | LTask i =>
        if w_reaping w then None else
        if i <? w_ni w then
        let x := w_item w i in
        match i_task x, i_kind x, i_done x with
        | TNew, KFg p, _ => Some (wait_begin (set_item w i (mkI (i_kind x) (i_pl x) (i_last x) (i_done x) TWait (i_seen x))) p (Some i))
        | TWait, KFg _, _ => None
        | TWait, _, Some true => Some (set_item w i (mkI (i_kind x) (i_pl x) (i_last x) (i_done x) TDead (i_seen x)))
        | TWait, _, Some false =>
            Some (handle_finish (set_item w i (mkI (i_kind x) (i_pl x) (i_last x) (i_done x) TEnded (i_seen x))) (i_pl x))
        | _, _, _ => None
        end
        else None
    | LResume t =>
        if w_reaping w then None else
        if t <? w_nw w then match wt_phase (w_wt w t) with WReady => Some (wait_loop w t) | _ => None end else None
    | LStart ss inter bad =>
        if w_reaping w then None else
        if startable w [] ss then Some (do_start w ss inter bad) else None
    | LWait p => if w_reaping w then None else if p <? w_np w then Some (wait_begin w p None) else None
    | LSuspend p => if w_reaping w then None else if p <? w_np w then Some (pl_suspend w p) else None
    | LRestart p => if w_reaping w then None else if p <? w_np w then Some (pl_restart w p) else None
    end.
  Fixpoint steps (w : world) (ls : list label) : option world :=
    match ls with
    | [] => Some w
    | l :: ls' => match step w l with Some w' => steps w' ls' | None => None end
    end.
End Step.
