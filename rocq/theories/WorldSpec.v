(** Vocabulary for the properties of running pipelines. *)
From Verif Require Import Py WorldModel.

(** The right decoding of what happened to a child. *)
Definition right_code (e : child_event) : N :=
  match e with CExit _ => 1 | CKill _ false => 2 | CKill _ true => 3 | CStop _ => 5 | CCont => 6 end%N.
Definition right_status (e : child_event) : N :=
  match e with CExit c => c | CKill s _ => s | CStop s => s | CCont => 0 end%N.

(** Outcomes in terms of what really happened: what waitpid returned for the
    process, or how the function's iteration ended. *)
Definition finished (w : world) (i : nat) : Prop :=
  match i_kind (w_item w i) with
  | KProc _ => exists h c, w_hist w i = h ++ [CExit c]
  | KFun => i_done (w_item w i) <> None
  | KFg _ => False
  end.
Definition succeeded (w : world) (i : nat) : Prop :=
  match i_kind (w_item w i) with
  | KProc _ => exists h, w_hist w i = h ++ [CExit 0]
  | KFun => i_done (w_item w i) = Some false
  | KFg _ => False
  end.
Definition failed (w : world) (i : nat) : Prop :=
  match i_kind (w_item w i) with
  | KProc _ => exists h c, w_hist w i = h ++ [CExit c] /\ c <> 0%N
  | KFun => i_done (w_item w i) = Some true
  | KFg _ => False
  end.
(** The same through fg, whose outcome is that of the pipeline it wraps. *)
Inductive all_finished (w : world) : nat -> Prop :=
| fin_leaf i : finished w i -> all_finished w i
| fin_fg i q : i_kind (w_item w i) = KFg q -> (forall j, In j (p_items (w_pl w q)) -> all_finished w j) -> all_finished w i.
Inductive all_succeeded (w : world) : nat -> Prop :=
| suc_leaf i : succeeded w i -> all_succeeded w i
| suc_fg i q : i_kind (w_item w i) = KFg q -> (forall j, In j (p_items (w_pl w q)) -> all_succeeded w j) -> all_succeeded w i.
Inductive some_failed (w : world) : nat -> Prop :=
| fail_leaf i : failed w i -> some_failed w i
| fail_fg i q j : i_kind (w_item w i) = KFg q -> In j (p_items (w_pl w q)) -> some_failed w j -> some_failed w i.
(** A pipeline of commands and functions only (no fg). *)
Definition plain (w : world) (p : nat) : Prop :=
  forall i, In i (p_items (w_pl w p)) -> match i_kind (w_item w i) with KFg _ => False | _ => True end.
Definition is_proc (w : world) (i : nat) : Prop := exists pid, i_kind (w_item w i) = KProc pid.

Definition reachable (mgr : manager) (w : world) : Prop := exists ls, steps mgr w_init ls = Some w.

(** What became of a process, and the events that concern children. *)
Definition exited (w : world) (i : nat) (c : N) : Prop := exists h, w_hist w i = h ++ [CExit c].
Definition killed (w : world) (i : nat) : Prop := exists h s core, w_hist w i = h ++ [CKill s core].
Definition is_chld (e : siginfo) : bool := N.eqb (ssi_signo e) SIGCHLD.
(** A stop signal was sent to every process of the pipeline. *)
Definition stopped_all (w : world) (p : nat) : Prop :=
  forall i pid, In i (p_items (w_pl w p)) -> i_kind (w_item w i) = KProc pid ->
    exists k, In k (w_kills w) /\ k_item k = i /\ k_pid k = pid /\ k_sig k = SIGSTOP.

(** Labels that the event loop takes by itself; a state where none is enabled is
    quiescent: everything that has happened has been handled. *)
Definition loop_label (l : label) : Prop :=
  match l with LSigchld | LReap _ | LReapEnd | LTask _ | LResume _ => True | _ => False end.
Definition quiescent (mgr : manager) (w : world) : Prop := forall l, loop_label l -> step mgr w l = None.

(** No two coroutines wait for the same pipeline at the same time. *)
Definition active (w : world) (t : nat) : Prop :=
  t < w_nw w /\ match wt_phase (w_wt w t) with WDone _ => False | _ => True end.
Definition exclusive (w : world) : Prop :=
  forall t t', active w t -> active w t' -> wt_pl (w_wt w t) = wt_pl (w_wt w t') -> t = t'.
Inductive xreach (mgr : manager) : world -> Prop :=
| xr_init : xreach mgr w_init
| xr_step w l w' : xreach mgr w -> step mgr w l = Some w' -> exclusive w' -> xreach mgr w'.

(** Item [i]'s await_finish task is over, whether it called handle_finish or
    died of an exception. *)
Definition over (x : item) : Prop := i_task x = TEnded \/ i_task x = TDead.
Definition tasks_over (w : world) (p : nat) : Prop := forall i, In i (p_items (w_pl w p)) -> over (w_item w i).
(** No CTRL-Z that the manager would pass on; labels of the user. *)
Definition no_tstp (mgr : manager) (l : label) : Prop := match l with LTstp _ => mgr = Asyncio | _ => True end.
Definition user_label (l : label) : Prop := match l with LStart _ _ _ | LWait _ | LSuspend _ | LRestart _ => True | _ => False end.
(** No fg that has not begun to wait. *)
Definition no_new (w : world) : Prop := forall i, i < w_ni w -> i_task (w_item w i) <> TNew.
(** Item [i] came to an end in the ordinary way. *)
Definition ended_well (w : world) (i : nat) : Prop :=
  match i_kind (w_item w i) with
  | KProc _ => exists c, exited w i c
  | _ => i_done (w_item w i) = Some false
  end.
(** Nothing but children, functions and this wait() itself moves on (and new
    pipelines may be started). *)
Definition quiet (w : world) (t : nat) (l : label) : Prop :=
  match l with
  | LTstp _ | LWait _ => False
  | LTask i => forall q, i_kind (w_item w i) <> KFg q
  | LResume t' => t' = t
  | _ => True
  end.
(** A sequence of such steps. *)
Inductive quiet_steps (mgr : manager) (t : nat) : world -> world -> Prop :=
| qs_nil w : quiet_steps mgr t w w
| qs_cons w l w1 w2 : quiet w t l -> step mgr w l = Some w1 -> quiet_steps mgr t w1 w2 -> quiet_steps mgr t w w2.
