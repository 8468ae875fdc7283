(** Vocabulary for CTRL-C and CTRL-Z at the keyboard. *)
From Verif Require Import Py WorldModel WorldSpec CtrlModel.

(** What happens while the shell waits for a pipeline, apart from CTRL-Z taking effect,
    CTRL-C and the end. *)
Definition waiting_label (l : slabel) : Prop := match l with SChild _ _ | SKeyZ | SLoop _ => True | _ => False end.
(** The same with CTRL-Z taking effect. *)
Definition during (l : slabel) : Prop := match l with SChild _ _ | SKeyZ | SLoop _ | SReadZ _ => True | _ => False end.
(** No pipeline has an fg in it. *)
Definition no_fg (w : world) : Prop := forall i q, i < w_ni w -> i_kind (w_item w i) <> KFg q.
(** Nothing of the pipeline has ended as far as the shell can know. *)
Definition all_running (w : world) (p : nat) : Prop := forall i, In i (p_items (w_pl w p)) -> i_done (w_item w i) = None.
(** No wait() was cut short by PipelineInterrupted. *)
Definition no_inner (l : slabel) : Prop := match l with SKeyC InWait | SRunKeyC _ _ => False | _ => True end.
(** Reached from the start in that way. *)
Definition shell_reached (mgr : manager) (s : shell) : Prop := exists ls, Forall no_inner ls /\ ssteps mgr s_init ls = Some s.
(** A wait() begun earlier for [p], not over. *)
Definition waits_for (w : world) (t p : nat) : Prop := t < w_nw w /\ wt_pl (w_wt w t) = p /\ forall r, wt_phase (w_wt w t) <> WDone r.
(** No wait() but [t] is going on. *)
Definition only_wait (w : world) (t : nat) : Prop := forall t0, t0 < w_nw w -> t0 <> t -> exists r, wt_phase (w_wt w t0) = WDone r.
(** No wait() for [p] has been woken without having gone on. *)
Definition none_woken (w : world) (p : nat) : Prop := forall t, t < w_nw w -> wt_pl (w_wt w t) = p -> wt_phase (w_wt w t) <> WReady.
(** Every item of the pipeline is a process that was last heard to have stopped. *)
Definition all_stopped (w : world) (p : nat) : Prop := forall i, In i (p_items (w_pl w p)) -> is_proc w i /\ exists h n, w_hist w i = h ++ [CStop n].
(** What happens while the shell waits without its own CTRL-Z handling taking effect: the
    asyncio manager does not pass SIGTSTP on. *)
Definition unsuspended (mgr : manager) (l : slabel) : Prop := match l with SReadZ _ => mgr = Asyncio | _ => waiting_label l end.
