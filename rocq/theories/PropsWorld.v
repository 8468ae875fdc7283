(** Property theorems C21-C27, C29, C30, C49 and the pipeline side of
    C28: child events, running pipelines and wait(). *)
From Verif Require Import Py WorldModel WorldSpec WorldProofs WorldWait WorldStep WorldLive WorldHang WorldMore.

(** Evaluate a trace and test the state it leads to. *)
Definition after (mgr : manager) (ls : list label) (f : world -> bool) : bool :=
  match steps mgr w_init ls with Some w => f w | None => false end.
Definition phase_is (w : world) (t : nat) (ph : wphase) : bool :=
  match wt_phase (w_wt w t), ph with
  | WWait, WWait | WReady, WReady | WDone ROk, WDone ROk | WDone RFailed, WDone RFailed | WDone RSuspended, WDone RSuspended => true
  | _, _ => false
  end.

(** C21 for every event but one. *)
Theorem C21_decode_partial : forall e, valid_event e = true -> e <> CCont ->
  classify (status_word e) = (right_code e, right_status e).
Proof. exact classify_ok. Qed.
Print Assumptions C21_decode_partial.
(** ... and that one: a continued child is reported as having dumped core. *)
Theorem C21_continued_refuted : valid_event CCont = true /\ classify (status_word CCont) = (CLD_DUMPED, 127%N) /\
  classify (status_word CCont) <> (right_code CCont, right_status CCont).
Proof. split; [reflexivity|]. split; [exact continued_wrong|]. rewrite continued_wrong. discriminate. Qed.
Print Assumptions C21_continued_refuted.
Example C21_nonvacuous : valid_event (CExit 255) = true /\ valid_event (CKill 11 true) = true /\ valid_event (CStop 20) = true /\ valid_event (CKill 64 false) = true.
Proof. vm_compute. auto. Qed.

(** C22.  Whatever happened so far, the child events that the handler of process
    [i] got are those that waitpid returned for its process, in that order, and
    nothing follows the end of the process. *)
Theorem C22_events_in_order : forall mgr w i pid, reachable mgr w -> i < w_ni w -> i_kind (w_item w i) = KProc pid ->
  filter is_chld (i_seen (w_item w i)) = map (fun e => sigchld_info pid (status_word e)) (w_hist w i) /\
  (forall h e h', w_hist w i = h ++ e :: h' -> terminal e = true -> h' = []).
Proof. exact events_in_order. Qed.
Print Assumptions C22_events_in_order.
Definition trace_two : list label :=
  [LStart [SProc 10; SProc 11] true false; LWait 0; LChild 10 (CStop 20); LChild 11 (CExit 3); LSigchld; LReap 11; LReap 10;
   LReapEnd; LChild 10 CCont; LChild 10 (CExit 0); LSigchld; LReap 10; LReapEnd; LTask 1; LResume 0; LTask 0].
Example C22_nonvacuous : after Signalfd trace_two (fun w =>
  (2 =? List.length (w_hist w 0)) && (1 =? List.length (w_hist w 1)) && (2 =? List.length (i_seen (w_item w 0)))) = true.
Proof. vm_compute. reflexivity. Qed.

(** C23.  A child that exits at any point of any history is, at any later point
    at which no SIGCHLD is pending or being handled, reported as not running
    with its own exit code. *)
Theorem C23_no_exit_lost : forall mgr w pid i pend c ls w', reachable mgr w -> w_kern w pid = KAlive i pend ->
  steps mgr w (LChild pid (CExit c) :: ls) = Some w' -> w_chld w' = false -> w_reaping w' = false ->
  item_running w' i = false /\ exit_code w' i = Some c.
Proof. exact no_exit_lost. Qed.
Print Assumptions C23_no_exit_lost.
Example C23_nonvacuous :
  after Asyncio [LStart [SProc 10; SProc 11] true false] (fun w => match w_kern w 11 with KAlive 1 None => true | _ => false end) = true /\
  after Asyncio [LStart [SProc 10; SProc 11] true false; LChild 11 (CExit 7); LSigchld; LReap 11; LReapEnd]
    (fun w => negb (w_chld w) && negb (w_reaping w)) = true.
Proof. vm_compute. auto. Qed.

(** C24 holds for processes that exit ... *)
Theorem C24_exit_noticed_partial : forall mgr w i pid c, reachable mgr w -> i < w_ni w -> i_kind (w_item w i) = KProc pid ->
  exited w i c -> item_running w i = false /\ exit_code w i = Some c.
Proof. exact exit_reported. Qed.
Print Assumptions C24_exit_noticed_partial.
(** ... and is false of every process that is killed: it counts as running for ever. *)
Theorem C24_killed_runs_forever_refuted : forall mgr w i pid ls w', reachable mgr w -> i < w_ni w -> i_kind (w_item w i) = KProc pid ->
  killed w i -> steps mgr w ls = Some w' -> item_running w' i = true.
Proof. exact kill_forever. Qed.
Print Assumptions C24_killed_runs_forever_refuted.
Definition trace_kill : list label :=
  [LStart [SProc 10] true false; LWait 0; LChild 10 (CKill 9 false); LSigchld; LReap 10; LReapEnd].
Example C24_nonvacuous :
  after Signalfd trace_kill (fun w => match w_hist w 0 with [CKill 9 false] => phase_is w 0 WWait | _ => false end) = true /\
  after Signalfd trace_two (fun w => match rev (w_hist w 1) with CExit 3 :: _ => true | _ => false end) = true.
Proof. vm_compute. auto. Qed.

(** C25, signalfd manager, no other wait() beginning or ending meanwhile: a
    CTRL-Z while the shell waits for a running interactive pipeline makes the
    wait() raise PipelineSuspended when it is resumed, having stopped every
    process. *)
Theorem C25_ctrl_z_partial : forall w p w1 w2 sender, reachable Signalfd w -> p_inter (w_pl w p) = true -> pl_running w p = true ->
  step Signalfd w (LWait p) = Some w1 -> quiet_steps Signalfd (w_nw w) w1 w2 ->
  (forall r, wt_phase (w_wt w2 (w_nw w)) <> WDone r) -> w_reaping w2 = false ->
  exists w3 w4, step Signalfd w2 (LTstp sender) = Some w3 /\ step Signalfd w3 (LResume (w_nw w)) = Some w4 /\
    wt_phase (w_wt w4 (w_nw w)) = WDone RSuspended /\ stopped_all w4 p.
Proof. exact ctrl_z. Qed.
Print Assumptions C25_ctrl_z_partial.
Example C25_nonvacuous : after Signalfd [LStart [SProc 10; SFun] true false] (fun w => p_inter (w_pl w 0) && pl_running w 0) = true /\
  after Signalfd [LStart [SProc 10; SFun] true false; LWait 0; LFunDone 1 false; LTask 1; LResume 0; LTstp 0; LResume 0]
   (fun w => phase_is w 0 (WDone RSuspended) && (2 =? List.length (w_kills w))) = true.
Proof. vm_compute. auto. Qed.
(** False with the asyncio manager: without a call of suspend() no wait() ever
    ends suspended, whatever signals arrive. *)
Theorem C25_asyncio_refuted : forall ls w t, steps Asyncio w_init ls = Some w -> (forall p, ~ In (LSuspend p) ls) -> t < w_nw w ->
  wt_phase (w_wt w t) <> WDone RSuspended.
Proof. exact asyncio_no_suspend. Qed.
Print Assumptions C25_asyncio_refuted.
(** False with either manager when another wait() ends first: the end of any
    wait() makes CTRL-Z a no-op. *)
Theorem C25_other_wait_refuted : forall mgr w t w' r sender w'', reachable mgr w -> step mgr w (LResume t) = Some w' ->
  wt_phase (w_wt w' t) = WDone r -> step mgr w' (LTstp sender) = Some w'' ->
  w_wt w'' = w_wt w' /\ w_pl w'' = w_pl w' /\ w_kills w'' = w_kills w'.
Proof.
  exact (fun mgr w t w' r sender w'' R S D T => tstp_lost mgr w' w'' sender (reachable_step _ _ _ _ R S) (wait_end_resets mgr w t w' r S D) T).
Qed.
Print Assumptions C25_other_wait_refuted.
Example C25_other_wait_nonvacuous : after Signalfd
  [LStart [SProc 10] true false; LStart [SProc 11] true false; LWait 0; LWait 1; LChild 11 (CExit 0); LSigchld; LReap 11; LReapEnd;
   LTask 1; LResume 1; LTstp 0]
  (fun w => phase_is w 1 (WDone ROk) && phase_is w 0 WWait && pl_running w 0 && p_inter (w_pl w 0)) = true.
Proof. vm_compute. reflexivity. Qed.

(** C26. *)
Theorem C26_success_is_true : forall mgr w t, reachable mgr w -> t < w_nw w -> wt_phase (w_wt w t) = WDone ROk ->
  forall i, In i (p_items (w_pl w (wt_pl (w_wt w t)))) -> all_succeeded w i.
Proof. exact (fun mgr w t R L H => results_truthful mgr w t ROk R L H). Qed.
Print Assumptions C26_success_is_true.
Theorem C26_failure_is_true : forall mgr w t, reachable mgr w -> t < w_nw w -> wt_phase (w_wt w t) = WDone RFailed ->
  (forall i, In i (p_items (w_pl w (wt_pl (w_wt w t)))) -> all_finished w i) /\
  exists i, In i (p_items (w_pl w (wt_pl (w_wt w t)))) /\ some_failed w i.
Proof. exact (fun mgr w t R L H => results_truthful mgr w t RFailed R L H). Qed.
Print Assumptions C26_failure_is_true.
Theorem C26_suspended_stopped_all : forall mgr w t, reachable mgr w -> t < w_nw w -> wt_phase (w_wt w t) = WDone RSuspended ->
  stopped_all w (wt_pl (w_wt w t)).
Proof. exact (fun mgr w t R L H => results_truthful mgr w t RSuspended R L H). Qed.
Print Assumptions C26_suspended_stopped_all.
Theorem C26_suspended_was_asked : forall mgr w p w1 ls w2, reachable mgr w -> step mgr w (LWait p) = Some w1 -> steps mgr w1 ls = Some w2 ->
  wt_phase (w_wt w2 (w_nw w)) = WDone RSuspended -> exists l, In l ls /\ ((exists s, l = LTstp s) \/ exists q, l = LSuspend q).
Proof. exact suspended_asked. Qed.
Print Assumptions C26_suspended_was_asked.
(** All three results occur, also through fg. *)
Example C26_nonvacuous :
  after Signalfd trace_two (fun w => phase_is w 0 (WDone RFailed)) = true /\
  after Signalfd [LStart [SProc 10] true false; LStart [SFg 0; SFun] true false; LWait 1; LTask 1; LChild 10 (CExit 0); LSigchld; LReap 10; LReapEnd;
    LTask 0; LResume 1; LFunDone 2 false; LTask 2; LResume 0] (fun w => phase_is w 1 (WDone ROk) && phase_is w 0 (WDone ROk)) = true /\
  after Signalfd [LStart [SProc 10] true false; LWait 0; LTstp 0; LResume 0] (fun w => phase_is w 0 (WDone RSuspended)) = true.
Proof. vm_compute. auto. Qed.

(** C27, one wait() at a time, no fg, readable output: when the event loop has
    nothing more to do (which happens after a bounded number of its steps) and
    every process has exited and every function has ended normally, the wait()
    has ended. *)
Theorem C27_waiter_returns_partial : forall mgr w t, xreach mgr w -> quiescent mgr w -> t < w_nw w ->
  plain w (wt_pl (w_wt w t)) -> p_bad (w_pl w (wt_pl (w_wt w t))) = false ->
  (forall i, In i (p_items (w_pl w (wt_pl (w_wt w t)))) -> ended_well w i) -> exists r, wt_phase (w_wt w t) = WDone r.
Proof. exact waiter_returns. Qed.
Print Assumptions C27_waiter_returns_partial.
Theorem C27_loop_comes_to_rest : forall mgr w, reachable mgr w -> exists n, forall ls w', Forall loop_label ls -> steps mgr w ls = Some w' ->
  List.length ls <= n.
Proof. exact (fun mgr w R => ex_intro _ (measure w) (loop_rests mgr w R)). Qed.
Print Assumptions C27_loop_comes_to_rest.
(** False with two concurrent waiters: the first is never woken. *)
Theorem C27_second_wait_refuted : forall mgr w t p w1 ls w2, reachable mgr w -> t < w_nw w -> wt_pl (w_wt w t) = p -> wt_phase (w_wt w t) = WWait ->
  pl_running w p = true -> step mgr w (LWait p) = Some w1 -> steps mgr w1 ls = Some w2 -> wt_phase (w_wt w2 t) = WWait.
Proof. exact second_wait. Qed.
Print Assumptions C27_second_wait_refuted.
Example C27_second_wait_nonvacuous : after Signalfd [LStart [SProc 10] true false; LWait 0] (fun w => phase_is w 0 WWait && pl_running w 0) = true /\
  after Signalfd [LStart [SProc 10] true false; LWait 0; LWait 0; LChild 10 (CExit 0); LSigchld; LReap 10; LReapEnd; LTask 0; LResume 1]
   (fun w => phase_is w 1 (WDone ROk) && phase_is w 0 WWait && negb (pl_running w 0)) = true.
Proof. vm_compute. auto. Qed.
(** False when a process is killed: no wait() ever reports success or failure. *)
Theorem C27_killed_refuted : forall mgr w i p ls w' t r, reachable mgr w -> In i (p_items (w_pl w p)) -> is_proc w i -> killed w i ->
  steps mgr w ls = Some w' -> t < w_nw w' -> wt_pl (w_wt w' t) = p -> wt_phase (w_wt w' t) = WDone r -> r = RSuspended.
Proof. exact killed_never_returns. Qed.
Print Assumptions C27_killed_refuted.
(** False when the items' tasks end without waking it: the wait() lasts for ever,
    unless CTRL-Z is pressed.  (With the nonvacuity below: a function that
    raises last, and undecodable output.) *)
Theorem C27_forgotten_refuted : forall mgr w t ls w', reachable mgr w -> t < w_nw w -> wt_phase (w_wt w t) = WWait ->
  tasks_over w (wt_pl (w_wt w t)) -> Forall (no_tstp mgr) ls -> steps mgr w ls = Some w' -> wt_phase (w_wt w' t) = WWait.
Proof. exact (fun mgr w t ls w' R => over_forever mgr ls w w' t (AI_reach mgr w R)). Qed.
Print Assumptions C27_forgotten_refuted.
Definition overb (w : world) (p : nat) : bool :=
  forallb (fun i => match i_task (w_item w i) with TEnded | TDead => true | _ => false end) (p_items (w_pl w p)).
Example C27_forgotten_nonvacuous :
  after Signalfd [LStart [SProc 10; SFun] true false; LWait 0; LChild 10 (CExit 0); LSigchld; LReap 10; LReapEnd; LTask 0; LResume 0; LFunDone 1 true; LTask 1]
    (fun w => phase_is w 0 WWait && overb w 0 && negb (pl_running w 0)) = true /\
  after Signalfd [LStart [SProc 10] true true; LWait 0; LChild 10 (CExit 0); LSigchld; LReap 10; LReapEnd; LTask 0]
    (fun w => phase_is w 0 WWait && overb w 0 && negb (pl_running w 0)) = true.
Proof. vm_compute. auto. Qed.
(** The hypotheses of C27_waiter_returns_partial are met. *)
Definition exclusiveb (w : world) : bool :=
  forallb (fun t => forallb (fun t' => (t =? t') || negb (wt_pl (w_wt w t) =? wt_pl (w_wt w t'))) (seq 0 (w_nw w))) (seq 0 (w_nw w)).
Fixpoint xsteps (mgr : manager) (w : world) (ls : list label) : option world :=
  match ls with
  | [] => Some w
  | l :: ls' => match step mgr w l with Some w' => if exclusiveb w' then xsteps mgr w' ls' else None | None => None end
  end.
Lemma xsteps_xreach mgr : forall ls w w', xreach mgr w -> xsteps mgr w ls = Some w' -> xreach mgr w'.
Proof.
  induction ls as [|l ls IH]; intros w w' X H; cbn in H; [now injection H as <-|].
  destruct (step mgr w l) as [w1|] eqn:E; [|discriminate]. destruct (exclusiveb w1) eqn:Ex; [|discriminate].
  apply (IH w1); auto. econstructor; eauto. intros t t' [Lt _] [Lt' _] Hp. unfold exclusiveb in Ex.
  rewrite forallb_forall in Ex. specialize (Ex t ltac:(apply in_seq; lia)). rewrite forallb_forall in Ex. specialize (Ex t' ltac:(apply in_seq; lia)).
  rewrite Hp, Nat.eqb_refl in Ex. cbn in Ex. rewrite Bool.orb_false_r in Ex. now apply Nat.eqb_eq.
Qed.
Example C27_partial_nonvacuous : exists w, xreach Signalfd w /\ 0 < w_nw w /\ wt_phase (w_wt w 0) = WDone RFailed /\
  (forall i, In i (p_items (w_pl w (wt_pl (w_wt w 0)))) -> ended_well w i).
Proof.
  destruct (xsteps Signalfd w_init trace_two) as [w|] eqn:E; [|vm_compute in E; discriminate].
  exists w. split; [eapply xsteps_xreach; [constructor|exact E]|]. vm_compute in E. injection E as <-.
  split; [cbn; lia|]. split; [reflexivity|]. cbn. intros i [<-|[<-|[]]]; unfold ended_well; cbn.
  - exists 0%N. exists [CStop 20]. reflexivity.
  - exists 3%N. exists []. reflexivity.
Qed.

(** C28, clean-up at most once, and only when nothing runs any more (what the
    clean-up does: PropsFinish.v). *)
Theorem C28_cleaned_once : forall mgr w p, reachable mgr w ->
  p_cleaned (w_pl w p) <= 1 /\ (p_cleaned (w_pl w p) = 1 -> plain w p -> pl_running w p = false).
Proof. exact cleaned_once. Qed.
Print Assumptions C28_cleaned_once.
Example C28_cleaned_nonvacuous : after Signalfd trace_two (fun w => p_cleaned (w_pl w 0) =? 1) = true.
Proof. vm_compute. reflexivity. Qed.

(** C29 for pipelines of commands and functions that end in the ordinary way. *)
Theorem C29_listed_while_running_partial : forall mgr w p, reachable mgr w -> p < w_np w -> plain w p -> p_bad (w_pl w p) = false ->
  pl_running w p = true -> In p (w_running w).
Proof. exact listed_while_running. Qed.
Print Assumptions C29_listed_while_running_partial.
Theorem C29_unlisted_when_ended_partial : forall mgr w p, reachable mgr w -> quiescent mgr w -> p < w_np w -> plain w p -> p_bad (w_pl w p) = false ->
  p_items (w_pl w p) <> [] -> (forall i, In i (p_items (w_pl w p)) -> ended_well w i) -> ~ In p (w_running w).
Proof. exact unlisted_when_ended. Qed.
Print Assumptions C29_unlisted_when_ended_partial.
(** False of every pipeline without running items (cd, bg, ...), which is listed
    for ever; and of one whose tasks ended without removing it. *)
Theorem C29_empty_listed_forever_refuted : forall mgr w inter bad w1 ls w2, reachable mgr w -> step mgr w (LStart [] inter bad) = Some w1 ->
  steps mgr w1 ls = Some w2 -> pl_running w1 (w_np w) = false /\ In (w_np w) (w_running w2).
Proof. exact empty_listed. Qed.
Print Assumptions C29_empty_listed_forever_refuted.
Theorem C29_forgotten_listed_forever_refuted : forall mgr w p ls w', reachable mgr w -> p < w_np w -> tasks_over w p -> In p (w_running w) ->
  steps mgr w ls = Some w' -> In p (w_running w').
Proof. exact (fun mgr w p ls w' R => over_listed mgr ls w w' p (AI_reach mgr w R)). Qed.
Print Assumptions C29_forgotten_listed_forever_refuted.
Example C29_nonvacuous :
  after Signalfd [LStart [] true false] (fun w => match w_running w with [0] => true | _ => false end) = true /\
  after Signalfd trace_two (fun w => match w_running w with [] => true | _ => false end) = true /\
  after Signalfd [LStart [SFun] true false; LFunDone 0 true; LTask 0] (fun w => overb w 0 && negb (pl_running w 0) && existsb (Nat.eqb 0) (w_running w)) = true.
Proof. vm_compute. auto. Qed.

(** C30.  What is true: a signal is only sent to processes of the pipeline that
    is restarted, suspended or waited for, and one sent to a process that has
    not been reaped reaches that process. *)
Theorem C30_own_processes_partial : forall mgr w p l w', reachable mgr w -> l = LWait p \/ l = LRestart p \/ l = LSuspend p ->
  step mgr w l = Some w' ->
  exists ks, w_kills w' = w_kills w ++ ks /\
    forall k, In k ks -> In (k_item k) (p_items (w_pl w p)) /\ i_kind (w_item w (k_item k)) = KProc (k_pid k).
Proof. exact signals_own. Qed.
Print Assumptions C30_own_processes_partial.
Theorem C30_on_target_partial : forall mgr w l w', reachable mgr w -> step mgr w l = Some w' ->
  exists ks, w_kills w' = w_kills w ++ ks /\
    forall k, In k ks -> k_reaped k = false -> owner (w_kern w (k_pid k)) = Some (k_item k).
Proof. exact signals_on_target. Qed.
Print Assumptions C30_on_target_partial.
(** What is false: every such call signals the reaped processes too ... *)
Theorem C30_reaped_signalled_refuted : forall mgr w p l w' i pid, reachable mgr w -> l = LWait p \/ l = LRestart p \/ l = LSuspend p ->
  step mgr w l = Some w' -> In i (p_items (w_pl w p)) -> i_kind (w_item w i) = KProc pid -> reaped w i = true ->
  exists ks k, w_kills w' = w_kills w ++ ks /\ In k ks /\ k_item k = i /\ k_pid k = pid /\ k_reaped k = true.
Proof. exact sent_to_reaped. Qed.
Print Assumptions C30_reaped_signalled_refuted.
(** ... and so can stop a process of another pipeline that got the same pid. *)
Example C30_wrong_process : after Signalfd
  [LStart [SProc 10; SProc 11] true false; LChild 10 (CExit 0); LSigchld; LReap 10; LReapEnd; LStart [SProc 10] true false; LSuspend 0]
  (fun w => match w_kern w 10 with KAlive 2 _ => existsb (fun k => (k_item k =? 0) && N.eqb (k_pid k) 10 && N.eqb (k_sig k) SIGSTOP) (w_kills w) | _ => false end) = true.
Proof. vm_compute. reflexivity. Qed.

(** C49 is false: after CTRL-Z during fg, the wait() for the fg command never
    ends, whatever children, signals (CTRL-Z included) and the event loop do,
    because the await_finish task of the fg item is over. *)
Theorem C49_fg_suspend_hangs_refuted : forall mgr w t ls w', reachable mgr w -> w_current w = None -> no_new w -> t < w_nw w ->
  wt_phase (w_wt w t) = WWait -> tasks_over w (wt_pl (w_wt w t)) -> Forall (fun l => ~ user_label l) ls ->
  steps mgr w ls = Some w' -> wt_phase (w_wt w' t) = WWait.
Proof. exact (fun mgr w t ls w' R => alone_forever mgr ls w w' t (AI_reach mgr w R)). Qed.
Print Assumptions C49_fg_suspend_hangs_refuted.
Example C49_nonvacuous : after Signalfd
  [LStart [SProc 10] true false; LStart [SFg 0] true false; LWait 1; LTask 1; LTstp 0; LResume 1]
  (fun w => phase_is w 0 WWait && phase_is w 1 (WDone RSuspended) && (wt_pl (w_wt w 0) =? 1) && overb w 1 &&
            match w_current w with None => true | _ => false end &&
            forallb (fun i => match i_task (w_item w i) with TNew => false | _ => true end) (seq 0 (w_ni w))) = true.
Proof. vm_compute. reflexivity. Qed.
