(** CTRL-C and CTRL-Z at the keyboard. *)
From Verif Require Import Py WorldModel WorldSpec CtrlModel CtrlSpec CtrlProofs.

(** C106, where it holds: CTRL-C that python handles in the instructions of wait() itself
    raises PipelineInterrupted with the pipeline, and nothing is in the foreground after. *)
Theorem C106_in_wait_partial : forall mgr s t s', s_call s = Some t -> sstep mgr s (SKeyC InWait) = Some s' ->
  s_said s' = s_said s ++ [Interrupted (wt_pl (w_wt (s_w s) t))] /\ s_call s' = None /\ w_current (s_w s') = None.
Proof. exact key_in_wait. Qed.
Print Assumptions C106_in_wait_partial.
Theorem C106_at_start_partial : forall mgr s p n s', sstep mgr s (SRunKeyC p n) = Some s' ->
  s_said s' = s_said s ++ [Interrupted p] /\ s_call s' = None /\ w_current (s_w s') = None.
Proof. exact key_at_start. Qed.
Print Assumptions C106_at_start_partial.
(** False in the ordinary case: as long as nothing of the pipeline has ended, a CTRL-C
    while the shell waits raises a bare KeyboardInterrupt, wherever it is handled, and the
    wait() is still going on. *)
Theorem C106_keyboard_refuted : forall mgr s p s1 ls s2, shell_reached mgr s -> pl_running (s_w s) p = true -> sstep mgr s (SRun p) = Some s1 ->
  Forall waiting_label ls -> ssteps mgr s1 ls = Some s2 -> no_fg (s_w s2) -> all_running (s_w s2) p ->
  (forall a s3, sstep mgr s2 (SKeyC a) = Some s3 -> s_said s3 = s_said s2 ++ [Keyboard] /\ s_w s3 = s_w s2 /\ waits_for (s_w s3) (w_nw (s_w s)) p) /\
  (w_reaping (s_w s2) = false -> exists s3, sstep mgr s2 (SKeyC InLoop) = Some s3).
Proof. exact keyboard. Qed.
Print Assumptions C106_keyboard_refuted.
(** False: after that the pipeline is still the one that CTRL-Z stops, even while the shell
    waits for another one (of a non-interactive environment), which goes on. *)
Theorem C106_foreground_refuted : forall s p s1 ls s2 s3 q s4 sender, shell_reached Signalfd s -> (forall t, t < w_nw (s_w s) -> exists r, wt_phase (w_wt (s_w s) t) = WDone r) ->
  p_inter (w_pl (s_w s) p) = true -> pl_running (s_w s) p = true -> sstep Signalfd s (SRun p) = Some s1 -> Forall waiting_label ls ->
  ssteps Signalfd s1 ls = Some s2 -> no_fg (s_w s2) -> all_running (s_w s2) p -> sstep Signalfd s2 (SKeyC InLoop) = Some s3 ->
  q <> p -> p_inter (w_pl (s_w s3) q) = false -> pl_running (s_w s3) q = true -> sstep Signalfd s3 (SRun q) = Some s4 ->
  exists s5, ssteps Signalfd s4 [SKeyZ; SReadZ sender; SLoop (LResume (w_nw (s_w s)))] = Some s5 /\ stopped_all (s_w s5) p /\
    wt_phase (w_wt (s_w s5) (w_nw (s_w s))) = WDone RSuspended /\ exists u, s_call s5 = Some u /\ wt_pl (w_wt (s_w s5) u) = q /\ wt_phase (w_wt (s_w s5) u) = WWait.
Proof. exact stops_other. Qed.
Print Assumptions C106_foreground_refuted.
(** False: when the wait() left behind by a CTRL-C ends during a later call, a CTRL-Z no
    longer does anything in that call (until another wait() begins). *)
Theorem C106_left_behind_refuted : forall mgr s t r s1 sender s2, shell_reached mgr s -> sstep mgr s (SLoop (LResume t)) = Some s1 -> wt_phase (w_wt (s_w s1) t) = WDone r ->
  sstep mgr s1 (SReadZ sender) = Some s2 -> s_call s2 = s_call s /\ w_wt (s_w s2) = w_wt (s_w s1) /\ w_pl (s_w s2) = w_pl (s_w s1) /\ w_kills (s_w s2) = w_kills (s_w s1).
Proof. exact abandoned_ends. Qed.
Print Assumptions C106_left_behind_refuted.
(** False when the SIGINT kills a process of the pipeline: whatever happens, no wait() for it
    ever returns or fails, and it counts as running for ever. *)
Theorem C106_killed_refuted : forall mgr s i p ls s', shell_reached mgr s -> In i (p_items (w_pl (s_w s) p)) -> is_proc (s_w s) i -> killed (s_w s) i ->
  Forall no_inner ls -> ssteps mgr s ls = Some s' ->
  (forall t r, t < w_nw (s_w s') -> wt_pl (w_wt (s_w s') t) = p -> wt_phase (w_wt (s_w s') t) = WDone r -> r = RSuspended) /\ pl_running (s_w s') p = true.
Proof. exact killed_lost. Qed.
Print Assumptions C106_killed_refuted.
(** C106, where it holds: a later wait() for the same pipeline returns when everything of it
    has exited, although the earlier one was left behind. *)
Theorem C106_wait_again_partial : forall mgr s p s1 ls s2, shell_reached mgr s -> pl_running (s_w s) p = true -> none_woken (s_w s) p -> sstep mgr s (SRun p) = Some s1 ->
  Forall during ls -> ssteps mgr s1 ls = Some s2 -> no_fg (s_w s2) -> quiescent mgr (s_w s2) -> p_bad (w_pl (s_w s2) p) = false ->
  (forall i, In i (p_items (w_pl (s_w s2) p)) -> ended_well (s_w s2) i) ->
  exists r s3, sstep mgr s2 SEnd = Some s3 /\ s_said s3 = s_said s ++ [Returned r p].
Proof. exact wait_again. Qed.
Print Assumptions C106_wait_again_partial.

Definition said (mgr : manager) (ls : list slabel) : option (list answer) := match ssteps mgr s_init ls with Some s => Some (s_said s) | None => None end.
Definition sees (mgr : manager) (ls : list slabel) (f : world -> bool) : bool := match ssteps mgr s_init ls with Some s => f (s_w s) | None => false end.
Definition waiting (w : world) (t : nat) : bool := match wt_phase (w_wt w t) with WWait => true | _ => false end.
Definition exits (pid : N) (i : nat) : list slabel := [SChild pid (CExit 0); SLoop LSigchld; SLoop (LReap pid); SLoop LReapEnd; SLoop (LTask i)].
Example C106_nonvacuous :
  (* inside wait(), at its beginning, and in the loop *)
  said Signalfd ([SStart [SProc 10; SFun] true false; SRun 0] ++ exits 10 0 ++ [SKeyC InWait]) = Some [Interrupted 0] /\
  said Signalfd [SStart [SProc 10; SProc 11] true false; SRunKeyC 0 1] = Some [Interrupted 0] /\
  said Signalfd [SStart [SProc 10] true false; SRun 0; SChild 10 (CStop 19); SLoop LSigchld; SLoop (LReap 10); SLoop LReapEnd; SKeyC InLoop] = Some [Keyboard] /\
  (* the interrupted pipeline is stopped by a CTRL-Z during another wait() *)
  sees Signalfd [SStart [SProc 10] true false; SStart [SProc 11] false false; SRun 0; SKeyC InLoop; SRun 1; SKeyZ; SReadZ 0; SLoop (LResume 0)]
    (fun w => waiting w 1 && existsb (fun k => (k_pid k =? 10)%N && (k_sig k =? SIGSTOP)%N) (w_kills w) && negb (existsb (fun k => (k_pid k =? 11)%N && (k_sig k =? SIGSTOP)%N) (w_kills w))) = true /\
  (* the one left behind ends while the shell waits for another: CTRL-Z does nothing *)
  sees Signalfd ([SStart [SProc 10] true false; SStart [SProc 11] true false; SRun 0; SKeyC InLoop; SRun 1] ++ exits 10 0 ++ [SLoop (LResume 0); SKeyZ; SReadZ 0])
    (fun w => waiting w 1 && pl_running w 1 && negb (existsb (fun k => (k_sig k =? SIGSTOP)%N) (w_kills w))) = true /\
  (* the SIGINT kills the process *)
  sees Signalfd [SStart [SProc 10] true false; SRun 0; SKeyC InLoop; SChild 10 (CKill 2 false); SRun 0; SLoop LSigchld; SLoop (LReap 10); SLoop LReapEnd]
    (fun w => waiting w 1 && pl_running w 0) = true /\
  (* waiting again *)
  said Signalfd ([SStart [SProc 10] true false; SRun 0; SKeyC InLoop; SRun 0] ++ exits 10 0 ++ [SLoop (LResume 1); SEnd]) = Some [Keyboard; Returned ROk 0].
Proof. vm_compute. repeat split. Qed.

(** C107, where it holds: with no other wait() going on, a CTRL-Z that is hit and read while
    the shell waits for an interactive pipeline suspends that pipeline. *)
Theorem C107_same_call_partial : forall s p s1 ls s2 sender, shell_reached Signalfd s -> (forall t, t < w_nw (s_w s) -> exists r, wt_phase (w_wt (s_w s) t) = WDone r) ->
  p_inter (w_pl (s_w s) p) = true -> pl_running (s_w s) p = true -> sstep Signalfd s (SRun p) = Some s1 -> Forall waiting_label ls -> ssteps Signalfd s1 ls = Some s2 ->
  no_fg (s_w s2) -> w_reaping (s_w s2) = false -> (forall r, wt_phase (w_wt (s_w s2) (w_nw (s_w s))) <> WDone r) ->
  exists s3, ssteps Signalfd s2 [SKeyZ; SReadZ sender; SLoop (LResume (w_nw (s_w s))); SEnd] = Some s3 /\ s_said s3 = s_said s ++ [Returned RSuspended p] /\ s_tstp s3 = false /\ stopped_all (s_w s3) p.
Proof. exact (fun s p s1 ls s2 sender => suspends_same Signalfd s p s1 ls s2 sender eq_refl). Qed.
Print Assumptions C107_same_call_partial.
(** False otherwise: a CTRL-Z that was not read stays pending, at the prompt and across calls,
    and stops the next pipeline that the shell waits for as soon as it is run. *)
Theorem C107_stays_pending_refuted : forall mgr s l s', s_tstp s = true -> sstep mgr s l = Some s' -> (forall z, l <> SReadZ z) -> s_tstp s' = true.
Proof. exact pending_kept. Qed.
Print Assumptions C107_stays_pending_refuted.
Theorem C107_suspends_next_refuted : forall s q sender, shell_reached Signalfd s -> s_call s = None -> s_tstp s = true -> w_reaping (s_w s) = false -> q < w_np (s_w s) ->
  p_inter (w_pl (s_w s) q) = true -> pl_running (s_w s) q = true ->
  exists s', ssteps Signalfd s [SRun q; SReadZ sender; SLoop (LResume (w_nw (s_w s))); SEnd] = Some s' /\ s_said s' = s_said s ++ [Returned RSuspended q] /\ stopped_all (s_w s') q.
Proof. exact suspends_next. Qed.
Print Assumptions C107_suspends_next_refuted.
Example C107_nonvacuous :
  said Signalfd [SStart [SProc 10] true false; SRun 0; SKeyZ; SReadZ 0; SLoop (LResume 0); SEnd] = Some [Returned RSuspended 0] /\
  (* hit at the prompt, before the pipeline was even started *)
  said Signalfd [SKeyZ; SStart [SProc 10; SFun] true false; SRun 0; SReadZ 0; SLoop (LResume 0); SEnd] = Some [Returned RSuspended 0] /\
  (* hit while pipeline 0 was in the foreground *)
  said Signalfd ([SStart [SProc 10] true false; SRun 0] ++ exits 10 0 ++ [SKeyZ; SLoop (LResume 0); SEnd; SStart [SProc 11] true false; SRun 1; SReadZ 0; SLoop (LResume 1); SEnd])
    = Some [Returned ROk 0; Returned RSuspended 1].
Proof. vm_compute. repeat split. Qed.

(** C109, false of the code: when every process of the pipeline the shell waits for has
    stopped, the call goes on, whatever happens as long as none of them is continued and
    the shell's own CTRL-Z handling (signalfd manager) does not come in. *)
Theorem C109_stopped_refuted : forall mgr s p s1 ls s2, shell_reached mgr s -> pl_running (s_w s) p = true -> sstep mgr s (SRun p) = Some s1 -> Forall (unsuspended mgr) ls ->
  ssteps mgr s1 ls = Some s2 -> no_fg (s_w s2) -> all_stopped (s_w s2) p -> sstep mgr s2 SEnd = None /\ s_said s2 = s_said s.
Proof. exact stopped_waits. Qed.
Print Assumptions C109_stopped_refuted.
Definition stops (pid : N) (n : N) : list slabel := [SChild pid (CStop n); SLoop LSigchld; SLoop (LReap pid); SLoop LReapEnd].
Example C109_nonvacuous :
  (* kill -STOP from elsewhere *)
  sees Signalfd ([SStart [SProc 10; SProc 11] true false; SRun 0] ++ stops 10 19 ++ stops 11 19)
    (fun w => waiting w 0 && negb (w_chld w) && forallb (fun i => match w_hist w i with [CStop 19] => true | _ => false end) [0; 1]) = true /\
  (* CTRL-Z with the asyncio manager: the terminal stops the program, the shell waits on *)
  sees Asyncio ([SStart [SProc 10] true false; SRun 0; SKeyZ; SChild 10 (CStop 20); SReadZ 0; SLoop (LReap 10); SLoop LReapEnd])
    (fun w => waiting w 0 && match w_hist w 0 with [CStop 20] => true | _ => false end) = true /\
  said Asyncio ([SStart [SProc 10] true false; SRun 0; SKeyZ; SChild 10 (CStop 20); SReadZ 0; SLoop (LReap 10); SLoop LReapEnd]) = Some [] /\
  said Asyncio ([SStart [SProc 10] true false; SRun 0; SKeyZ; SChild 10 (CStop 20); SReadZ 0; SLoop (LReap 10); SLoop LReapEnd; SEnd]) = None.
Proof. vm_compute. repeat split. Qed.
