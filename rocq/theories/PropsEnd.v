(** C20: the end of an iteration and the end of the pipeline together. *)
From Verif Require Import Py WorldModel WorldSpec WorldProofs WorldWait WorldStep WorldMore PropsWorld.
From Verif Require Import IterModel IterSpec IterProofs IterOut.

(** C20, with the pipeline: an iteration over the output of a pipeline whose
    at_eof is the pipeline's wait() (it finishes normally iff the wait() does)
    ends normally only if every process succeeded, and the iteration fails only
    if the wait() did; all lines have been delivered in both cases. *)
Theorem C20_iteration_end_is_success : forall mgr w t r ls s lines,
  reachable mgr w -> t < w_nw w -> wt_phase (w_wt w t) = WDone r ->
  line_steps true line_start ls = Some s -> is_lines (r_sent s) lines ->
  (forall b, In (LAtEof b) ls -> (b = true <-> r = ROk)) ->
  (In GStop (r_out s) -> items_of (r_out s) = lines /\ forall i, In i (p_items (w_pl w (wt_pl (w_wt w t)))) -> all_succeeded w i) /\
  (In GFailed (r_out s) -> items_of (r_out s) = lines /\ (r = RFailed \/ r = RSuspended)).
Proof.
  intros mgr w t r ls s lines R L H S Ln Hae. destruct (end_after_wait ls s lines S Ln) as [E1 E2]. split.
  - intros X. destruct (E1 X) as [Y Z]. split; [exact Z|]. apply (C26_success_is_true mgr w t); auto. rewrite H. f_equal. now apply (Hae true Y).
  - intros X. destruct (E2 X) as [Y Z]. split; [exact Z|]. destruct r; auto. destruct (Hae false Y) as [_ W]. discriminate (W eq_refl).
Qed.
Print Assumptions C20_iteration_end_is_success.
Example C20_nonvacuous : exists s, line_steps true line_start [LFeed [97; 10]%N; LClose; LReadable 2; LNext; LNext; LReadable 0; LWake; LAtEof true] = Some s /\ In GStop (r_out s).
Proof. eexists. split; [vm_compute; reflexivity|]. cbn. auto. Qed.

