(** Property theorems C13-C17, C19, C20 (reader side), C47, C48: python code
    reading from and writing to pipes. *)
From Verif Require Import Py IterModel IterSpec IterProofs IterOut.



(** C13.  However the writer's chunks, the reads and the consumer interleave,
    the consumer has a prefix of the lines written so far, and all of them once
    the iteration has ended.  ([is_lines] is a relation, so first: every stream
    has exactly one list of lines.) *)
Theorem C13_lines_well_defined : forall d, exists ls, is_lines d ls /\ forall ls', is_lines d ls' -> ls' = ls.
Proof. exact is_lines_one. Qed.
Print Assumptions C13_lines_well_defined.

Theorem C13_lines_delivered : forall ae ls s lines,
  line_steps ae line_start ls = Some s -> is_lines (r_sent s) lines ->
  prefix (items_of (r_out s)) lines /\ (ended (r_out s) -> items_of (r_out s) = lines).
Proof. exact lines_delivered. Qed.
Print Assumptions C13_lines_delivered.

Example C13_nonvacuous :
  exists s, line_steps true line_start
    [LNext; LFeed [97; 10; 98]%N; LReadable 1; LWake; LReadable 2; LWake; LNext; LClose; LReadable 0; LWake; LNext; LAtEof true] = Some s
    /\ r_out s = [GItem [97]%N; GItem [98]%N; GStop].
Proof. eexists. split; vm_compute; reflexivity. Qed.
Example C13_lines_example : is_lines [97; 10; 10; 98]%N [[97]; []; [98]]%N.
Proof.
  split.
  - repeat constructor; cbn; unfold nl; intuition discriminate.
  - right. split; [reflexivity|]. split; [discriminate|]. cbn. discriminate.
Qed.

(** C14.  A consumer that waits, with a newline or the end of file on its way,
    is served within a bounded number of iterations of the event loop, whatever
    amounts the reads return. *)
Theorem C14_consumer_served : forall ae ls s, line_steps ae line_start ls = Some s ->
  waiting s -> due s ->
  forall ns, List.length (r_pend s) + 2 <= List.length ns ->
  exists i, i < List.length ns /\ served s (fold_left (line_round ae) (firstn (S i) ns) s).
Proof. exact consumer_served. Qed.
Print Assumptions C14_consumer_served.

Theorem C14_byte_consumer_served : forall ae ls s, byte_steps ae byte_start ls = Some s ->
  r_phase s = PWait -> (r_wopen s = false \/ r_pend s <> []) ->
  forall n m, bserved s (byte_round ae (byte_round ae s n) m).
Proof. exact byte_consumer_served. Qed.
Print Assumptions C14_byte_consumer_served.

Example C14_nonvacuous : exists s, line_steps true line_start [LNext; LFeed [97; 98; 10]%N] = Some s /\ waiting s /\ due s.
Proof. eexists. split; [vm_compute; reflexivity|]. split; [left; reflexivity|right; cbn; auto]. Qed.

(** C15 *)
Theorem C15_bytes_delivered : forall ae ls s, byte_steps ae byte_start ls = Some s ->
  prefix (List.concat (items_of (r_out s))) (r_sent s) /\
  (ended (r_out s) -> List.concat (items_of (r_out s)) = r_sent s).
Proof. exact bytes_delivered. Qed.
Print Assumptions C15_bytes_delivered.
Example C15_nonvacuous :
  exists s, byte_steps true byte_start
    [LFeed [97; 10; 98]%N; LReadable 2; LNext; LNext; LReadable 1; LWake; LClose; LNext; LReadable 0; LWake; LNext; LAtEof true] = Some s
    /\ r_out s = [GItem [97; 10]%N; GItem [98]%N; GItem []; GStop].
Proof. eexists. split; vm_compute; reflexivity. Qed.

(** C16.  Whatever the schedule (with complete writes), at each moment exactly
    the first k values have been written, at most one request to the iterator is
    pending, and once closed everything has been written, the descriptor was
    closed once and the iterator's end was recorded.  And an open handler can
    always advance. *)
Theorem C16_items_written : forall items e ls s, Forall full ls -> osteps (o_init items e) ls = Some s ->
  (exists k, o_written s = rendered (firstn k items)) /\
  o_inflight s <= 1 /\
  (o_open s = true -> o_closes s = 0 /\ o_done s = None) /\
  (o_open s = false -> o_written s = rendered items /\ o_closes s = 1 /\ o_done s = Some (end_result e)).
Proof. exact items_written. Qed.
Print Assumptions C16_items_written.
Theorem C16_not_stuck : forall items e ls s, Forall nofail ls -> osteps (o_init items e) ls = Some s -> o_open s = true ->
  exists ls' s', Forall full ls' /\ osteps s ls' = Some s' /\
    (o_open s' = false \/ List.length (o_items s') < List.length (o_items s)).
Proof. exact output_not_stuck. Qed.
Print Assumptions C16_not_stuck.
Example C16_nonvacuous : exists s, osteps (o_init [Some [97]; None; Some [98]]%N EStop)
    [OWritable; OWritable; OStart; OStart; OYield WFull; OWritable; OStart; OYield WFull; OWritable; OStart; OYield WFull; OWritable; OStart; OYield WFull] = Some s
  /\ o_open s = false /\ o_written s = [97; 10; 98; 10]%N.
Proof. eexists. vm_compute. auto. Qed.

(** C17 *)
Theorem C17_function_to_function : forall cap pipe_buf items ls s,
  Forall (fun v => ~ In nl v) (values items) ->
  csteps cap pipe_buf (c_init items) ls = Some s ->
  prefix (items_of (r_out (c_r s))) (values items) /\
  (ended (r_out (c_r s)) -> items_of (r_out (c_r s)) = values items).
Proof. exact function_to_function. Qed.
Print Assumptions C17_function_to_function.
Theorem C17_small_output_never_blocks : forall cap pipe_buf items ls s,
  List.length (rendered items) <= cap ->
  csteps cap pipe_buf (c_init items) ls = Some s -> c_blocked s = false.
Proof. exact small_output_never_blocks. Qed.
Print Assumptions C17_small_output_never_blocks.
Example C17_nonvacuous : exists s, csteps 8 4 (c_init [Some [97]; Some [98]]%N)
  [CR LNext; CW OWritable; CW OStart; CW (OYield WFull); CR (LReadable 2); CR LWake; CW OWritable; CW OStart; CW (OYield WFull);
   CR (LReadable 1); CR (LReadable 1); CR LNext; CW OWritable; CW OStart; CW (OYield WFull); CR (LReadable 0); CR LNext] = Some s
  /\ r_out (c_r s) = [GItem [97]%N; GItem [98]%N; GStop].
Proof. eexists. vm_compute. auto. Qed.

(** C19: true when no write fails; after a failed write a pending task writes to
    the descriptor that was just closed. *)
Theorem C19_no_late_write_partial : forall items e ls s, Forall nofail ls -> osteps (o_init items e) ls = Some s ->
  o_late s = 0 /\ o_closes s <= 1.
Proof. exact no_late_write. Qed.
Print Assumptions C19_no_late_write_partial.
(** Also when writes fail: closed exactly once, never again. *)
Theorem C19_closed_once : forall items e ls s, osteps (o_init items e) ls = Some s ->
  o_closes s = if o_open s then 0 else 1.
Proof. exact closed_at_most_once. Qed.
Print Assumptions C19_closed_once.
Theorem C19_late_write_refuted : forall v1 v2 rest e (x : exn), exists ls s,
  osteps (o_init (Some v1 :: Some v2 :: rest) e) ls = Some s /\ o_late s = 1.
Proof. exact late_write. Qed.
Print Assumptions C19_late_write_refuted.

(** C20, reader side: the iteration ends (or fails) only after its at_eof
    coroutine finished normally (or raised), and all lines have been
    delivered by then. *)
Theorem C20_end_after_wait : forall ls s lines, line_steps true line_start ls = Some s -> is_lines (r_sent s) lines ->
  (In GStop (r_out s) -> In (LAtEof true) ls /\ items_of (r_out s) = lines) /\
  (In GFailed (r_out s) -> In (LAtEof false) ls /\ items_of (r_out s) = lines).
Proof. exact end_after_wait. Qed.
Print Assumptions C20_end_after_wait.

(** C47 is false: whenever os.write is short the rest of the item is dropped and
    the function counts as successful. *)
Theorem C47_short_write_refuted : forall v n, n < List.length (v ++ [nl]) -> exists ls s,
  osteps (o_init [Some v] EStop) ls = Some s /\ o_done s = Some None /\ o_written s <> rendered [Some v].
Proof. exact short_write_loses. Qed.
Print Assumptions C47_short_write_refuted.

(** C48 is false: for every pipe capacity, with items no larger than what poll
    guarantees, a function piped to a function can block the shell forever. *)
Theorem C48_functions_deadlock_refuted : forall cap pipe_buf, 1 <= pipe_buf <= cap -> forall v, List.length v + 1 = pipe_buf ->
  exists n ls s,
    csteps cap pipe_buf (c_init (repeat (Some v) n)) ls = Some s /\
    (forall l, cstep cap pipe_buf s l = None) /\ o_open (c_w s) = true.
Proof. exact deadlock. Qed.
Print Assumptions C48_functions_deadlock_refuted.
