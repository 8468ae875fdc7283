(** C113: bytes() of, and iterating over, a pipeline whose programs already run while
    it is being started.  [held] are the ends of pipes that pieshell and its children still
    hold meanwhile, for as long as the scheduler likes: any of them, in any number. *)
From Verif Require Import Py RedirModel Os PerformModel PerformSpec RunModel RunSpec RunTopSpec RunEnds PropsRun IterModel IterSpec NetModel NetSpec NetProofs NetTop EarlyModel EarlyTop PropsNet.

(** What the programs compute one after the other is delivered: a prefix of it at
    any time, all of it when the iteration has ended. *)
Theorem C113_bytes : forall L pf logfd maxfd c cs s s' its x cap progs held inp out oks,
  launched L pf logfd maxfd c cs s s' its x -> 
  List.length progs = S (List.length cs) -> all_do progs inp out oks ->
  forall ls t, starting_bytes L logfd maxfd cap s s' its x held (starting byte_init progs held inp) ls = Some t ->
  prefix (List.concat (items_of (r_out (n_rd t)))) out /\
  (ended (r_out (n_rd t)) -> List.concat (items_of (r_out (n_rd t))) = out).
Proof.
  intros L pf logfd maxfd c cs s s' its x cap progs held inp out oks HL Hl Ha ls t E.
  destruct (do_facts cs progs inp out Hl oks Ha) as (ws & cs0 & F).
  exact (proj1 (early_bytes L pf logfd maxfd c cs s s' its x HL cap progs held inp out Hl _ _ ws cs0 F ls t E)).
Qed.
Print Assumptions C113_bytes.
(** Iterating gives the lines of it. *)
Theorem C113_lines : forall L pf logfd maxfd c cs s s' its x cap progs held inp out oks lines,
  launched L pf logfd maxfd c cs s s' its x -> 
  List.length progs = S (List.length cs) -> all_do progs inp out oks -> is_lines out lines ->
  forall ls t, starting_lines L logfd maxfd cap s s' its x held (starting line_init progs held inp) ls = Some t ->
  prefix (items_of (r_out (n_rd t))) lines /\
  (ended (r_out (n_rd t)) -> items_of (r_out (n_rd t)) = lines).
Proof.
  intros L pf logfd maxfd c cs s s' its x cap progs held inp out oks lines HL Hl Ha Hli ls t E.
  destruct (do_facts cs progs inp out Hl oks Ha) as (ws & cs0 & F).
  exact (proj1 (early_lines L pf logfd maxfd c cs s s' its x HL cap progs held inp out Hl _ _ ws cs0 F ls t E) lines Hli).
Qed.
Print Assumptions C113_lines.
(** No schedule leads to a state from which the iteration cannot be brought to its
    end, whatever is still being held. *)
Theorem C113_bytes_no_deadlock : forall L pf logfd maxfd c cs s s' its x cap progs held inp out oks,
  launched L pf logfd maxfd c cs s s' its x -> 0 < cap ->
  List.length progs = S (List.length cs) -> all_do progs inp out oks -> Forall careful progs ->
  forall ls t, starting_bytes L logfd maxfd cap s s' its x held (starting byte_init progs held inp) ls = Some t ->
  exists ls' t', starting_bytes L logfd maxfd cap s s' its x held t ls' = Some t' /\ ended (r_out (n_rd t')).
Proof.
  intros L pf logfd maxfd c cs s s' its x cap progs held inp out oks HL Hc Hl Ha Hcare ls t E.
  destruct (do_facts cs progs inp out Hl oks Ha) as (ws & cs0 & F).
  exact (proj1 (proj2 (early_bytes L pf logfd maxfd c cs s s' its x HL cap progs held inp out Hl _ _ ws cs0 F ls t E)) Hcare Hc).
Qed.
Print Assumptions C113_bytes_no_deadlock.
Theorem C113_lines_no_deadlock : forall L pf logfd maxfd c cs s s' its x cap progs held inp out oks,
  launched L pf logfd maxfd c cs s s' its x -> 0 < cap ->
  List.length progs = S (List.length cs) -> all_do progs inp out oks -> Forall careful progs ->
  forall ls t, starting_lines L logfd maxfd cap s s' its x held (starting line_init progs held inp) ls = Some t ->
  exists ls' t', starting_lines L logfd maxfd cap s s' its x held t ls' = Some t' /\ ended (r_out (n_rd t')).
Proof.
  intros L pf logfd maxfd c cs s s' its x cap progs held inp out oks HL Hc Hl Ha Hcare ls t E.
  destruct (do_facts cs progs inp out Hl oks Ha) as (ws & cs0 & F).
  exact (proj1 (proj2 (early_lines L pf logfd maxfd c cs s s' its x HL cap progs held inp out Hl _ _ ws cs0 F ls t E)) Hcare Hc).
Qed.
Print Assumptions C113_lines_no_deadlock.
(** The programs make a bounded number of steps (and the holders one each). *)
Theorem C113_bytes_finite : forall L pf logfd maxfd c cs s s' its x cap progs held inp out oks,
  launched L pf logfd maxfd c cs s s' its x -> 
  List.length progs = S (List.length cs) -> all_do progs inp out oks -> Forall careful progs ->
  exists B, forall ls t, starting_bytes L logfd maxfd cap s s' its x held (starting byte_init progs held inp) ls = Some t ->
  List.length (filter proc_label ls) <= B.
Proof.
  intros L pf logfd maxfd c cs s s' its x cap progs held inp out oks HL Hl Ha Hcare.
  pose proof (all_do_nth _ _ _ _ Ha) as (_ & _ & _ & _ & Lo).
  destruct (do_facts cs progs inp out Hl oks Ha) as (ws & cs0 & F).
  exists (total cs0 (List.length cs) + List.length held). intros ls t E.
  apply (proj2 (proj2 (proj2 (early_bytes L pf logfd maxfd c cs s s' its x HL cap progs held inp out Hl _ _ ws cs0 F ls t E))) Hcare).
  intros i Hi. apply nth_error_Some. lia.
Qed.
Print Assumptions C113_bytes_finite.
Theorem C113_lines_finite : forall L pf logfd maxfd c cs s s' its x cap progs held inp out oks,
  launched L pf logfd maxfd c cs s s' its x -> 
  List.length progs = S (List.length cs) -> all_do progs inp out oks -> Forall careful progs ->
  exists B, forall ls t, starting_lines L logfd maxfd cap s s' its x held (starting line_init progs held inp) ls = Some t ->
  List.length (filter proc_label ls) <= B.
Proof.
  intros L pf logfd maxfd c cs s s' its x cap progs held inp out oks HL Hl Ha Hcare.
  pose proof (all_do_nth _ _ _ _ Ha) as (_ & _ & _ & _ & Lo).
  destruct (do_facts cs progs inp out Hl oks Ha) as (ws & cs0 & F).
  exists (total cs0 (List.length cs) + List.length held). intros ls t E.
  apply (proj2 (proj2 (proj2 (early_lines L pf logfd maxfd c cs s s' its x HL cap progs held inp out Hl _ _ ws cs0 F ls t E))) Hcare).
  intros i Hi. apply nth_error_Some. lia.
Qed.
Print Assumptions C113_lines_finite.
(** The same when programs that go on for ever come before ones that do not read
    everything. *)
Theorem C113_endless_bytes : forall L pf logfd maxfd c cs s s' its x cap progs held inp out,
  launched L pf logfd maxfd c cs s s' its x -> 
  List.length progs = S (List.length cs) -> all_give progs inp true out true ->
  forall ls t, starting_bytes L logfd maxfd cap s s' its x held (starting byte_init progs held inp) ls = Some t ->
  prefix (List.concat (items_of (r_out (n_rd t)))) out /\
  (ended (r_out (n_rd t)) -> List.concat (items_of (r_out (n_rd t))) = out).
Proof.
  intros L pf logfd maxfd c cs s s' its x cap progs held inp out HL Hl Ha ls t E.
  destruct (give_facts cs progs inp out Hl Ha) as (es & ws & cs0 & F).
  exact (proj1 (early_bytes L pf logfd maxfd c cs s s' its x HL cap progs held inp out Hl _ _ ws cs0 F ls t E)).
Qed.
Print Assumptions C113_endless_bytes.
Theorem C113_endless_lines : forall L pf logfd maxfd c cs s s' its x cap progs held inp out lines,
  launched L pf logfd maxfd c cs s s' its x -> 
  List.length progs = S (List.length cs) -> all_give progs inp true out true -> is_lines out lines ->
  forall ls t, starting_lines L logfd maxfd cap s s' its x held (starting line_init progs held inp) ls = Some t ->
  prefix (items_of (r_out (n_rd t))) lines /\
  (ended (r_out (n_rd t)) -> items_of (r_out (n_rd t)) = lines).
Proof.
  intros L pf logfd maxfd c cs s s' its x cap progs held inp out lines HL Hl Ha Hli ls t E.
  destruct (give_facts cs progs inp out Hl Ha) as (es & ws & cs0 & F).
  exact (proj1 (early_lines L pf logfd maxfd c cs s s' its x HL cap progs held inp out Hl _ _ ws cs0 F ls t E) lines Hli).
Qed.
Print Assumptions C113_endless_lines.
Theorem C113_endless_bytes_no_deadlock : forall L pf logfd maxfd c cs s s' its x cap progs held inp out,
  launched L pf logfd maxfd c cs s s' its x -> 0 < cap ->
  List.length progs = S (List.length cs) -> all_give progs inp true out true -> Forall careful progs ->
  forall ls t, starting_bytes L logfd maxfd cap s s' its x held (starting byte_init progs held inp) ls = Some t ->
  exists ls' t', starting_bytes L logfd maxfd cap s s' its x held t ls' = Some t' /\ ended (r_out (n_rd t')).
Proof.
  intros L pf logfd maxfd c cs s s' its x cap progs held inp out HL Hc Hl Ha Hcare ls t E.
  destruct (give_facts cs progs inp out Hl Ha) as (es & ws & cs0 & F).
  exact (proj1 (proj2 (early_bytes L pf logfd maxfd c cs s s' its x HL cap progs held inp out Hl _ _ ws cs0 F ls t E)) Hcare Hc).
Qed.
Print Assumptions C113_endless_bytes_no_deadlock.
Theorem C113_endless_lines_no_deadlock : forall L pf logfd maxfd c cs s s' its x cap progs held inp out,
  launched L pf logfd maxfd c cs s s' its x -> 0 < cap ->
  List.length progs = S (List.length cs) -> all_give progs inp true out true -> Forall careful progs ->
  forall ls t, starting_lines L logfd maxfd cap s s' its x held (starting line_init progs held inp) ls = Some t ->
  exists ls' t', starting_lines L logfd maxfd cap s s' its x held t ls' = Some t' /\ ended (r_out (n_rd t')).
Proof.
  intros L pf logfd maxfd c cs s s' its x cap progs held inp out HL Hc Hl Ha Hcare ls t E.
  destruct (give_facts cs progs inp out Hl Ha) as (es & ws & cs0 & F).
  exact (proj1 (proj2 (early_lines L pf logfd maxfd c cs s s' its x HL cap progs held inp out Hl _ _ ws cs0 F ls t E)) Hcare Hc).
Qed.
Print Assumptions C113_endless_lines_no_deadlock.
(** Whether it ends with an exception: if one of the programs, given all of its
    input, fails, it does. *)
Theorem C113_fails : forall L pf logfd maxfd c cs s s' its x cap progs held inp out oks,
  launched L pf logfd maxfd c cs s s' its x -> List.length progs = S (List.length cs) ->
  all_do progs inp out oks -> Forall careful progs -> In false oks -> forall ls,
  (forall t, starting_bytes L logfd maxfd cap s s' its x held (starting byte_init progs held inp) ls = Some t -> ~ In GStop (r_out (n_rd t))) /\
  (forall t, starting_lines L logfd maxfd cap s s' its x held (starting line_init progs held inp) ls = Some t -> ~ In GStop (r_out (n_rd t))).
Proof.
  intros L pf logfd maxfd c cs s s' its x cap progs held inp out oks HL Hl Ha Hcare Hf ls. pose proof (all_do_nth _ _ _ _ Ha) as (_ & _ & _ & _ & Lo).
  destruct (do_facts cs progs inp out Hl oks Ha) as (ws & cs0 & F). apply In_nth_error in Hf as [i Hi].
  assert (Le : i <= List.length cs) by (assert (i < List.length oks) by (apply nth_error_Some; congruence); lia). split; intros t E.
  - exact (proj1 (proj1 (proj2 (proj2 (early_bytes L pf logfd maxfd c cs s s' its x HL cap progs held inp out Hl _ _ ws cs0 F ls t E)))) Hcare i Le Hi).
  - exact (proj1 (proj1 (proj2 (proj2 (early_lines L pf logfd maxfd c cs s s' its x HL cap progs held inp out Hl _ _ ws cs0 F ls t E)))) Hcare i Le Hi).
Qed.
Print Assumptions C113_fails.
(** If all of them succeed and all but the first read all of their input, it does not. *)
Theorem C113_succeeds : forall L pf logfd maxfd c cs s s' its x cap progs held inp out oks,
  launched L pf logfd maxfd c cs s s' its x -> List.length progs = S (List.length cs) ->
  all_do progs inp out oks -> others_read progs inp -> ~ In false oks -> forall ls,
  (forall t, starting_bytes L logfd maxfd cap s s' its x held (starting byte_init progs held inp) ls = Some t -> ~ In GFailed (r_out (n_rd t))) /\
  (forall t, starting_lines L logfd maxfd cap s s' its x held (starting line_init progs held inp) ls = Some t -> ~ In GFailed (r_out (n_rd t))).
Proof.
  intros L pf logfd maxfd c cs s s' its x cap progs held inp out oks HL Hl Ha Hr Hf ls. pose proof (all_do_nth _ _ _ _ Ha) as (_ & _ & _ & _ & Lo).
  destruct (do_facts cs progs inp out Hl oks Ha) as (ws & cs0 & F).
  assert (Tr : forall i, i <= List.length cs -> nth_error oks i = Some true).
  { intros i Hi. destruct (nth_error oks i) as [[|]|] eqn:Ei; [reflexivity| |]; [now apply nth_error_In in Ei|]. apply nth_error_None in Ei. lia. }
  split; intros t E.
  - exact (proj2 (proj1 (proj2 (proj2 (early_bytes L pf logfd maxfd c cs s s' its x HL cap progs held inp out Hl _ _ ws cs0 F ls t E)))) Hr Tr).
  - exact (proj2 (proj1 (proj2 (proj2 (early_lines L pf logfd maxfd c cs s s' its x HL cap progs held inp out Hl _ _ ws cs0 F ls t E)))) Hr Tr).
Qed.
Print Assumptions C113_succeeds.

(** echo 'a\nb' | head -1, with pipes of one byte: the second program has copied its line
    and is gone, but pieshell still holds the reading end of its input (and the child of
    the first program the writing end of the caller's pipe), so that the
    last byte is written to a pipe that nobody reads; only once that end has been
    closed is the caller's end of file reached. *)
Definition held_ends : list ofd := [OPipeR (s_np shell); OPipeW (S (s_np shell))].
Definition early_schedule : list nlabel :=
  [NProc 0; NProc 1; NProc 0; NProc 1; NNext; NReadable 1; NWake; NProc 1; NProc 1; NProc 1; NProc 0; NProc 0; NNext; NReadable 1; NWake; NNext].
Example C113_nonvacuous :
  all_do [writer; head1] [] [97%N; 10%N] [true; true] /\ Forall careful [writer; head1] /\
  launched some_limits (fun _ => true) 63 64 ["echo"%string] [["head"%string]] shell (fst started) started_items started_fd /\
  (match starting_bytes some_limits 63 64 1 shell (fst started) started_items started_fd held_ends (starting byte_init [writer; head1] held_ends []) early_schedule with
   | Some t => n_ok t = true /\ nth 0 (n_procs t) (Some (Exits true)) = None /\ r_wopen (n_rd t) = true /\ r_out (n_rd t) = [GItem [97%N]; GItem [10%N]]
   | None => False
   end) /\
  (match starting_bytes some_limits 63 64 1 shell (fst started) started_items started_fd held_ends (starting byte_init [writer; head1] held_ends [])
      (early_schedule ++ [NProc 2; NProc 3; NReadable 0; NWake; NNext; NAtEof true]) with
   | Some t => r_out (n_rd t) = [GItem [97%N]; GItem [10%N]; GItem []; GStop]
   | None => False
   end) /\
  starting_bytes some_limits 63 64 1 shell (fst started) started_items started_fd held_ends (starting byte_init [writer; head1] held_ends []) (early_schedule ++ [NReadable 0]) = None /\
  bytes_run some_limits 63 64 1 shell (fst started) started_items started_fd (net_start byte_handler byte_init [writer; head1] []) (firstn 12 early_schedule) <> None.
Proof.
  split; [exact writer_head1|]. split; [exact careful_both|]. split; [exact started_launched|].
  split; [vm_compute; repeat split; reflexivity|]. split; [vm_compute; reflexivity|]. split; [vm_compute; reflexivity|]. vm_compute. discriminate.
Qed.
