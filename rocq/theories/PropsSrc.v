(** C88: what bytes() of, and iterating over, a pipeline of programs fed by a
    python iterator gives. *)
From Verif Require Import Py RedirModel Os PerformModel PerformSpec RunModel RunSpec RunTopSpec RunEnds PropsRun IterModel IterSpec IterProofs IterOut NetModel NetSpec NetProofs NetTop PropsNet SrcModel SrcSpec SrcProofs SrcTop.

Lemma gives_cat l : gives cat l true l (Some true).
Proof. induction l as [|b l IH]; rewrite (unfold_eq cat); cbn; constructor; constructor. exact IH. Qed.
(** C88.  bytes(iterator | c1 | ... | cn) is what the programs compute, one after
    the other, from the items of the iterator with a newline after each, for every
    schedule, also when the iterator ends with an exception, and also when
    programs that go on for ever or do not read everything are among them. *)
Theorem C88_bytes : forall L pf logfd maxfd cs s s' its x cap pipe_buf items e progs out,
  sourced L pf logfd maxfd cs s s' its x -> cs <> [] ->
  List.length progs = List.length cs -> all_give progs (rendered items) true out true ->
  forall ls t, bytes_frun L logfd maxfd cap pipe_buf s s' its x (fnet_start byte_handler byte_init items e progs) ls = Some t ->
  prefix (List.concat (items_of (r_out (n_rd (f_net t))))) out /\
  (ended (r_out (n_rd (f_net t))) -> List.concat (items_of (r_out (n_rd (f_net t)))) = out).
Proof.
  intros L pf logfd maxfd cs s s' its x cap pipe_buf items e progs out HL Hc Hl Ha ls t E.
  destruct (src_give_facts cs progs items e out Hl Hc Ha) as (es & ws & cs0 & E0 & F).
  exact (proj1 (src_bytes L pf logfd maxfd cs s s' its x HL Hc cap pipe_buf items e progs out Hl es _ ws cs0 F E0 ls t E)).
Qed.
Print Assumptions C88_bytes.
(** Iterating gives the lines of it. *)
Theorem C88_lines : forall L pf logfd maxfd cs s s' its x cap pipe_buf items e progs out lines,
  sourced L pf logfd maxfd cs s s' its x -> cs <> [] ->
  List.length progs = List.length cs -> all_give progs (rendered items) true out true -> is_lines out lines ->
  forall ls t, lines_frun L logfd maxfd cap pipe_buf s s' its x (fnet_start line_handler line_init items e progs) ls = Some t ->
  prefix (items_of (r_out (n_rd (f_net t)))) lines /\
  (ended (r_out (n_rd (f_net t))) -> items_of (r_out (n_rd (f_net t))) = lines).
Proof.
  intros L pf logfd maxfd cs s s' its x cap pipe_buf items e progs out lines HL Hc Hl Ha Hli ls t E.
  destruct (src_give_facts cs progs items e out Hl Hc Ha) as (es & ws & cs0 & E0 & F).
  exact (proj1 (src_lines L pf logfd maxfd cs s s' its x HL Hc cap pipe_buf items e progs out Hl es _ ws cs0 F E0 ls t E) lines Hli).
Qed.
Print Assumptions C88_lines.
(** list(iterator | cat | ... | cat) gives the values of the iterator back. *)
Theorem C88_through_cat : forall L pf logfd maxfd cs s s' its x cap pipe_buf items e,
  sourced L pf logfd maxfd cs s s' its x -> cs <> [] -> (forall v, In (Some v) items -> ~ In nl v) ->
  forall ls t, lines_frun L logfd maxfd cap pipe_buf s s' its x (fnet_start line_handler line_init items e (map (fun _ => cat) cs)) ls = Some t ->
  prefix (items_of (r_out (n_rd (f_net t)))) (values items) /\
  (ended (r_out (n_rd (f_net t))) -> items_of (r_out (n_rd (f_net t))) = values items).
Proof.
  intros L pf logfd maxfd cs s s' its x cap pipe_buf items e HL Hc Hv ls t E.
  eapply (C88_lines L pf logfd maxfd cs s s' its x cap pipe_buf items e (map (fun _ => cat) cs) (rendered items)); [exact HL|exact Hc|now rewrite map_length| | |exact E].
  - clear. generalize (rendered items). induction cs as [|c cs IH]; intros inp; cbn; [constructor|]. eapply all_give_ends; [apply gives_cat|apply IH].
  - split.
    + apply Forall_forall. intros l Hl. unfold values in Hl. apply in_flat_map in Hl as ([b|] & Hb & Hin); [|destruct Hin]. destruct Hin as [<-|[]]. now apply Hv.
    + left. rewrite rendered_joined. reflexivity.
Qed.
Print Assumptions C88_through_cat.
(** The programs together make a bounded number of steps. *)
Theorem C88_finite : forall L pf logfd maxfd cs s s' its x cap pipe_buf items e progs out oks,
  sourced L pf logfd maxfd cs s s' its x -> cs <> [] ->
  List.length progs = List.length cs -> all_do progs (rendered items) out oks -> Forall careful progs ->
  exists B, (forall ls t, bytes_frun L logfd maxfd cap pipe_buf s s' its x (fnet_start byte_handler byte_init items e progs) ls = Some t ->
               List.length (filter prog_label ls) <= B) /\
            (forall ls t, lines_frun L logfd maxfd cap pipe_buf s s' its x (fnet_start line_handler line_init items e progs) ls = Some t ->
               List.length (filter prog_label ls) <= B).
Proof.
  intros L pf logfd maxfd cs s s' its x cap pipe_buf items e progs out oks HL Hc Hl Ha Hcare.
  pose proof (all_do_nth _ _ _ _ Ha) as (_ & _ & _ & _ & Lo). destruct (src_do_facts cs progs items e out oks Hl Hc Ha) as (ws & cs0 & F).
  assert (X : forall i, i <= List.length cs -> nth_error (iok e :: oks) i <> None) by (intros i Hi; apply nth_error_Some; cbn; lia).
  exists (total cs0 (List.length cs)). split; intros ls t E.
  - exact (proj2 (proj2 (proj2 (proj2 (src_bytes L pf logfd maxfd cs s s' its x HL Hc cap pipe_buf items e progs out Hl _ _ ws cs0 F eq_refl ls t E)))) Hcare X).
  - exact (proj2 (proj2 (proj2 (proj2 (src_lines L pf logfd maxfd cs s s' its x HL Hc cap pipe_buf items e progs out Hl _ _ ws cs0 F eq_refl ls t E)))) Hcare X).
Qed.
Print Assumptions C88_finite.
(** When bytes() or the iteration has ended, no process of the pipeline is left,
    and the function's descriptor is closed. *)
Theorem C88_ended_no_process_left : forall L pf logfd maxfd cs s s' its x cap pipe_buf items e progs out,
  sourced L pf logfd maxfd cs s s' its x -> cs <> [] ->
  List.length progs = List.length cs -> all_give progs (rendered items) true out true -> forall ls,
  (forall t, bytes_frun L logfd maxfd cap pipe_buf s s' its x (fnet_start byte_handler byte_init items e progs) ls = Some t ->
     ended (r_out (n_rd (f_net t))) -> forall i, nth i (n_procs (f_net t)) None = None) /\
  (forall t, lines_frun L logfd maxfd cap pipe_buf s s' its x (fnet_start line_handler line_init items e progs) ls = Some t ->
     ended (r_out (n_rd (f_net t))) -> forall i, nth i (n_procs (f_net t)) None = None).
Proof.
  intros L pf logfd maxfd cs s s' its x cap pipe_buf items e progs out HL Hc Hl Ha ls.
  destruct (src_give_facts cs progs items e out Hl Hc Ha) as (es & ws & cs0 & E0 & F). split; intros t E.
  - exact (proj1 (proj2 (proj2 (proj2 (src_bytes L pf logfd maxfd cs s s' its x HL Hc cap pipe_buf items e progs out Hl es _ ws cs0 F E0 ls t E))))).
  - exact (proj1 (proj2 (proj2 (proj2 (src_lines L pf logfd maxfd cs s s' its x HL Hc cap pipe_buf items e progs out Hl es _ ws cs0 F E0 ls t E))))).
Qed.
Print Assumptions C88_ended_no_process_left.
(** If the iterator raises, or one of the programs fails, bytes() and the
    iteration do not end without an exception. *)
Theorem C88_fails : forall L pf logfd maxfd cs s s' its x cap pipe_buf items e progs out oks,
  sourced L pf logfd maxfd cs s s' its x -> cs <> [] ->
  List.length progs = List.length cs -> all_do progs (rendered items) out oks -> Forall careful progs ->
  e <> EStop \/ In false oks -> forall ls,
  (forall t, bytes_frun L logfd maxfd cap pipe_buf s s' its x (fnet_start byte_handler byte_init items e progs) ls = Some t -> ~ In GStop (r_out (n_rd (f_net t)))) /\
  (forall t, lines_frun L logfd maxfd cap pipe_buf s s' its x (fnet_start line_handler line_init items e progs) ls = Some t -> ~ In GStop (r_out (n_rd (f_net t)))).
Proof.
  intros L pf logfd maxfd cs s s' its x cap pipe_buf items e progs out oks HL Hc Hl Ha Hcare Bad ls.
  pose proof (all_do_nth _ _ _ _ Ha) as (_ & _ & _ & _ & Lo). destruct (src_do_facts cs progs items e out oks Hl Hc Ha) as (ws & cs0 & F).
  assert (X : exists i, i <= List.length cs /\ nth_error (iok e :: oks) i = Some false).
  { destruct Bad as [Ne|Hin]; [exists 0; split; [lia|]; destruct e; [congruence|reflexivity]|]. apply In_nth_error in Hin as [i Hi]. exists (S i). split; [|exact Hi].
    assert (i < List.length oks) by (apply nth_error_Some; congruence). lia. }
  destruct X as (i & Hi & Ei). split; intros t E.
  - exact (proj1 (proj1 (proj2 (proj2 (src_bytes L pf logfd maxfd cs s s' its x HL Hc cap pipe_buf items e progs out Hl _ _ ws cs0 F eq_refl ls t E)))) Hcare i Hi Ei).
  - exact (proj1 (proj1 (proj2 (proj2 (src_lines L pf logfd maxfd cs s s' its x HL Hc cap pipe_buf items e progs out Hl _ _ ws cs0 F eq_refl ls t E)))) Hcare i Hi Ei).
Qed.
Print Assumptions C88_fails.
(** If the iterator ends normally and the programs succeed and read all of their
    input, there is no exception. *)
Theorem C88_succeeds : forall L pf logfd maxfd cs s s' its x cap pipe_buf items progs out oks,
  sourced L pf logfd maxfd cs s s' its x -> cs <> [] ->
  List.length progs = List.length cs -> all_do progs (rendered items) out oks -> all_read progs (rendered items) -> ~ In false oks -> forall ls,
  (forall t, bytes_frun L logfd maxfd cap pipe_buf s s' its x (fnet_start byte_handler byte_init items EStop progs) ls = Some t -> ~ In GFailed (r_out (n_rd (f_net t)))) /\
  (forall t, lines_frun L logfd maxfd cap pipe_buf s s' its x (fnet_start line_handler line_init items EStop progs) ls = Some t -> ~ In GFailed (r_out (n_rd (f_net t)))).
Proof.
  intros L pf logfd maxfd cs s s' its x cap pipe_buf items progs out oks HL Hc Hl Ha Hr Hf ls.
  pose proof (all_do_nth _ _ _ _ Ha) as (_ & _ & _ & _ & Lo). destruct (src_do_facts cs progs items EStop out oks Hl Hc Ha) as (ws & cs0 & F).
  assert (Tr : forall i, i <= List.length cs -> nth_error (iok EStop :: oks) i = Some true).
  { intros [|i] Hi; [reflexivity|]. cbn. destruct (nth_error oks i) as [[|]|] eqn:Ei; [reflexivity| |]; [now apply nth_error_In in Ei|]. apply nth_error_None in Ei. lia. }
  split; intros t E.
  - exact (proj2 (proj1 (proj2 (proj2 (src_bytes L pf logfd maxfd cs s s' its x HL Hc cap pipe_buf items EStop progs out Hl _ _ ws cs0 F eq_refl ls t E)))) Hr Tr).
  - exact (proj2 (proj1 (proj2 (proj2 (src_lines L pf logfd maxfd cs s s' its x HL Hc cap pipe_buf items EStop progs out Hl _ _ ws cs0 F eq_refl ls t E)))) Hr Tr).
Qed.
Print Assumptions C88_succeeds.
(** The full property would be: no schedule can be led into a state from which the
    iteration cannot be brought to its end.  Proved when the programs read all of
    their input and everything the iterator sends fits into one pipe and still
    leaves the free space poll(2) asks for. *)
Theorem C88_no_deadlock_partial : forall L pf logfd maxfd cs s s' its x cap pipe_buf items e progs out oks,
  sourced L pf logfd maxfd cs s s' its x -> cs <> [] -> 0 < pipe_buf -> List.length (rendered items) + pipe_buf <= cap ->
  List.length progs = List.length cs -> all_do progs (rendered items) out oks -> Forall careful progs -> all_read progs (rendered items) ->
  (forall ls t, bytes_frun L logfd maxfd cap pipe_buf s s' its x (fnet_start byte_handler byte_init items e progs) ls = Some t ->
     exists ls' t', bytes_frun L logfd maxfd cap pipe_buf s s' its x t ls' = Some t' /\ ended (r_out (n_rd (f_net t')))) /\
  (forall ls t, lines_frun L logfd maxfd cap pipe_buf s s' its x (fnet_start line_handler line_init items e progs) ls = Some t ->
     exists ls' t', lines_frun L logfd maxfd cap pipe_buf s s' its x t ls' = Some t' /\ ended (r_out (n_rd (f_net t')))).
Proof.
  intros L pf logfd maxfd cs s s' its x cap pipe_buf items e progs out oks HL Hc Hp Hs Hl Ha Hcare Hr.
  destruct (src_do_facts cs progs items e out oks Hl Hc Ha) as (ws & cs0 & F). split; intros ls t E.
  - exact (proj1 (proj2 (src_bytes L pf logfd maxfd cs s s' its x HL Hc cap pipe_buf items e progs out Hl _ _ ws cs0 F eq_refl ls t E)) Hcare Hr Hs Hp).
  - exact (proj1 (proj2 (src_lines L pf logfd maxfd cs s s' its x HL Hc cap pipe_buf items e progs out Hl _ _ ws cs0 F eq_refl ls t E)) Hcare Hr Hs Hp).
Qed.
Print Assumptions C88_no_deadlock_partial.
(** It is false in general: whatever the size of the pipes, [item] | cat with an
    item longer than two of them can come to a complete standstill, with nothing
    delivered: the event loop waits in write(2) for cat, and cat waits for the
    event loop to read. *)
Theorem C88_no_deadlock_refuted : forall L pf logfd maxfd c s s' its x cap pipe_buf v e,
  sourced L pf logfd maxfd [c] s s' its x -> 0 < cap -> pipe_buf <= cap -> 2 * cap < List.length v ->
  (exists ls t, bytes_frun L logfd maxfd cap pipe_buf s s' its x (fnet_start byte_handler byte_init [Some v] e [cat]) ls = Some t /\
     r_out (n_rd (f_net t)) = [] /\ forall ls' t', bytes_frun L logfd maxfd cap pipe_buf s s' its x t ls' = Some t' -> ls' = []) /\
  (exists ls t, lines_frun L logfd maxfd cap pipe_buf s s' its x (fnet_start line_handler line_init [Some v] e [cat]) ls = Some t /\
     r_out (n_rd (f_net t)) = [] /\ forall ls' t', lines_frun L logfd maxfd cap pipe_buf s s' its x t ls' = Some t' -> ls' = []).
Proof.
  intros L pf logfd maxfd c s s' its x cap pipe_buf v e HL Hc Hp Hv. split.
  - destruct (stuck_top L pf logfd maxfd c s s' its x HL cap pipe_buf Hc Hp byte_handler byte_wants byte_event byte_next byte_resume bi_open byte_init v e eq_refl Hv) as (ls & t & E & O & N).
    exists ls, t. split; [exact E|]. split; [exact O|]. intros [|l ls'] t'; [reflexivity|]. unfold bytes_frun. cbn [fsteps]. rewrite N. discriminate.
  - destruct (stuck_top L pf logfd maxfd c s s' its x HL cap pipe_buf Hc Hp line_handler line_wants line_event line_next line_next li_open line_init v e eq_refl Hv) as (ls & t & E & O & N).
    exists ls, t. split; [exact E|]. split; [exact O|]. intros [|l ls'] t'; [reflexivity|]. unfold lines_frun. cbn [fsteps]. rewrite N. discriminate.
Qed.
Print Assumptions C88_no_deadlock_refuted.

(** list(["a", None, "b"] | cat) with pipes of eight bytes. *)
Definition src_started := start some_limits (fun _ => true) true (chain_from (PFun false) [["cat"%string]]) shell.
Definition src_ret := match snd src_started with Ok (r, _) => r | Err _ => None end.
Definition src_items := match snd src_started with Ok (_, l) => l | Err _ => [] end.
Lemma src_started_ok : src_started = (fst src_started, Ok (src_ret, src_items)).
Proof. vm_compute. reflexivity. Qed.
Definition ab : list (option bytes) := [Some [97%N]; None; Some [98%N]].
Definition src_schedule : list flabel :=
  [FWritable; FStart; FYield; FPush; FNet (NProc 1); FPush; FPush; FWritable; FWritable; FWritable; FStart; FYield; FStart; FYield;
   FNet (NProc 1); FPush; FPush; FPush; FStart; FYield;
   FNet (NProc 1); FNet (NProc 1); FNet (NProc 1); FNet (NProc 1); FNet (NProc 1); FNet (NProc 1); FNet (NProc 1); FNet (NProc 1); 
   FNet NNext; FNet (NReadable 4); FNet NWake; FNet NNext; FNet NNext; FNet (NReadable 0); FNet NWake; FTold 1; FTold 0; FNet (NAtEof true)].
Lemma src_sourced : sourced some_limits (fun _ => true) 63 64 [["cat"%string]] shell (fst src_started) src_items (hd 0 (caller_fds src_ret)).
Proof.
  split; [discriminate|]. split; [discriminate|]. split; [discriminate|]. split; [|split; [|split; [lia|split; [lia|]]]].
  - intros n o. do 3 (destruct n as [|n]; [cbn; intros E; injection E as <-; intros []|]). unfold refers. Local Transparent tget. unfold tget. cbn. now destruct n.
  - exists src_ret. split; [exact src_started_ok|]. vm_compute. reflexivity.
  - assert (X3 : forallb roomy (tl src_items) = true) by (vm_compute; reflexivity).
    assert (X4 : match src_items with IFun _ _ _ :: _ => true | _ => false end = true) by (vm_compute; reflexivity).
    destruct src_items as [|it0 l]; [discriminate|]. destruct it0; [discriminate|]. cbn [tl] in X3. clear X4.
    rewrite forallb_forall in X3. intros rs0 t argv [Hit|Hit]; [discriminate|]. specialize (X3 _ Hit). apply andb_prop in X3 as [Y1 Y2]. apply Nat.ltb_lt in Y1.
    assert (lim some_limits = 64) by reflexivity. clear Hit.
    split; [|lia]. split; [lia|]. split; [lia|]. exists 40. split; [lia|]. split; [lia|]. destruct (tget t 40); [discriminate|reflexivity].
Qed.
Example C88_nonvacuous :
  sourced some_limits (fun _ => true) 63 64 [["cat"%string]] shell (fst src_started) src_items (hd 0 (caller_fds src_ret)) /\
  List.length (rendered ab) + 4 <= 8 /\ all_do [cat] (rendered ab) (rendered ab) [true] /\ all_give [cat] (rendered ab) true (rendered ab) true /\
  Forall careful [cat] /\ all_read [cat] (rendered ab) /\
  match lines_frun some_limits 63 64 8 4 shell (fst src_started) src_items (hd 0 (caller_fds src_ret)) (fnet_start line_handler line_init ab EStop [cat]) src_schedule with
  | Some t => r_out (n_rd (f_net t)) = [GItem [97%N]; GItem [98%N]; GStop]
  | None => False
  end.
Proof.
  split; [exact src_sourced|]. split; [cbn; lia|]. split; [econstructor; [apply does_cat|constructor]|]. split; [eapply all_give_ends; [apply gives_cat|constructor]|].
  split; [constructor; [apply careful_cat|constructor]|]. split; [econstructor; [apply reads_all_cat|apply does_cat|constructor]|]. vm_compute. reflexivity.
Qed.
(** An iterator that raises after its values: the values come through, and then
    an exception. *)
Example C88_fails_nonvacuous : forall ex,
  ERaise ex <> EStop /\
  match lines_frun some_limits 63 64 8 4 shell (fst src_started) src_items (hd 0 (caller_fds src_ret)) (fnet_start line_handler line_init [Some [97%N]] (ERaise ex) [cat])
      [FWritable; FStart; FYield; FPush; FPush; FPush; FWritable; FStart; FYield; FNet (NProc 1); FNet (NProc 1); FNet (NProc 1); FNet (NProc 1); FNet (NProc 1); FNet (NProc 1);
       FNet NNext; FNet (NReadable 2); FNet NWake; FNet NNext; FNet (NReadable 0); FNet NWake; FTold 1; FNet (NAtEof false)] with
  | Some t => r_out (n_rd (f_net t)) = [GItem [97%N]; GFailed]
  | None => False
  end.
Proof. split; [discriminate|]. vm_compute. reflexivity. Qed.
(** Without the hypothesis that the programs read all of their input it is false
    as well, also when everything fits into a pipe: list(["a", "b"] | head -1) may wait for ever,
    all programs having exited and been noticed and the iterator's handler having
    failed with EPIPE: when the function is the last to end, and fails, nobody
    wakes the waiter. *)
Definition hang_schedule : list flabel :=
  [FWritable; FStart; FYield; FPush; FPush; FPush; FNet (NProc 1); FNet (NProc 1); FNet (NProc 1); FNet (NProc 1); FNet (NProc 1);
   FNet NNext; FNet (NReadable 2); FNet NWake; FNet NNext; FNet (NReadable 0); FNet NWake; FTold 1; FCheck;
   FWritable; FStart; FYield; FPush].
Definition hang_items : list (option bytes) := [Some [97%N]; Some [98%N]].
Definition hung := 
  lines_frun some_limits 63 64 16 4 shell (fst src_started) src_items (hd 0 (caller_fds src_ret)) (fnet_start line_handler line_init hang_items EStop [head1]) hang_schedule.
Definition hung_check : bool :=
  match hung with
  | Some t => match n_procs (f_net t), f_wr t, r_phase (n_rd (f_net t)), o_done (f_out t), o_tasks (f_out t), o_inflight (f_out t), r_out (n_rd (f_net t)) with
              | [None; None], None, PAtEof, Some (Some _), 0, 0, [GItem _] => negb (o_open (f_out t)) && f_told t 1 && negb (f_woken t) && negb (li_open (r_h (n_rd (f_net t))))
              | _, _, _, _, _, _, _ => false
              end
  | None => false
  end.
Theorem C88_early_exit_no_deadlock_refuted : exists L pf logfd maxfd cs s s' its x cap pipe_buf items progs out oks ls t,
  sourced L pf logfd maxfd cs s s' its x /\ cs <> [] /\ 0 < pipe_buf /\ List.length (rendered items) + pipe_buf <= cap /\
  List.length progs = List.length cs /\ all_do progs (rendered items) out oks /\ Forall careful progs /\
  lines_frun L logfd maxfd cap pipe_buf s s' its x (fnet_start line_handler line_init items EStop progs) ls = Some t /\
  ~ ended (r_out (n_rd (f_net t))) /\ (forall i, nth i (n_procs (f_net t)) None = None) /\
  forall ls' t', lines_frun L logfd maxfd cap pipe_buf s s' its x t ls' = Some t' -> ls' = [].
Proof.
  assert (X : hung_check = true) by (vm_compute; reflexivity). unfold hung_check in X. destruct hung as [t|] eqn:E; [|discriminate].
  exists some_limits, (fun _ => true), 63, 64, [["cat"%string]], shell, (fst src_started), src_items, (hd 0 (caller_fds src_ret)), 16, 4, hang_items, [head1], [97%N; 10%N], [true], hang_schedule, t.
  split; [exact src_sourced|]. split; [discriminate|]. split; [lia|]. split; [cbn; lia|]. split; [reflexivity|].
  split; [econstructor; [|constructor]; rewrite (unfold_eq head1); cbn; constructor; constructor; cbn; rewrite (unfold_eq head1); cbn; do 3 constructor|].
  split; [constructor; [apply careful_head1|constructor]|]. split; [exact E|]. clear E.
  destruct t as [[ps pi inn r ok] o wr told woken]. cbn [f_net f_out f_wr f_told f_woken n_procs n_rd] in *.
  destruct ps as [|[|] [|[|] [|]]]; try discriminate X. destruct wr; [discriminate|]. destruct r as [h pend wopen ph ro sent]. cbn [r_phase r_out r_h] in *.
  destruct ph; try discriminate X. destruct o as [oi oe ol oo ot of od ow oc ola]. cbn [o_done o_tasks o_inflight o_open] in *.
  destruct od as [[|]|]; try discriminate X. destruct ot; [|discriminate]. destruct of; [|discriminate]. destruct ro as [|[g| |] [|]]; try discriminate X.
  apply andb_prop in X as [X X4]. apply andb_prop in X as [X X3]. apply andb_prop in X as [X1 X2]. apply negb_true_iff in X1, X3, X4.
  split; [intros [[Y|[]]|[Y|[]]]; discriminate|]. split; [intros [|[|[|i]]]; reflexivity|].
  intros [|l ls'] t'; [reflexivity|]. unfold lines_frun. cbn [fsteps]. destruct (fstep _ _ _ _ _ _ _ _ _ _ _ _ _ _ _ _ l) as [t1|] eqn:E; [|discriminate]. exfalso. clear ls' t'.
  revert E. generalize (map (item_has some_limits 63 64 (s_tab (fst src_started))) src_items), (without (s_tab (fst src_started)) (function_fds src_items)), (hd 0 (caller_fds src_ret)). intros sees sh x0.
  generalize (caller_pipe (s_tab (fst src_started)) x0), (source_pipe (s_tab (fst src_started)) src_items), (proc_fds 63 64). intros K k0 fds E.
  destruct l as [[[|[|[|i]]]|m| | |b]| | | | |i|]; cbn in E; try discriminate E.
  - unfold readable in E. cbn in E. rewrite X4 in E. discriminate.
  - rewrite X3 in E. discriminate.
  - unfold handler in E. cbn in E. rewrite X1 in E. destruct (_ || _) in E; discriminate.
  - destruct i as [|[|i]]; cbn in E; [|rewrite X2 in E; discriminate|].
    + destruct (told 0); discriminate.
    + destruct (told (S (S i))); discriminate.
  - unfold at_eof in E. cbn in E. rewrite X3 in E. discriminate.
Qed.
Print Assumptions C88_early_exit_no_deadlock_refuted.
