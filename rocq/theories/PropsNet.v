(** C87, C89, C90: what bytes() of, and iterating over, a pipeline of programs gives. *)
From Verif Require Import Py RedirModel Os PerformModel PerformSpec RunModel RunSpec RunTopSpec RunEnds PropsRun IterModel IterSpec NetModel NetSpec NetProofs NetTop.

(** C87.  bytes(c0 | c1 | ... | cn) is what the programs compute one after the
    other, for every schedule: at any time a prefix of it has been delivered, and
    all of it when the iteration has ended. *)
Theorem C87_bytes : forall L pf logfd maxfd c cs s s' its x cap progs inp out oks,
  launched L pf logfd maxfd c cs s s' its x -> 
  List.length progs = S (List.length cs) -> all_do progs inp out oks ->
  forall ls t, bytes_run L logfd maxfd cap s s' its x (net_start byte_handler byte_init progs inp) ls = Some t ->
  prefix (List.concat (items_of (r_out (n_rd t)))) out /\
  (ended (r_out (n_rd t)) -> List.concat (items_of (r_out (n_rd t))) = out).
Proof.
  intros L pf logfd maxfd c cs s s' its x cap progs inp out oks HL Hl Ha ls t E.
  destruct (do_facts cs progs inp out Hl oks Ha) as (ws & cs0 & F).
  exact (proj1 (bytes_top L pf logfd maxfd c cs s s' its x HL cap progs inp out Hl _ _ ws cs0 F ls t E)).
Qed.
Print Assumptions C87_bytes.
(** Iterating gives the lines of it. *)
Theorem C87_lines : forall L pf logfd maxfd c cs s s' its x cap progs inp out oks lines,
  launched L pf logfd maxfd c cs s s' its x -> 
  List.length progs = S (List.length cs) -> all_do progs inp out oks -> is_lines out lines ->
  forall ls t, lines_run L logfd maxfd cap s s' its x (net_start line_handler line_init progs inp) ls = Some t ->
  prefix (items_of (r_out (n_rd t))) lines /\
  (ended (r_out (n_rd t)) -> items_of (r_out (n_rd t)) = lines).
Proof.
  intros L pf logfd maxfd c cs s s' its x cap progs inp out oks lines HL Hl Ha Hli ls t E.
  destruct (do_facts cs progs inp out Hl oks Ha) as (ws & cs0 & F).
  exact (proj1 (lines_top L pf logfd maxfd c cs s s' its x HL cap progs inp out Hl _ _ ws cs0 F ls t E) lines Hli).
Qed.
Print Assumptions C87_lines.
(** No schedule can be led into a state from which the iteration cannot be
    brought to its end: no deadlock, however small the pipes, and whether or not
    the programs read all of their input, provided they exit when a write fails. *)
Theorem C87_bytes_no_deadlock : forall L pf logfd maxfd c cs s s' its x cap progs inp out oks,
  launched L pf logfd maxfd c cs s s' its x -> 0 < cap ->
  List.length progs = S (List.length cs) -> all_do progs inp out oks -> Forall careful progs ->
  forall ls t, bytes_run L logfd maxfd cap s s' its x (net_start byte_handler byte_init progs inp) ls = Some t ->
  exists ls' t', bytes_run L logfd maxfd cap s s' its x t ls' = Some t' /\ ended (r_out (n_rd t')).
Proof.
  intros L pf logfd maxfd c cs s s' its x cap progs inp out oks HL Hc Hl Ha Hcare ls t E.
  destruct (do_facts cs progs inp out Hl oks Ha) as (ws & cs0 & F).
  exact (proj1 (proj2 (bytes_top L pf logfd maxfd c cs s s' its x HL cap progs inp out Hl _ _ ws cs0 F ls t E)) Hcare Hc).
Qed.
Print Assumptions C87_bytes_no_deadlock.
Theorem C87_lines_no_deadlock : forall L pf logfd maxfd c cs s s' its x cap progs inp out oks,
  launched L pf logfd maxfd c cs s s' its x -> 0 < cap ->
  List.length progs = S (List.length cs) -> all_do progs inp out oks -> Forall careful progs ->
  forall ls t, lines_run L logfd maxfd cap s s' its x (net_start line_handler line_init progs inp) ls = Some t ->
  exists ls' t', lines_run L logfd maxfd cap s s' its x t ls' = Some t' /\ ended (r_out (n_rd t')).
Proof.
  intros L pf logfd maxfd c cs s s' its x cap progs inp out oks HL Hc Hl Ha Hcare ls t E.
  destruct (do_facts cs progs inp out Hl oks Ha) as (ws & cs0 & F).
  exact (proj1 (proj2 (lines_top L pf logfd maxfd c cs s s' its x HL cap progs inp out Hl _ _ ws cs0 F ls t E)) Hcare Hc).
Qed.
Print Assumptions C87_lines_no_deadlock.
(** The processes together make a bounded number of steps, whatever the schedule:
    none of them goes on for ever, waiting for input for ever being a matter of the
    previous theorems. *)
Theorem C87_bytes_finite : forall L pf logfd maxfd c cs s s' its x cap progs inp out oks,
  launched L pf logfd maxfd c cs s s' its x -> 
  List.length progs = S (List.length cs) -> all_do progs inp out oks -> Forall careful progs ->
  exists B, forall ls t, bytes_run L logfd maxfd cap s s' its x (net_start byte_handler byte_init progs inp) ls = Some t ->
  List.length (filter proc_label ls) <= B.
Proof.
  intros L pf logfd maxfd c cs s s' its x cap progs inp out oks HL Hl Ha Hcare.
  pose proof (all_do_nth _ _ _ _ Ha) as (_ & _ & _ & _ & Lo).
  destruct (do_facts cs progs inp out Hl oks Ha) as (ws & cs0 & F).
  exists (total cs0 (List.length cs)). intros ls t E.
  apply (proj2 (proj2 (proj2 (bytes_top L pf logfd maxfd c cs s s' its x HL cap progs inp out Hl _ _ ws cs0 F ls t E))) Hcare).
  intros i Hi. apply nth_error_Some. lia.
Qed.
Print Assumptions C87_bytes_finite.
Theorem C87_lines_finite : forall L pf logfd maxfd c cs s s' its x cap progs inp out oks,
  launched L pf logfd maxfd c cs s s' its x -> 
  List.length progs = S (List.length cs) -> all_do progs inp out oks -> Forall careful progs ->
  exists B, forall ls t, lines_run L logfd maxfd cap s s' its x (net_start line_handler line_init progs inp) ls = Some t ->
  List.length (filter proc_label ls) <= B.
Proof.
  intros L pf logfd maxfd c cs s s' its x cap progs inp out oks HL Hl Ha Hcare.
  pose proof (all_do_nth _ _ _ _ Ha) as (_ & _ & _ & _ & Lo).
  destruct (do_facts cs progs inp out Hl oks Ha) as (ws & cs0 & F).
  exists (total cs0 (List.length cs)). intros ls t E.
  apply (proj2 (proj2 (proj2 (lines_top L pf logfd maxfd c cs s s' its x HL cap progs inp out Hl _ _ ws cs0 F ls t E))) Hcare).
  intros i Hi. apply nth_error_Some. lia.
Qed.
Print Assumptions C87_lines_finite.
(** When bytes() or the iteration has ended, no process of the pipeline is left. *)
Theorem C87_ended_no_process_left : forall L logfd maxfd s s' its x cap progs inp ls,
  (forall t, bytes_run L logfd maxfd cap s s' its x (net_start byte_handler byte_init progs inp) ls = Some t ->
     ended (r_out (n_rd t)) -> forall i, nth i (n_procs t) None = None) /\
  (forall t, lines_run L logfd maxfd cap s s' its x (net_start line_handler line_init progs inp) ls = Some t ->
     ended (r_out (n_rd t)) -> forall i, nth i (n_procs t) None = None).
Proof.
  intros. split; intros t E; (eapply end_gone_steps; [|exact E]); apply end_gone_start.
Qed.
Print Assumptions C87_ended_no_process_left.

(** C89.  The same when programs that go on for ever come before ones that do not
    read everything (yes | head): what the last one writes is delivered. *)
Theorem C89_bytes : forall L pf logfd maxfd c cs s s' its x cap progs inp out,
  launched L pf logfd maxfd c cs s s' its x -> 
  List.length progs = S (List.length cs) -> all_give progs inp true out true ->
  forall ls t, bytes_run L logfd maxfd cap s s' its x (net_start byte_handler byte_init progs inp) ls = Some t ->
  prefix (List.concat (items_of (r_out (n_rd t)))) out /\
  (ended (r_out (n_rd t)) -> List.concat (items_of (r_out (n_rd t))) = out).
Proof.
  intros L pf logfd maxfd c cs s s' its x cap progs inp out HL Hl Ha ls t E.
  destruct (give_facts cs progs inp out Hl Ha) as (es & ws & cs0 & F).
  exact (proj1 (bytes_top L pf logfd maxfd c cs s s' its x HL cap progs inp out Hl _ _ ws cs0 F ls t E)).
Qed.
Print Assumptions C89_bytes.
(** Iterating gives the lines of it. *)
Theorem C89_lines : forall L pf logfd maxfd c cs s s' its x cap progs inp out lines,
  launched L pf logfd maxfd c cs s s' its x -> 
  List.length progs = S (List.length cs) -> all_give progs inp true out true -> is_lines out lines ->
  forall ls t, lines_run L logfd maxfd cap s s' its x (net_start line_handler line_init progs inp) ls = Some t ->
  prefix (items_of (r_out (n_rd t))) lines /\
  (ended (r_out (n_rd t)) -> items_of (r_out (n_rd t)) = lines).
Proof.
  intros L pf logfd maxfd c cs s s' its x cap progs inp out lines HL Hl Ha Hli ls t E.
  destruct (give_facts cs progs inp out Hl Ha) as (es & ws & cs0 & F).
  exact (proj1 (lines_top L pf logfd maxfd c cs s s' its x HL cap progs inp out Hl _ _ ws cs0 F ls t E) lines Hli).
Qed.
Print Assumptions C89_lines.
(** And the iteration can always be brought to its end. *)
Theorem C89_bytes_no_deadlock : forall L pf logfd maxfd c cs s s' its x cap progs inp out,
  launched L pf logfd maxfd c cs s s' its x -> 0 < cap ->
  List.length progs = S (List.length cs) -> all_give progs inp true out true -> Forall careful progs ->
  forall ls t, bytes_run L logfd maxfd cap s s' its x (net_start byte_handler byte_init progs inp) ls = Some t ->
  exists ls' t', bytes_run L logfd maxfd cap s s' its x t ls' = Some t' /\ ended (r_out (n_rd t')).
Proof.
  intros L pf logfd maxfd c cs s s' its x cap progs inp out HL Hc Hl Ha Hcare ls t E.
  destruct (give_facts cs progs inp out Hl Ha) as (es & ws & cs0 & F).
  exact (proj1 (proj2 (bytes_top L pf logfd maxfd c cs s s' its x HL cap progs inp out Hl _ _ ws cs0 F ls t E)) Hcare Hc).
Qed.
Print Assumptions C89_bytes_no_deadlock.
Theorem C89_lines_no_deadlock : forall L pf logfd maxfd c cs s s' its x cap progs inp out,
  launched L pf logfd maxfd c cs s s' its x -> 0 < cap ->
  List.length progs = S (List.length cs) -> all_give progs inp true out true -> Forall careful progs ->
  forall ls t, lines_run L logfd maxfd cap s s' its x (net_start line_handler line_init progs inp) ls = Some t ->
  exists ls' t', lines_run L logfd maxfd cap s s' its x t ls' = Some t' /\ ended (r_out (n_rd t')).
Proof.
  intros L pf logfd maxfd c cs s s' its x cap progs inp out HL Hc Hl Ha Hcare ls t E.
  destruct (give_facts cs progs inp out Hl Ha) as (es & ws & cs0 & F).
  exact (proj1 (proj2 (lines_top L pf logfd maxfd c cs s s' its x HL cap progs inp out Hl _ _ ws cs0 F ls t E)) Hcare Hc).
Qed.
Print Assumptions C89_lines_no_deadlock.
(** But it never ends without an exception: a program that would go on for ever
    only ends because a write fails, and then with a status other than 0. *)
Theorem C89_endless_fails : forall L logfd maxfd s s' its x cap progs inp p ls,
  In p progs -> endless p -> careful p ->
  (forall t, bytes_run L logfd maxfd cap s s' its x (net_start byte_handler byte_init progs inp) ls = Some t -> ~ In GStop (r_out (n_rd t))) /\
  (forall t, lines_run L logfd maxfd cap s s' its x (net_start line_handler line_init progs inp) ls = Some t -> ~ In GStop (r_out (n_rd t))).
Proof.
  intros L logfd maxfd s s' its x cap progs inp p ls Hp He Hc. apply In_nth_error in Hp as [i Hi].
  assert (D : forall H (h : H), doomed H i (net_start H h progs inp)).
  { intros H h. right. exists p. split; [|auto]. cbn. rewrite (nth_indep _ None (Some p)); [|rewrite map_length; apply nth_error_Some; congruence]. rewrite map_nth. f_equal. now apply nth_error_nth. }
  split; intros t E X.
  - destruct (end_gone_steps _ _ _ _ _ _ _ _ _ _ _ _ _ _ _ _ (end_gone_start _ _ _ _) E) as (G & G1 & _).
    destruct (doomed_steps _ _ _ _ _ _ _ _ _ _ _ _ _ i ls _ t (D _ byte_init) E) as [Y|(q & Y & _)]; [specialize (G1 X); congruence|]. rewrite (G (or_introl X)) in Y. discriminate.
  - destruct (end_gone_steps _ _ _ _ _ _ _ _ _ _ _ _ _ _ _ _ (end_gone_start _ _ _ _) E) as (G & G1 & _).
    destruct (doomed_steps _ _ _ _ _ _ _ _ _ _ _ _ _ i ls _ t (D _ line_init) E) as [Y|(q & Y & _)]; [specialize (G1 X); congruence|]. rewrite (G (or_introl X)) in Y. discriminate.
Qed.
Print Assumptions C89_endless_fails.
(** And with a program that goes on even when its writes fail it never ends,
    because the end of the iteration waits for every process. *)
Theorem C89_never_ends : forall L logfd maxfd s s' its x cap progs inp p ls,
  In p progs -> never_exits p ->
  (forall t, bytes_run L logfd maxfd cap s s' its x (net_start byte_handler byte_init progs inp) ls = Some t -> ~ ended (r_out (n_rd t))) /\
  (forall t, lines_run L logfd maxfd cap s s' its x (net_start line_handler line_init progs inp) ls = Some t -> ~ ended (r_out (n_rd t))).
Proof.
  intros L logfd maxfd s s' its x cap progs inp p ls Hp He. apply In_nth_error in Hp as [i Hi].
  assert (D : forall H (h : H), exists q, nth i (n_procs (net_start H h progs inp)) None = Some q /\ never_exits q).
  { intros H h. exists p. split; [|auto]. cbn. rewrite (nth_indep _ None (Some p)); [|rewrite map_length; apply nth_error_Some; congruence]. rewrite map_nth. f_equal. now apply nth_error_nth. }
  destruct (C87_ended_no_process_left L logfd maxfd s s' its x cap progs inp ls) as [G1 G2].
  split; intros t E X.
  - destruct (never_steps _ _ _ _ _ _ _ _ _ _ _ _ _ i ls _ t (D _ byte_init) E) as (q & Y & _). rewrite (G1 t E X) in Y. discriminate.
  - destruct (never_steps _ _ _ _ _ _ _ _ _ _ _ _ _ i ls _ t (D _ line_init) E) as (q & Y & _). rewrite (G2 t E X) in Y. discriminate.
Qed.
Print Assumptions C89_never_ends.

(** C90.  Whether the iteration ends with an exception.  If one of the programs,
    given all of its input, fails, it does. *)
Theorem C90_fails : forall L pf logfd maxfd c cs s s' its x cap progs inp out oks,
  launched L pf logfd maxfd c cs s s' its x -> List.length progs = S (List.length cs) ->
  all_do progs inp out oks -> Forall careful progs -> In false oks -> forall ls,
  (forall t, bytes_run L logfd maxfd cap s s' its x (net_start byte_handler byte_init progs inp) ls = Some t -> ~ In GStop (r_out (n_rd t))) /\
  (forall t, lines_run L logfd maxfd cap s s' its x (net_start line_handler line_init progs inp) ls = Some t -> ~ In GStop (r_out (n_rd t))).
Proof.
  intros L pf logfd maxfd c cs s s' its x cap progs inp out oks HL Hl Ha Hcare Hf ls. pose proof (all_do_nth _ _ _ _ Ha) as (_ & _ & _ & _ & Lo).
  destruct (do_facts cs progs inp out Hl oks Ha) as (ws & cs0 & F). apply In_nth_error in Hf as [i Hi].
  assert (Le : i <= List.length cs) by (assert (i < List.length oks) by (apply nth_error_Some; congruence); lia). split; intros t E.
  - exact (proj1 (proj1 (proj2 (proj2 (bytes_top L pf logfd maxfd c cs s s' its x HL cap progs inp out Hl _ _ ws cs0 F ls t E)))) Hcare i Le Hi).
  - exact (proj1 (proj1 (proj2 (proj2 (lines_top L pf logfd maxfd c cs s s' its x HL cap progs inp out Hl _ _ ws cs0 F ls t E)))) Hcare i Le Hi).
Qed.
Print Assumptions C90_fails.
(** If all of them succeed and all but the first read all of their input, it does not. *)
Theorem C90_succeeds : forall L pf logfd maxfd c cs s s' its x cap progs inp out oks,
  launched L pf logfd maxfd c cs s s' its x -> List.length progs = S (List.length cs) ->
  all_do progs inp out oks -> others_read progs inp -> ~ In false oks -> forall ls,
  (forall t, bytes_run L logfd maxfd cap s s' its x (net_start byte_handler byte_init progs inp) ls = Some t -> ~ In GFailed (r_out (n_rd t))) /\
  (forall t, lines_run L logfd maxfd cap s s' its x (net_start line_handler line_init progs inp) ls = Some t -> ~ In GFailed (r_out (n_rd t))).
Proof.
  intros L pf logfd maxfd c cs s s' its x cap progs inp out oks HL Hl Ha Hr Hf ls. pose proof (all_do_nth _ _ _ _ Ha) as (_ & _ & _ & _ & Lo).
  destruct (do_facts cs progs inp out Hl oks Ha) as (ws & cs0 & F).
  assert (Tr : forall i, i <= List.length cs -> nth_error oks i = Some true).
  { intros i Hi. destruct (nth_error oks i) as [[|]|] eqn:Ei; [reflexivity| |]; [now apply nth_error_In in Ei|]. apply nth_error_None in Ei. lia. }
  split; intros t E.
  - exact (proj2 (proj1 (proj2 (proj2 (bytes_top L pf logfd maxfd c cs s s' its x HL cap progs inp out Hl _ _ ws cs0 F ls t E)))) Hr Tr).
  - exact (proj2 (proj1 (proj2 (proj2 (lines_top L pf logfd maxfd c cs s s' its x HL cap progs inp out Hl _ _ ws cs0 F ls t E)))) Hr Tr).
Qed.
Print Assumptions C90_succeeds.

(** echo 'a\nb' | head -1 with pipes of one byte: a schedule in which a write of
    the first program fails. *)
Definition put (b : N) (p : prog) : prog := Writes b (fun ok => if ok then p else Exits false).
Definition writer : prog := put 97 (put 10 (put 98 (Exits true))).
Definition unfold (p : prog) : prog := match p with Reads k => Reads k | Writes b k => Writes b k | Exits ok => Exits ok end.
Lemma unfold_eq p : p = unfold p.
Proof. now destruct p. Qed.
CoFixpoint head1 : prog := Reads (fun o => match o with
  | Some b => Writes b (fun ok => if ok then if N.eqb b 10 then Exits true else head1 else Exits false)
  | None => Exits true end).
Definition schedule : list nlabel :=
  [NProc 0; NProc 1; NProc 0; NProc 1; NNext; NReadable 1; NWake; NProc 1; NProc 1; NProc 1; NProc 0; NProc 0;
   NNext; NReadable 1; NWake; NNext; NReadable 0; NWake; NNext; NAtEof false].
Definition started := start some_limits (fun _ => true) true (chain ["echo"%string] [["head"%string]]) shell.
Definition started_ret := match snd started with Ok (r, _) => r | Err _ => None end.
Definition started_items := match snd started with Ok (_, l) => l | Err _ => [] end.
Lemma started_ok : started = (fst started, Ok (started_ret, started_items)).
Proof. vm_compute. reflexivity. Qed.
Definition started_fd := hd 0 (caller_fds started_ret).
Lemma started_launched : launched some_limits (fun _ => true) 63 64 ["echo"%string] [["head"%string]] shell (fst started) started_items started_fd.
Proof.
  split; [discriminate|]. split; [discriminate|]. split; [discriminate|]. split; [|split; [|split; [lia|split; [lia|]]]].
  - intros n o. do 3 (destruct n as [|n]; [cbn; intros E; injection E as <-; intros []|]). unfold refers. Local Transparent tget. unfold tget. cbn. now destruct n.
  - exists started_ret. split; [exact started_ok|]. vm_compute. reflexivity.
  - assert (X3 : forallb roomy started_items = true) by (vm_compute; reflexivity).
    rewrite forallb_forall in X3. intros rs t argv Hit. specialize (X3 _ Hit). apply andb_prop in X3 as [Y1 Y2]. apply Nat.ltb_lt in Y1.
    assert (lim some_limits = 64) by reflexivity. clear Hit.
    split; [|lia]. split; [lia|]. split; [lia|]. exists 40. split; [lia|]. split; [lia|]. destruct (tget t 40); [discriminate|reflexivity].
Qed.
Lemma careful_put b p : careful p -> careful (put b p).
Proof. intros C. constructor; [reflexivity|exact C]. Qed.
Lemma careful_head1 : careful head1.
Proof.
  cofix IH. rewrite (unfold_eq head1). cbn. constructor. intros [b|]; [|constructor]. constructor; [reflexivity|]. destruct (N.eqb b 10); [constructor|exact IH].
Qed.
Lemma gives_put b p inp d out e : gives p inp d out e -> gives (put b p) inp d (b :: out) e.
Proof. intros G. constructor. exact G. Qed.
Lemma head1_line l : ~ In 10%N l -> forall r d, gives head1 (l ++ 10%N :: r) d (l ++ [10%N]) (Some true).
Proof.
  induction l as [|b l IH]; intros N r d; rewrite (unfold_eq head1); cbn.
  - do 3 constructor.
  - constructor. constructor. destruct (N.eqb_spec b 10) as [->|]; [destruct N; now left|]. apply IH. intros X. apply N. now right.
Qed.
Lemma careful_both : Forall careful [writer; head1].
Proof. constructor; [repeat apply careful_put; constructor|]. constructor; [apply careful_head1|constructor]. Qed.
Lemma writer_head1 : all_do [writer; head1] [] [97%N; 10%N] [true; true].
Proof.
  econstructor; [|econstructor; [|constructor]].
  - unfold writer, put. do 4 constructor.
  - rewrite (unfold_eq head1). cbn. constructor. constructor. cbn. rewrite (unfold_eq head1). cbn. constructor. constructor. constructor.
Qed.
Example C87_nonvacuous :
  all_do [writer; head1] [] [97%N; 10%N] [true; true] /\ Forall careful [writer; head1] /\
  exists x, launched some_limits (fun _ => true) 63 64 ["echo"%string] [["head"%string]] shell (fst started) started_items x /\
  match bytes_run some_limits 63 64 1 shell (fst started) started_items x (net_start byte_handler byte_init [writer; head1] []) schedule with
  | Some t => r_out (n_rd t) = [GItem [97%N]; GItem [10%N]; GItem []; GFailed]
  | None => False
  end.
Proof.
  split; [exact writer_head1|]. split; [exact careful_both|].
  exists started_fd. split; [exact started_launched|]. vm_compute. reflexivity.
Qed.
(** yes | head -1 *)
CoFixpoint yes : prog := put 121 (put 10 yes).
Lemma yes_eq : yes = put 121 (put 10 yes).
Proof. now rewrite (unfold_eq yes) at 1. Qed.
Example C89_nonvacuous :
  all_give [yes; head1] [] true [121%N; 10%N] true /\ Forall careful [yes; head1] /\ endless yes /\
  match bytes_run some_limits 63 64 1 shell (fst started) started_items started_fd (net_start byte_handler byte_init [yes; head1] [])
      [NProc 0; NProc 1; NProc 0; NProc 1; NNext; NReadable 1; NWake; NProc 1; NProc 1; NProc 1; NProc 0; NProc 0;
       NNext; NReadable 1; NWake; NNext; NReadable 0; NWake; NNext; NAtEof false] with
  | Some t => r_out (n_rd t) = [GItem [121%N]; GItem [10%N]; GItem []; GFailed]
  | None => False
  end.
Proof.
  split; [|split; [|split]].
  - eapply all_give_goes_on with (mid := [121%N; 10%N]).
    + rewrite yes_eq. do 2 apply gives_put. constructor.
    + cofix IH. rewrite yes_eq. constructor. constructor. exact IH.
    + eapply all_give_ends; [apply (head1_line [121%N]); intros [X|[]]; discriminate|constructor].
  - constructor; [|constructor; [apply careful_head1|constructor]]. cofix IH. rewrite yes_eq. constructor; [reflexivity|]. constructor; [reflexivity|]. exact IH.
  - cofix IH. rewrite yes_eq. constructor. constructor. exact IH.
  - vm_compute. reflexivity.
Qed.
(** A program that goes on whether or not its writes fail. *)
CoFixpoint yes_anyway : prog := Writes 121 (fun _ => yes_anyway).
Example C89_never_ends_nonvacuous :
  In yes_anyway [yes_anyway; head1] /\ never_exits yes_anyway /\ all_give [yes_anyway; put 121 (Exits true)] [] true [121%N] true /\
  match bytes_run some_limits 63 64 1 shell (fst started) started_items started_fd (net_start byte_handler byte_init [yes_anyway; put 121 (Exits true)] [])
      [NProc 0; NProc 1; NProc 1; NNext; NReadable 1; NWake; NNext; NReadable 0; NWake; NNext; NProc 0; NProc 0; NProc 0] with
  | Some t => r_out (n_rd t) = [GItem [121%N]; GItem []] /\ r_phase (n_rd t) = PAtEof
  | None => False
  end.
Proof.
  assert (E : yes_anyway = Writes 121 (fun _ => yes_anyway)) by (now rewrite (unfold_eq yes_anyway) at 1).
  split; [now left|]. split; [cofix IH; rewrite E; constructor; intros _; exact IH|]. split; [|vm_compute; now split].
  eapply all_give_goes_on with (mid := []); [constructor|cofix IH; rewrite E; constructor; exact IH|]. eapply all_give_ends; [do 2 constructor|constructor].
Qed.

(** Otherwise the schedule decides: echo 'a\nb' | head -1, in which both programs
    succeed when given their input, may end either way. *)
Theorem C90_verdict_determined_refuted : exists L pf logfd maxfd c cs s s' its x cap progs inp out ls1 ls2 t1 t2,
  launched L pf logfd maxfd c cs s s' its x /\ List.length progs = S (List.length cs) /\
  all_do progs inp out [true; true] /\ Forall careful progs /\
  bytes_run L logfd maxfd cap s s' its x (net_start byte_handler byte_init progs inp) ls1 = Some t1 /\ In GStop (r_out (n_rd t1)) /\
  bytes_run L logfd maxfd cap s s' its x (net_start byte_handler byte_init progs inp) ls2 = Some t2 /\ In GFailed (r_out (n_rd t2)).
Proof.
  exists some_limits, (fun _ => true), 63, 64, ["echo"%string], [["head"%string]], shell, (fst started), started_items, started_fd, 16, [writer; head1], [], [97%N; 10%N],
    [NProc 0; NProc 0; NProc 0; NProc 0; NProc 1; NProc 1; NProc 1; NProc 1; NProc 1; NNext; NReadable 2; NWake; NNext; NReadable 0; NWake; NNext; NAtEof true],
    [NProc 0; NProc 0; NProc 1; NProc 1; NProc 1; NProc 1; NProc 1; NProc 0; NProc 0; NNext; NReadable 2; NWake; NNext; NReadable 0; NWake; NNext; NAtEof false].
  eexists _, _. split; [exact started_launched|]. split; [reflexivity|]. split; [exact writer_head1|]. split; [exact careful_both|].
  split; [vm_compute; reflexivity|]. split; [right; right; now left|]. split; [vm_compute; reflexivity|]. right. right. now left.
Qed.
Print Assumptions C90_verdict_determined_refuted.
(** cat | cat reads everything; cat | false fails. *)
CoFixpoint cat : prog := Reads (fun o => match o with Some b => put b cat | None => Exits true end).
Definition failing : prog := Exits false.
Lemma does_cat l : does cat l l true.
Proof. induction l as [|b l IH]; rewrite (unfold_eq cat); cbn; constructor; constructor. exact IH. Qed.
Lemma reads_all_cat l : reads_all cat l.
Proof. induction l as [|b l IH]; rewrite (unfold_eq cat); cbn; constructor. constructor. exact IH. Qed.
Lemma careful_cat : careful cat.
Proof. cofix IH. rewrite (unfold_eq cat). cbn. constructor. intros [b|]; [|constructor]. constructor; [reflexivity|exact IH]. Qed.
Example C90_nonvacuous :
  all_do [cat; cat] [1%N; 2%N] [1%N; 2%N] [true; true] /\ others_read [cat; cat] [1%N; 2%N] /\
  all_do [cat; failing] [1%N; 2%N] [] [true; false] /\ Forall careful [cat; failing] /\
  match bytes_run some_limits 63 64 16 shell (fst started) started_items started_fd (net_start byte_handler byte_init [cat; cat] [1%N])
      [NProc 0; NProc 0; NProc 1; NProc 1; NProc 0; NProc 0; NProc 1; NProc 1; NNext; NReadable 1; NWake; NNext; NReadable 0; NWake; NNext; NAtEof true] with
  | Some t => r_out (n_rd t) = [GItem [1%N]; GItem []; GStop]
  | None => False
  end /\
  match bytes_run some_limits 63 64 16 shell (fst started) started_items started_fd (net_start byte_handler byte_init [cat; failing] [1%N])
      [NProc 0; NProc 1; NProc 0; NProc 0; NNext; NReadable 0; NWake; NNext; NAtEof false] with
  | Some t => r_out (n_rd t) = [GItem []; GFailed]
  | None => False
  end.
Proof.
  split; [|split; [|split; [|split; [|split]]]].
  - econstructor; [apply does_cat|]. econstructor; [apply does_cat|constructor].
  - exists [1%N; 2%N], true. split; [apply does_cat|]. econstructor; [apply reads_all_cat|apply does_cat|constructor].
  - econstructor; [apply does_cat|]. econstructor; [constructor|constructor].
  - constructor; [apply careful_cat|]. constructor; [constructor|constructor].
  - vm_compute. reflexivity.
  - vm_compute. reflexivity.
Qed.
