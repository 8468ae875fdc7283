(** C111.  Several pipelines run by one shell at the same time do not affect each
    other, except that they share the shell's standard input (which is at its end here). *)
From Verif Require Import Py RedirModel Os PerformModel PerformSpec RunModel RunSpec RunTopSpec RunEnds IterModel IterSpec NetModel NetSpec NetProofs NetTop ManyModel ManySpec ManyProofs PropsRun PropsNet PropsSub.

Lemma shell_in s : a_shell s -> exists o0, refers (s_tab s) 0 = Some o0.
Proof. intros (A & _). destruct (refers (s_tab s) 0) as [o0|]; [eauto|congruence]. Qed.
Lemma b_event h d : bi_open h = false -> bi_open (fst (byte_event h d)) = false.
Proof. intros E. unfold byte_event. destruct (byte_wants h); cbn; rewrite E; reflexivity. Qed.
Lemma b_next h : bi_open h = false -> bi_open (fst (byte_next h)) = false.
Proof. intros E. unfold byte_next. destruct (bi_buf h); [exact E|]. destruct (bi_eof h); exact E. Qed.
Lemma b_resume h : bi_open h = false -> bi_open (fst (byte_resume h)) = false.
Proof. intros E. exact E. Qed.
Lemma l_event h d : li_open h = false -> li_open (fst (line_event h d)) = false.
Proof. intros E. unfold line_event. destruct (line_wants h); cbn; [rewrite E; reflexivity|exact E]. Qed.
Lemma l_next h : li_open h = false -> li_open (fst (line_next h)) = false.
Proof. intros E. unfold line_next. destruct (_ && _); [exact E|]. destruct (li_buf h) as [|b l]; [exact E|]. destruct (split1 _) as [x y]. exact E. Qed.
Definition bytes_many L pf logfd maxfd cap s (Hs : a_shell s) (Hl : 2 < logfd) (Hm : 2 < maxfd) o0 (E0 : refers (s_tab s) 0 = Some o0) :=
  many_facts byte_handler byte_wants byte_event byte_next byte_resume bi_open byte_init eq_refl b_event b_next b_resume L pf logfd maxfd cap (s_np s) Hl Hm
    (s_tab s) o0 E0 (proj1 (proj2 Hs)) (proj1 (proj2 (proj2 Hs))) (proj2 (proj2 (proj2 Hs))) (s_nt s).
Definition lines_many L pf logfd maxfd cap s (Hs : a_shell s) (Hl : 2 < logfd) (Hm : 2 < maxfd) o0 (E0 : refers (s_tab s) 0 = Some o0) :=
  many_facts line_handler line_wants line_event line_next line_next li_open line_init eq_refl l_event l_next l_next L pf logfd maxfd cap (s_np s) Hl Hm
    (s_tab s) o0 E0 (proj1 (proj2 Hs)) (proj1 (proj2 (proj2 Hs))) (proj2 (proj2 (proj2 Hs))) (s_nt s).

(** Whatever the others do, and whenever they are started: each pipeline is in the
    state it would have reached alone by its own steps, and can go on exactly as it
    could alone. *)
Theorem C111_bytes_independent : forall L pf logfd maxfd cap s ls w j c cs progs,
  a_shell s -> 2 < logfd -> 2 < maxfd ->
  many_bytes L pf logfd maxfd cap s [] ls w -> nth_error (starts ls) j = Some (c, cs, progs) ->
  exists q s1 s1' t, nth_error (w_jobs w) j = Some q /\ launched L pf logfd maxfd c cs s1 s1' (p_its q) (p_x q) /\
    bytes_run L logfd maxfd cap s1 s1' (p_its q) (p_x q) (net_start byte_handler byte_init progs []) (steps_of j ls) = Some t /\
    n_rd t = p_rd q /\ n_procs t = p_procs q /\
    forall l, many_bytes_step L logfd maxfd cap s w j l <> None <-> bytes_run L logfd maxfd cap s1 s1' (p_its q) (p_x q) t [l] <> None.
Proof.
  intros L pf logfd maxfd cap s ls w j c cs progs Hs Hl Hm M E. destruct (shell_in s Hs) as [o0 E0].
  destruct (bytes_many L pf logfd maxfd cap s Hs Hl Hm o0 E0 ls w j c cs progs M E) as (q & s1 & s1' & t & A1 & A2 & A3 & A4 & A5 & A6 & A7 & _).
  exists q, s1, s1', t. split; [exact A1|]. split; [exact A2|]. split; [exact A4|]. split; [exact A5|]. split; [exact A6|].
  intros l. unfold many_bytes_step. rewrite (A7 l). unfold bytes_run. cbn [nsteps]. destruct (nstep _ _ _ _ _ _ _ _ _ _ _ _ _ t l); split; congruence.
Qed.
Print Assumptions C111_bytes_independent.
Theorem C111_lines_independent : forall L pf logfd maxfd cap s ls w j c cs progs,
  a_shell s -> 2 < logfd -> 2 < maxfd ->
  many_lines L pf logfd maxfd cap s [] ls w -> nth_error (starts ls) j = Some (c, cs, progs) ->
  exists q s1 s1' t, nth_error (w_jobs w) j = Some q /\ launched L pf logfd maxfd c cs s1 s1' (p_its q) (p_x q) /\
    lines_run L logfd maxfd cap s1 s1' (p_its q) (p_x q) (net_start line_handler line_init progs []) (steps_of j ls) = Some t /\
    n_rd t = p_rd q /\ n_procs t = p_procs q /\
    forall l, many_lines_step L logfd maxfd cap s w j l <> None <-> lines_run L logfd maxfd cap s1 s1' (p_its q) (p_x q) t [l] <> None.
Proof.
  intros L pf logfd maxfd cap s ls w j c cs progs Hs Hl Hm M E. destruct (shell_in s Hs) as [o0 E0].
  destruct (lines_many L pf logfd maxfd cap s Hs Hl Hm o0 E0 ls w j c cs progs M E) as (q & s1 & s1' & t & A1 & A2 & A3 & A4 & A5 & A6 & A7 & _).
  exists q, s1, s1', t. split; [exact A1|]. split; [exact A2|]. split; [exact A4|]. split; [exact A5|]. split; [exact A6|].
  intros l. unfold many_lines_step. rewrite (A7 l). unfold lines_run. cbn [nsteps]. destruct (nstep _ _ _ _ _ _ _ _ _ _ _ _ _ t l); split; congruence.
Qed.
Print Assumptions C111_lines_independent.
(** So what is read from each is what its programs make of the empty input. *)
Theorem C111_bytes : forall L pf logfd maxfd cap s ls w j c cs progs out,
  a_shell s -> 2 < logfd -> 2 < maxfd ->
  many_bytes L pf logfd maxfd cap s [] ls w -> nth_error (starts ls) j = Some (c, cs, progs) -> all_give progs [] true out true ->
  exists q, nth_error (w_jobs w) j = Some q /\ prefix (List.concat (items_of (r_out (p_rd q)))) out /\
    (ended (r_out (p_rd q)) -> List.concat (items_of (r_out (p_rd q))) = out).
Proof.
  intros L pf logfd maxfd cap s ls w j c cs progs out Hs Hl Hm M E Ha. destruct (shell_in s Hs) as [o0 E0].
  destruct (bytes_many L pf logfd maxfd cap s Hs Hl Hm o0 E0 ls w j c cs progs M E) as (q & s1 & s1' & t & A1 & A2 & A3 & A4 & A5 & _).
  exists q. split; [exact A1|]. rewrite <- A5. exact (C89_bytes L pf logfd maxfd c cs s1 s1' (p_its q) (p_x q) cap progs [] out A2 A3 Ha (steps_of j ls) t A4).
Qed.
Print Assumptions C111_bytes.
Theorem C111_lines : forall L pf logfd maxfd cap s ls w j c cs progs out lines,
  a_shell s -> 2 < logfd -> 2 < maxfd ->
  many_lines L pf logfd maxfd cap s [] ls w -> nth_error (starts ls) j = Some (c, cs, progs) -> all_give progs [] true out true -> is_lines out lines ->
  exists q, nth_error (w_jobs w) j = Some q /\ prefix (items_of (r_out (p_rd q))) lines /\
    (ended (r_out (p_rd q)) -> items_of (r_out (p_rd q)) = lines).
Proof.
  intros L pf logfd maxfd cap s ls w j c cs progs out lines Hs Hl Hm M E Ha Hli. destruct (shell_in s Hs) as [o0 E0].
  destruct (lines_many L pf logfd maxfd cap s Hs Hl Hm o0 E0 ls w j c cs progs M E) as (q & s1 & s1' & t & A1 & A2 & A3 & A4 & A5 & _).
  exists q. split; [exact A1|]. rewrite <- A5. exact (C89_lines L pf logfd maxfd c cs s1 s1' (p_its q) (p_x q) cap progs [] out lines A2 A3 Ha Hli (steps_of j ls) t A4).
Qed.
Print Assumptions C111_lines.
(** No pipeline can be made to wait for another for ever: whatever has happened, all of
    them can be brought to their ends. *)
Theorem C111_bytes_no_deadlock : forall L pf logfd maxfd cap s ls w,
  a_shell s -> 2 < logfd -> 2 < maxfd -> 0 < cap ->
  many_bytes L pf logfd maxfd cap s [] ls w ->
  (forall c cs progs, In (c, cs, progs) (starts ls) -> Forall careful progs /\ exists out, all_give progs [] true out true) ->
  exists ls' w', many_bytes L pf logfd maxfd cap s [] (ls ++ ls') w' /\ starts ls' = [] /\
    List.length (w_jobs w') = List.length (starts ls) /\ Forall (fun q => ended (r_out (p_rd q))) (w_jobs w').
Proof.
  intros L pf logfd maxfd cap s ls w Hs Hl Hm Hc M G. destruct (shell_in s Hs) as [o0 E0].
  apply (all_can_end byte_handler byte_wants byte_event byte_next byte_resume bi_open byte_init eq_refl b_event b_next b_resume L pf logfd maxfd cap (s_np s) Hl Hm
    (s_tab s) o0 E0 (proj1 (proj2 Hs)) (proj1 (proj2 (proj2 Hs))) (proj2 (proj2 (proj2 Hs))) (s_nt s)
    (fun x => Forall careful (snd x) /\ exists out, all_give (snd x) [] true out true) (fun r => ended (r_out r))) with (w := w); [|exact M|].
  - intros ls1 w1 j c cs progs M1 E [Ca (out & Ha)].
    destruct (bytes_many L pf logfd maxfd cap s Hs Hl Hm o0 E0 ls1 w1 j c cs progs M1 E) as (q & s1 & s1' & t & A1 & A2 & A3 & A4 & _ & _ & _ & A8).
    destruct (C89_bytes_no_deadlock L pf logfd maxfd c cs s1 s1' (p_its q) (p_x q) cap progs [] out A2 Hc A3 Ha Ca (steps_of j ls1) t A4) as (ls' & t' & B1 & B2).
    destruct (A8 ls' t' B1) as (w' & q' & C1 & C2 & C3 & C4). exists ls', w', q'. split; [exact C1|]. split; [exact C2|]. split; [now rewrite C3|exact C4].
  - apply Forall_forall. intros [[c cs] progs] Hx. exact (G c cs progs Hx).
Qed.
Print Assumptions C111_bytes_no_deadlock.
Theorem C111_lines_no_deadlock : forall L pf logfd maxfd cap s ls w,
  a_shell s -> 2 < logfd -> 2 < maxfd -> 0 < cap ->
  many_lines L pf logfd maxfd cap s [] ls w ->
  (forall c cs progs, In (c, cs, progs) (starts ls) -> Forall careful progs /\ exists out, all_give progs [] true out true) ->
  exists ls' w', many_lines L pf logfd maxfd cap s [] (ls ++ ls') w' /\ starts ls' = [] /\
    List.length (w_jobs w') = List.length (starts ls) /\ Forall (fun q => ended (r_out (p_rd q))) (w_jobs w').
Proof.
  intros L pf logfd maxfd cap s ls w Hs Hl Hm Hc M G. destruct (shell_in s Hs) as [o0 E0].
  apply (all_can_end line_handler line_wants line_event line_next line_next li_open line_init eq_refl l_event l_next l_next L pf logfd maxfd cap (s_np s) Hl Hm
    (s_tab s) o0 E0 (proj1 (proj2 Hs)) (proj1 (proj2 (proj2 Hs))) (proj2 (proj2 (proj2 Hs))) (s_nt s)
    (fun x => Forall careful (snd x) /\ exists out, all_give (snd x) [] true out true) (fun r => ended (r_out r))) with (w := w); [|exact M|].
  - intros ls1 w1 j c cs progs M1 E [Ca (out & Ha)].
    destruct (lines_many L pf logfd maxfd cap s Hs Hl Hm o0 E0 ls1 w1 j c cs progs M1 E) as (q & s1 & s1' & t & A1 & A2 & A3 & A4 & _ & _ & _ & A8).
    destruct (C89_lines_no_deadlock L pf logfd maxfd c cs s1 s1' (p_its q) (p_x q) cap progs [] out A2 Hc A3 Ha Ca (steps_of j ls1) t A4) as (ls' & t' & B1 & B2).
    destruct (A8 ls' t' B1) as (w' & q' & C1 & C2 & C3 & C4). exists ls', w', q'. split; [exact C1|]. split; [exact C2|]. split; [now rewrite C3|exact C4].
  - apply Forall_forall. intros [[c cs] progs] Hx. exact (G c cs progs Hx).
Qed.
Print Assumptions C111_lines_no_deadlock.
(** The processes of a pipeline make a bounded number of steps, however many others there are. *)
Theorem C111_bytes_finite : forall c cs progs out oks,
  List.length progs = S (List.length cs) -> all_do progs [] out oks -> Forall careful progs ->
  exists B, forall L pf logfd maxfd cap s ls w j, a_shell s -> 2 < logfd -> 2 < maxfd ->
  many_bytes L pf logfd maxfd cap s [] ls w -> nth_error (starts ls) j = Some (c, cs, progs) ->
  List.length (filter proc_label (steps_of j ls)) <= B.
Proof.
  intros c cs progs out oks Len Ha Ca. pose proof (all_do_nth _ _ _ _ Ha) as (_ & _ & _ & _ & Lo). destruct (do_facts cs progs [] out Len oks Ha) as (ws & cs0 & F).
  exists (total cs0 (List.length cs)). intros L pf logfd maxfd cap s ls w j Hs Hl Hm M E. destruct (shell_in s Hs) as [o0 E0].
  destruct (bytes_many L pf logfd maxfd cap s Hs Hl Hm o0 E0 ls w j c cs progs M E) as (q & s1 & s1' & t & A1 & A2 & A3 & A4 & _).
  apply (proj2 (proj2 (proj2 (bytes_top L pf logfd maxfd c cs s1 s1' (p_its q) (p_x q) A2 cap progs [] out A3 _ _ ws cs0 F (steps_of j ls) t A4))) Ca).
  intros i Hi. apply nth_error_Some. lia.
Qed.
Print Assumptions C111_bytes_finite.
(** The processes of a pipeline make a bounded number of steps, however many others there are. *)
Theorem C111_lines_finite : forall c cs progs out oks,
  List.length progs = S (List.length cs) -> all_do progs [] out oks -> Forall careful progs ->
  exists B, forall L pf logfd maxfd cap s ls w j, a_shell s -> 2 < logfd -> 2 < maxfd ->
  many_lines L pf logfd maxfd cap s [] ls w -> nth_error (starts ls) j = Some (c, cs, progs) ->
  List.length (filter proc_label (steps_of j ls)) <= B.
Proof.
  intros c cs progs out oks Len Ha Ca. pose proof (all_do_nth _ _ _ _ Ha) as (_ & _ & _ & _ & Lo). destruct (do_facts cs progs [] out Len oks Ha) as (ws & cs0 & F).
  exists (total cs0 (List.length cs)). intros L pf logfd maxfd cap s ls w j Hs Hl Hm M E. destruct (shell_in s Hs) as [o0 E0].
  destruct (lines_many L pf logfd maxfd cap s Hs Hl Hm o0 E0 ls w j c cs progs M E) as (q & s1 & s1' & t & A1 & A2 & A3 & A4 & _).
  apply (proj2 (proj2 (proj2 (lines_top L pf logfd maxfd c cs s1 s1' (p_its q) (p_x q) A2 cap progs [] out A3 _ _ ws cs0 F (steps_of j ls) t A4))) Ca).
  intros i Hi. apply nth_error_Some. lia.
Qed.
Print Assumptions C111_lines_finite.
(** Nor does a program that fails make another pipeline fail, or one that succeeds
    keep it from failing. *)
Theorem C111_fails : forall L pf logfd maxfd cap s ls j c cs progs out oks,
  a_shell s -> 2 < logfd -> 2 < maxfd -> nth_error (starts ls) j = Some (c, cs, progs) -> all_do progs [] out oks -> Forall careful progs -> In false oks ->
  (forall w, many_bytes L pf logfd maxfd cap s [] ls w -> exists q, nth_error (w_jobs w) j = Some q /\ ~ In GStop (r_out (p_rd q))) /\
  (forall w, many_lines L pf logfd maxfd cap s [] ls w -> exists q, nth_error (w_jobs w) j = Some q /\ ~ In GStop (r_out (p_rd q))).
Proof.
  intros L pf logfd maxfd cap s ls j c cs progs out oks Hs Hl Hm E Ha Ca Hf. destruct (shell_in s Hs) as [o0 E0]. split; intros w M.
  - destruct (bytes_many L pf logfd maxfd cap s Hs Hl Hm o0 E0 ls w j c cs progs M E) as (q & s1 & s1' & t & A1 & A2 & A3 & A4 & A5 & _).
    exists q. split; [exact A1|]. rewrite <- A5. exact (proj1 (C90_fails L pf logfd maxfd c cs s1 s1' (p_its q) (p_x q) cap progs [] out oks A2 A3 Ha Ca Hf (steps_of j ls)) t A4).
  - destruct (lines_many L pf logfd maxfd cap s Hs Hl Hm o0 E0 ls w j c cs progs M E) as (q & s1 & s1' & t & A1 & A2 & A3 & A4 & A5 & _).
    exists q. split; [exact A1|]. rewrite <- A5. exact (proj2 (C90_fails L pf logfd maxfd c cs s1 s1' (p_its q) (p_x q) cap progs [] out oks A2 A3 Ha Ca Hf (steps_of j ls)) t A4).
Qed.
Print Assumptions C111_fails.
Theorem C111_succeeds : forall L pf logfd maxfd cap s ls j c cs progs out oks,
  a_shell s -> 2 < logfd -> 2 < maxfd -> nth_error (starts ls) j = Some (c, cs, progs) -> all_do progs [] out oks -> others_read progs [] -> ~ In false oks ->
  (forall w, many_bytes L pf logfd maxfd cap s [] ls w -> exists q, nth_error (w_jobs w) j = Some q /\ ~ In GFailed (r_out (p_rd q))) /\
  (forall w, many_lines L pf logfd maxfd cap s [] ls w -> exists q, nth_error (w_jobs w) j = Some q /\ ~ In GFailed (r_out (p_rd q))).
Proof.
  intros L pf logfd maxfd cap s ls j c cs progs out oks Hs Hl Hm E Ha Ca Hf. destruct (shell_in s Hs) as [o0 E0]. split; intros w M.
  - destruct (bytes_many L pf logfd maxfd cap s Hs Hl Hm o0 E0 ls w j c cs progs M E) as (q & s1 & s1' & t & A1 & A2 & A3 & A4 & A5 & _).
    exists q. split; [exact A1|]. rewrite <- A5. exact (proj1 (C90_succeeds L pf logfd maxfd c cs s1 s1' (p_its q) (p_x q) cap progs [] out oks A2 A3 Ha Ca Hf (steps_of j ls)) t A4).
  - destruct (lines_many L pf logfd maxfd cap s Hs Hl Hm o0 E0 ls w j c cs progs M E) as (q & s1 & s1' & t & A1 & A2 & A3 & A4 & A5 & _).
    exists q. split; [exact A1|]. rewrite <- A5. exact (proj2 (C90_succeeds L pf logfd maxfd c cs s1 s1' (p_its q) (p_x q) cap progs [] out oks A2 A3 Ha Ca Hf (steps_of j ls)) t A4).
Qed.
Print Assumptions C111_succeeds.

(** ** Nonvacuity *)
(** The steps as a function. *)
Definition tried (w : world byte_handler) (l : mlabel) : option (world byte_handler) :=
  match l with
  | MStart c cs progs =>
      match start some_limits (fun _ => true) true (chain c cs) (mkSt (w_tab w) (w_np w) (w_nt w)) with
      | (s', Ok (ret, its)) =>
          match caller_fds ret with
          | [x] => if Nat.eqb (List.length progs) (S (List.length cs)) && forallb proc_roomy its
                   then Some (mkW (s_tab s') (s_np s') (s_nt s') (w_pipes w) (w_in w) (w_jobs w ++ [new_job byte_handler byte_init s' its x progs])) else None
          | _ => None
          end
      | _ => None
      end
  | MStep j l => many_bytes_step some_limits 63 64 16 shell w j l
  end.
Lemma tried_ok w l w' : tried w l = Some w' -> mstep byte_handler byte_wants byte_event byte_next byte_resume bi_open byte_init some_limits (fun _ => true) 63 64 16 (s_np shell) w l w'.
Proof.
  destruct l as [c cs progs|j l]; cbn [tried]; [|apply m_step].
  destruct (start _ _ _ _ _) as [s' [[ret its]|e]] eqn:E; [|discriminate]. destruct (caller_fds ret) as [|x [|y l]] eqn:Ec; try discriminate.
  destruct (Nat.eqb _ _ && _) eqn:X; [|discriminate]. apply andb_prop in X as [X1 X2]. apply Nat.eqb_eq in X1. intros Y. injection Y as <-.
  eapply m_start; [exact E|exact Ec|exact X1|now apply proc_roomy_ok].
Qed.
Fixpoint all_tried (w : world byte_handler) (ls : list mlabel) : option (world byte_handler) :=
  match ls with [] => Some w | l :: r => match tried w l with Some w' => all_tried w' r | None => None end end.
Lemma all_tried_ok inp ls w : all_tried (m_world byte_handler (s_np shell) (s_tab shell) (s_nt shell) inp) ls = Some w -> many_bytes some_limits (fun _ => true) 63 64 16 shell inp ls w.
Proof.
  intros E. assert (G : forall r a w0, many_bytes some_limits (fun _ => true) 63 64 16 shell inp a w0 -> all_tried w0 r = Some w -> many_bytes some_limits (fun _ => true) 63 64 16 shell inp (a ++ r) w).
  { induction r as [|l r IH]; intros a w0 M E0; cbn in E0; [rewrite app_nil_r; congruence|]. destruct (tried w0 l) as [w1|] eqn:E1; [|discriminate].
    change (l :: r) with ([l] ++ r). rewrite app_assoc. apply (IH _ w1); [|exact E0]. econstructor; [exact M|now apply tried_ok]. }
  exact (G ls [] _ (m_none _ _ _ _ _ _ _ _ _ _ _ _ _ _) E).
Qed.
Definition outs (w : world byte_handler) := map (fun q => r_out (p_rd q)) (w_jobs w).
Lemma run_shows inp ls v : option_map outs (all_tried (m_world byte_handler (s_np shell) (s_tab shell) (s_nt shell) inp) ls) = Some v ->
  exists w, many_bytes some_limits (fun _ => true) 63 64 16 shell inp ls w /\ outs w = v.
Proof. destruct (all_tried _ _) as [w|] eqn:E; [|discriminate]. cbn. intros X. injection X as <-. exists w. split; [now apply all_tried_ok|reflexivity]. Qed.
(** echo | cat, and while it is running another one whose last program fails. *)
Definition two : list mlabel :=
  [MStart ["echo"%string] [["cat"%string]] [writer; cat]; MStep 0 NNext; MStep 0 (NProc 0); MStep 0 (NProc 1);
   MStart ["echo"%string] [["cat"%string]] [put 1 (Exits true); cat_then false]; MStep 1 (NProc 0); MStep 0 (NProc 0); MStep 1 (NProc 0); MStep 1 NNext;
   MStep 1 (NProc 1); MStep 1 (NProc 1); MStep 1 (NProc 1); MStep 1 (NProc 1); MStep 1 (NReadable 1); MStep 0 (NProc 0); MStep 0 (NProc 0); MStep 1 NWake; MStep 1 NNext; MStep 1 (NReadable 0); MStep 1 NWake; MStep 1 NNext;
   MStep 1 (NAtEof false); MStep 0 (NProc 1); MStep 0 (NProc 1); MStep 0 (NProc 1); MStep 0 (NProc 1); MStep 0 (NProc 1); MStep 0 (NProc 1); MStep 0 (NProc 1);
   MStep 0 (NReadable 3); MStep 0 NWake; MStep 0 NNext; MStep 0 (NReadable 0); MStep 0 NWake; MStep 0 NNext; MStep 0 (NAtEof true)].
Example C111_nonvacuous :
  a_shell shell /\ nth_error (starts two) 0 = Some (["echo"%string], [["cat"%string]], [writer; cat]) /\
  nth_error (starts two) 1 = Some (["echo"%string], [["cat"%string]], [put 1 (Exits true); cat_then false]) /\
  all_do [writer; cat] [] [97; 10; 98]%N [true; true] /\ all_do [put 1 (Exits true); cat_then false] [] [1]%N [true; false] /\
  Forall careful [writer; cat] /\ Forall careful [put 1 (Exits true); cat_then false] /\ others_read [writer; cat] [] /\
  all_give [writer; cat] [] true [97; 10; 98]%N true /\
  exists w, many_bytes some_limits (fun _ => true) 63 64 16 shell [] two w /\ outs w = [[GItem [97; 10; 98]%N; GItem []; GStop]; [GItem [1]%N; GItem []; GFailed]].
Proof.
  assert (Wd : does writer [] [97; 10; 98]%N true) by repeat constructor.
  split; [|split; [reflexivity|split; [reflexivity|split; [|split; [|split; [|split; [|split; [|split]]]]]]]].
  - split; [discriminate|]. split; [discriminate|]. split; [discriminate|].
    intros n o. do 3 (destruct n as [|n]; [cbn; intros E0; injection E0 as <-; intros []|]). unfold refers. Local Transparent tget. unfold tget. cbn. now destruct n.
  - econstructor; [exact Wd|]. econstructor; [apply does_cat|constructor].
  - econstructor; [repeat constructor|]. econstructor; [apply does_cat_then|constructor].
  - constructor; [unfold writer; repeat apply careful_put; constructor|]. constructor; [apply careful_cat|constructor].
  - constructor; [apply careful_put; constructor|]. constructor; [apply careful_cat_then|constructor].
  - exists [97; 10; 98]%N, true. split; [exact Wd|]. econstructor; [apply reads_all_cat|apply does_cat|constructor].
  - eapply all_give_ends; [apply does_gives; exact Wd|]. eapply all_give_ends; [apply does_gives, does_cat|]. constructor.
  - apply run_shows. vm_compute. reflexivity.
Qed.
(** If the shell's standard input is not at its end, they compete for it: here each of
    two cats gets one of the two bytes. *)
Example C111_input_is_shared : exists w,
  many_bytes some_limits (fun _ => true) 63 64 16 shell [1; 2]%N
    ([MStart ["cat"%string] [] [cat]; MStart ["cat"%string] [] [cat]] ++ map (fun j => MStep j (NProc 0)) [0; 1; 0; 1; 0; 1; 0; 1] ++
     List.concat (map (fun j => map (MStep j) [NNext; NReadable 1; NWake; NNext; NReadable 0; NWake; NNext; NAtEof true]) [0; 1])) w /\
  outs w = [[GItem [1]%N; GItem []; GStop]; [GItem [2]%N; GItem []; GStop]].
Proof. apply run_shows. vm_compute. reflexivity. Qed.
