(** C112: using a pipeline where the event loop already runs. *)
From Verif Require Import Py RedirModel Os PerformModel PerformSpec RunModel RunSpec RunTopSpec RunEnds PropsRun IterModel IterSpec IterProofs NetModel NetSpec NetProofs NetTop PropsNet LeaveSpec PropsLeave SyncModel SyncSpec SyncProofs SyncTop.

(** C112 is false.  Anywhere the event loop runs the code, bytes(), str() and loops
    start the pipeline, and the caller never gets anything: the first item asked
    for is the RuntimeError, in whatever state the pipeline is by then. *)
Theorem C112_refused_refuted : forall L pf logfd maxfd c cs s s' its x cap progs inp out oks w p,
  within_loop p -> waits_for_output w -> launched L pf logfd maxfd c cs s s' its x ->
  List.length progs = S (List.length cs) -> all_do progs inp out oks ->
  (exists ret, begin L pf w p (chain c cs) s = (s', Called (Ok (ret, its)))) /\
  (forall ls t, bytes_use L logfd maxfd cap s s' its x w p (mkU (net_start byte_handler byte_init progs inp) false) ls = Some t ->
     r_out (n_rd (u_net t)) = [] /\ (u_refused t = true <-> 0 < asked ls) /\
     (u_refused t = false -> exists t', bytes_use L logfd maxfd cap s s' its x w p t [NNext] = Some t' /\ u_refused t' = true /\ u_net t' = u_net t)) /\
  (forall ls t, lines_use L logfd maxfd cap s s' its x w p (mkU (net_start line_handler line_init progs inp) false) ls = Some t ->
     r_out (n_rd (u_net t)) = [] /\ (u_refused t = true <-> 0 < asked ls) /\
     (u_refused t = false -> exists t', lines_use L logfd maxfd cap s s' its x w p t [NNext] = Some t' /\ u_refused t' = true /\ u_net t' = u_net t)).
Proof.
  intros L pf logfd maxfd c cs s s' its x cap progs inp out oks w p Hp Hw HL Hl Ha. apply within_runs in Hp. apply waits_through in Hw.
  assert (A : through_loop w && loop_runs p = true) by now rewrite Hp, Hw.
  assert (Cnt : forall ls, existsb asks ls = true <-> 0 < asked ls).
  { intros ls. unfold asked. induction ls as [|l ls IH]; cbn [existsb filter List.length]; [split; [discriminate|lia]|]. destruct (asks l); cbn [orb List.length]; [split; [lia|reflexivity]|exact IH]. }
  assert (Z : forall ls, asked (filter (fun l => negb (asks l)) ls) = 0).
  { intros ls. unfold asked. induction ls as [|l ls IH]; [reflexivity|]. cbn [filter]. destruct (asks l) eqn:E; cbn [negb]; [exact IH|]. cbn [filter]. rewrite E. exact IH. }
  split; [|split].
  - destruct HL as (_ & _ & _ & _ & (ret & E & _) & _). exists ret. destruct w; cbn in Hw; try discriminate; unfold begin, directly; now rewrite E.
  - intros ls t E. destruct (refused_steps _ _ _ _ _ _ _ _ _ _ _ _ _ w p A ls _ _ E) as [E1 E2]. cbn [u_net u_refused orb] in E1, E2.
    split; [exact (proj1 (unasked_bytes L pf logfd maxfd c cs s s' its x HL cap progs inp out oks Hl Ha _ _ (Z ls) E1))|]. split; [rewrite E2; apply Cnt|].
    intros R. exists (mkU (u_net t) true). unfold bytes_use. cbn [usteps ustep]. rewrite R, A. auto.
  - intros ls t E. destruct (refused_steps _ _ _ _ _ _ _ _ _ _ _ _ _ w p A ls _ _ E) as [E1 E2]. cbn [u_net u_refused orb] in E1, E2.
    split; [exact (proj1 (unasked_lines L pf logfd maxfd c cs s s' its x HL cap progs inp out oks Hl Ha _ _ (Z ls) E1))|]. split; [rewrite E2; apply Cnt|].
    intros R. exists (mkU (u_net t) true). unfold lines_use. cbn [usteps ustep]. rewrite R, A. auto.
Qed.
Print Assumptions C112_refused_refuted.
(** What is left behind.  If the pipeline computes anything (for a loop: a line that
    ends), the descriptor it was to be read from is never closed, and if it
    computes more than fits into the pipe and one read, its last process never
    ends.  [first]: up to and including the first newline. *)
Theorem C112_left_behind_refuted : forall L pf logfd maxfd c cs s s' its x cap progs inp out oks w p,
  within_loop p -> waits_for_output w -> launched L pf logfd maxfd c cs s s' its x ->
  List.length progs = S (List.length cs) -> all_do progs inp out oks ->
  (forall ls t, bytes_use L logfd maxfd cap s s' its x w p (mkU (net_start byte_handler byte_init progs inp) false) ls = Some t ->
     (out <> [] -> bi_open (r_h (n_rd (u_net t))) = true) /\
     (cap + 1024 < List.length out -> nth (List.length cs) (n_procs (u_net t)) None <> None)) /\
  (forall ls t, lines_use L logfd maxfd cap s s' its x w p (mkU (net_start line_handler line_init progs inp) false) ls = Some t ->
     (In nl out -> li_open (r_h (n_rd (u_net t))) = true) /\
     (forall first rest, out = first ++ rest -> In nl first -> cap + 1023 < List.length rest -> nth (List.length cs) (n_procs (u_net t)) None <> None)).
Proof.
  intros L pf logfd maxfd c cs s s' its x cap progs inp out oks w p Hp Hw HL Hl Ha. apply within_runs in Hp. apply waits_through in Hw.
  assert (A : through_loop w && loop_runs p = true) by now rewrite Hp, Hw.
  assert (Z : forall ls, asked (filter (fun l => negb (asks l)) ls) = 0).
  { intros ls. unfold asked. induction ls as [|l ls IH]; [reflexivity|]. cbn [filter]. destruct (asks l) eqn:E; cbn [negb]; [exact IH|]. cbn [filter]. rewrite E. exact IH. }
  split; intros ls t E; destruct (refused_steps _ _ _ _ _ _ _ _ _ _ _ _ _ w p A ls _ _ E) as [E1 _]; cbn [u_net] in E1.
  - exact (proj2 (unasked_bytes L pf logfd maxfd c cs s s' its x HL cap progs inp out oks Hl Ha _ _ (Z ls) E1)).
  - split; [exact (proj2 (unasked_lines L pf logfd maxfd c cs s s' its x HL cap progs inp out oks Hl Ha _ _ (Z ls) E1))|].
    intros first rest -> Hn Hb. assert (Hc : 0 < count_occ N.eq_dec first nl) by now apply count_occ_In.
    exact (proj2 (proj2 (C96_too_much_refuted L pf logfd maxfd c cs s s' its x cap progs inp first rest oks 0 HL Hl Ha Hc Hb _ (u_net t) ltac:(rewrite Z; apply le_n) E1))).
Qed.
Print Assumptions C112_left_behind_refuted.
(** [+cmd] is refused there too, but without having started anything. *)
Theorem C112_plus_refuted : forall L pf p cmd s, within_loop p -> begin L pf UPlus p cmd s = (s, Refused).
Proof. intros L pf p cmd s Hp. apply within_runs in Hp. unfold begin, run_until_complete. now rewrite Hp. Qed.
Print Assumptions C112_plus_refuted.
(** Everywhere else, and with [await] and [async for] everywhere, all is as C87
    says: nothing is refused, the caller gets what the programs compute and can
    always get to its end. *)
Theorem C112_elsewhere_partial : forall L pf logfd maxfd c cs s s' its x cap progs inp out oks lines w p,
  ~ (within_loop p /\ (waits_for_output w \/ w = UPlus)) -> launched L pf logfd maxfd c cs s s' its x -> 0 < cap ->
  List.length progs = S (List.length cs) -> all_do progs inp out oks -> Forall careful progs -> is_lines out lines ->
  (forall cmd, exists s1 r, begin L pf w p cmd s = (s1, Called r)) /\
  (forall ls t, bytes_use L logfd maxfd cap s s' its x w p (mkU (net_start byte_handler byte_init progs inp) false) ls = Some t ->
     u_refused t = false /\ (ended (r_out (n_rd (u_net t))) -> List.concat (items_of (r_out (n_rd (u_net t)))) = out) /\
     exists ls' t', bytes_use L logfd maxfd cap s s' its x w p t ls' = Some t' /\ ended (r_out (n_rd (u_net t')))) /\
  (forall ls t, lines_use L logfd maxfd cap s s' its x w p (mkU (net_start line_handler line_init progs inp) false) ls = Some t ->
     u_refused t = false /\ prefix (items_of (r_out (n_rd (u_net t)))) lines /\ (ended (r_out (n_rd (u_net t))) -> items_of (r_out (n_rd (u_net t))) = lines) /\
     exists ls' t', lines_use L logfd maxfd cap s s' its x w p t ls' = Some t' /\ ended (r_out (n_rd (u_net t')))).
Proof.
  intros L pf logfd maxfd c cs s s' its x cap progs inp out oks lines w p Hn HL Hcap Hl Ha Hc Hli.
  assert (Hn' : ~ (loop_runs p = true /\ (through_loop w = true \/ w = UPlus))) by (rewrite <- within_runs, <- waits_through; exact Hn).
  assert (A : through_loop w && loop_runs p = false) by (destruct (through_loop w), (loop_runs p); try reflexivity; exfalso; apply Hn'; auto).
  split; [|split].
  - intros cmd. unfold begin, directly, run_until_complete. destruct (start L pf true cmd s) as [s1 r1], (start L pf false cmd s) as [s2 r2].
    destruct w; eauto. destruct (loop_runs p) eqn:Ep; [exfalso; apply Hn'; auto|]. eauto.
  - intros ls t E. unfold bytes_use in E. rewrite allowed_steps in E by (exact A || reflexivity). cbn [u_net] in E.
    destruct (nsteps _ _ _ _ _ _ _ _ _ _ _ _ _ _ ls) as [n|] eqn:En; [|discriminate]. injection E as <-. cbn [u_net u_refused]. split; [reflexivity|].
    split; [exact (proj2 (C87_bytes L pf logfd maxfd c cs s s' its x cap progs inp out oks HL Hl Ha ls n En))|].
    destruct (C87_bytes_no_deadlock L pf logfd maxfd c cs s s' its x cap progs inp out oks HL Hcap Hl Ha Hc ls n En) as (ls' & t' & E' & Ed).
    exists ls', (mkU t' false). unfold bytes_use. rewrite allowed_steps by (exact A || reflexivity). cbn [u_net]. unfold bytes_run in E'. rewrite E'. auto.
  - intros ls t E. unfold lines_use in E. rewrite allowed_steps in E by (exact A || reflexivity). cbn [u_net] in E.
    destruct (nsteps _ _ _ _ _ _ _ _ _ _ _ _ _ _ ls) as [n|] eqn:En; [|discriminate]. injection E as <-. cbn [u_net u_refused]. split; [reflexivity|].
    destruct (C87_lines L pf logfd maxfd c cs s s' its x cap progs inp out oks lines HL Hl Ha Hli ls n En) as [Y1 Y2]. split; [exact Y1|]. split; [exact Y2|].
    destruct (C87_lines_no_deadlock L pf logfd maxfd c cs s s' its x cap progs inp out oks HL Hcap Hl Ha Hc ls n En) as (ls' & t' & E' & Ed).
    exists ls', (mkU t' false). unfold lines_use. rewrite allowed_steps by (exact A || reflexivity). cbn [u_net]. unfold lines_run in E'. rewrite E'. auto.
Qed.
Print Assumptions C112_elsewhere_partial.

(** str(e.echo(..) | e.cat()) in a generator that is itself in a pipeline, run by a
    loop over it at the prompt; the function the generator function calls; the
    same at the prompt; and, in the end, echo and cat with "y" lines, of which the
    descriptor stays. *)
Example C112_nonvacuous : forall cap,
  within_loop GeneratorBody /\ within_loop (PlainBody UPlus AtTop) /\ ~ within_loop AtTop /\ ~ within_loop (PlainBody UFor AtTop) /\ waits_for_output UStr /\
  launched some_limits (fun _ => true) 63 64 ["echo"%string] [["head"%string]] shell (fst started) started_items started_fd /\
  all_do [puts (ys 1 ++ ys (cap + 512)); cat] [] (ys 1 ++ ys (cap + 512)) [true; true] /\
  In nl (ys 1) /\ cap + 1023 < List.length (ys (cap + 512)) /\ cap + 1024 < List.length (ys 1 ++ ys (cap + 512)) /\
  (exists ls t, bytes_use some_limits 63 64 4 shell (fst started) started_items started_fd UStr GeneratorBody (mkU (net_start byte_handler byte_init [puts (ys 1); cat] []) false) ls = Some t /\
     u_refused t = true /\ (forall i, nth i (n_procs (u_net t)) None = None) /\ bi_open (r_h (n_rd (u_net t))) = true /\ r_out (n_rd (u_net t)) = []) /\
  (exists ls t, bytes_use some_limits 63 64 4 shell (fst started) started_items started_fd UStr AtTop (mkU (net_start byte_handler byte_init [puts (ys 1); cat] []) false) ls = Some t /\
     u_refused t = false /\ r_out (n_rd (u_net t)) = [GItem (ys 1); GItem []; GStop] /\ bi_open (r_h (n_rd (u_net t))) = false).
Proof.
  intros cap. split; [constructor|]. split; [apply in_function_of_plus|]. split; [intros X; inversion X|]. split; [intros X; inversion X as [| |w p Y| |]; inversion Y|]. split; [right; now left|].
  split; [exact started_launched|]. split; [econstructor; [apply does_puts|]; econstructor; [apply does_cat|constructor]|]. split; [vm_compute; auto|]. split; [rewrite ys_length; lia|]. split; [rewrite app_length, !ys_length; lia|]. split.
  - exists (NNext :: map NProc [0; 0; 0; 1; 1; 1; 1] ++ [NReadable 2] ++ map NProc [1; 1] ++ [NReadable 0]).
    eexists. split; [vm_compute; reflexivity|]. cbn. repeat split. intros [|[|[|i] ] ]; reflexivity.
  - exists (NNext :: map NProc [0; 0; 0; 1; 1; 1; 1] ++ [NReadable 2; NWake; NNext] ++ map NProc [1; 1] ++ [NReadable 0; NWake; NNext; NAtEof true]).
    eexists. split; [vm_compute; reflexivity|]. cbn. repeat split.
Qed.
