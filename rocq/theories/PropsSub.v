(** C110: a pipeline some of whose commands are subshells, a | subshell(b | c) | d,
    gives what the pipeline without them, a | b | c | d, gives. *)
From Verif Require Import Py RedirModel Os PerformModel PerformSpec RunModel RunSpec RunTopSpec RunEnds PropsRun IterModel IterSpec NetModel NetSpec PropsNet SubModel SubSpec SubMain.

(** C110.  bytes(a | subshell(b | c) | d) is what the programs a, b, c, d compute, each from
    what the one before it writes ([all_do] says nothing of subshells), for every
    schedule: at any time a prefix of it has been delivered, and all of it when the
    iteration has ended. *)
Theorem C110_bytes : forall L pf logfd maxfd g gs s s' parts x cap inp progs out oks,
  sub_launched L pf logfd maxfd g gs s s' parts x -> List.length progs = List.length (spliced (g :: gs)) -> all_do progs inp out oks -> Forall careful progs -> 0 < cap ->
  forall ls t, sub_bytes L logfd maxfd cap s s' parts x (u_start byte_handler (subs_from 0 parts) byte_init progs inp) ls = Some t ->
  prefix (List.concat (items_of (r_out (u_rd t)))) out /\
  (ended (r_out (u_rd t)) -> List.concat (items_of (r_out (u_rd t))) = out).
Proof.
  intros L pf logfd maxfd g gs s s' parts x cap inp progs out oks HS Hl Hd Hc Hk ls t E.
  destruct (subs_bytes L pf logfd maxfd g gs s s' parts x HS cap progs inp out oks Hl Hd Hc Hk) as (bound & B). exact (proj1 (B ls t E)).
Qed.
Print Assumptions C110_bytes.
(** Iterating gives the lines of it. *)
Theorem C110_lines : forall L pf logfd maxfd g gs s s' parts x cap inp progs out oks lines,
  sub_launched L pf logfd maxfd g gs s s' parts x -> List.length progs = List.length (spliced (g :: gs)) -> all_do progs inp out oks -> Forall careful progs -> 0 < cap -> is_lines out lines ->
  forall ls t, sub_lines L logfd maxfd cap s s' parts x (u_start line_handler (subs_from 0 parts) line_init progs inp) ls = Some t ->
  prefix (items_of (r_out (u_rd t))) lines /\
  (ended (r_out (u_rd t)) -> items_of (r_out (u_rd t)) = lines).
Proof.
  intros L pf logfd maxfd g gs s s' parts x cap inp progs out oks lines HS Hl Hd Hc Hk Hli ls t E.
  destruct (subs_lines L pf logfd maxfd g gs s s' parts x HS cap progs inp out oks Hl Hd Hc Hk) as (bound & B). exact (proj1 (B ls t E) lines Hli).
Qed.
Print Assumptions C110_lines.
(** However it has run so far, it can end: no process keeps a pipe open that another
    one waits for the end of. *)
Theorem C110_no_deadlock : forall L pf logfd maxfd g gs s s' parts x cap inp progs out oks,
  sub_launched L pf logfd maxfd g gs s s' parts x -> List.length progs = List.length (spliced (g :: gs)) -> all_do progs inp out oks -> Forall careful progs -> 0 < cap ->
  (forall ls t, sub_bytes L logfd maxfd cap s s' parts x (u_start byte_handler (subs_from 0 parts) byte_init progs inp) ls = Some t ->
     exists ls' t', sub_bytes L logfd maxfd cap s s' parts x t ls' = Some t' /\ ended (r_out (u_rd t'))) /\
  (forall ls t, sub_lines L logfd maxfd cap s s' parts x (u_start line_handler (subs_from 0 parts) line_init progs inp) ls = Some t ->
     exists ls' t', sub_lines L logfd maxfd cap s s' parts x t ls' = Some t' /\ ended (r_out (u_rd t'))).
Proof.
  intros L pf logfd maxfd g gs s s' parts x cap inp progs out oks HS Hl Hd Hc Hk. split; intros ls t E.
  - destruct (subs_bytes L pf logfd maxfd g gs s s' parts x HS cap progs inp out oks Hl Hd Hc Hk) as (bound & B). exact (proj1 (proj2 (B ls t E))).
  - destruct (subs_lines L pf logfd maxfd g gs s s' parts x HS cap progs inp out oks Hl Hd Hc Hk) as (bound & B). exact (proj1 (proj2 (B ls t E))).
Qed.
Print Assumptions C110_no_deadlock.
(** There is no schedule in which the processes run forever. *)
Theorem C110_finite : forall L pf logfd maxfd g gs s s' parts x cap inp progs out oks,
  sub_launched L pf logfd maxfd g gs s s' parts x -> List.length progs = List.length (spliced (g :: gs)) -> all_do progs inp out oks -> Forall careful progs -> 0 < cap ->
  exists bound,
  (forall ls t, sub_bytes L logfd maxfd cap s s' parts x (u_start byte_handler (subs_from 0 parts) byte_init progs inp) ls = Some t -> List.length (filter own_label ls) <= bound) /\
  (forall ls t, sub_lines L logfd maxfd cap s s' parts x (u_start line_handler (subs_from 0 parts) line_init progs inp) ls = Some t -> List.length (filter own_label ls) <= bound).
Proof.
  intros L pf logfd maxfd g gs s s' parts x cap inp progs out oks HS Hl Hd Hc Hk.
  destruct (subs_bytes L pf logfd maxfd g gs s s' parts x HS cap progs inp out oks Hl Hd Hc Hk) as (b1 & B1).
  destruct (subs_lines L pf logfd maxfd g gs s s' parts x HS cap progs inp out oks Hl Hd Hc Hk) as (b2 & B2).
  exists (b1 + b2). split; intros ls t E; [destruct (B1 ls t E) as (_ & _ & _ & _ & _ & X)|destruct (B2 ls t E) as (_ & _ & _ & _ & _ & X)]; lia.
Qed.
Print Assumptions C110_finite.
(** When it has ended no process is left, neither a subshell nor one of its programs. *)
Theorem C110_nobody_left : forall L pf logfd maxfd g gs s s' parts x cap inp progs out oks,
  sub_launched L pf logfd maxfd g gs s s' parts x -> List.length progs = List.length (spliced (g :: gs)) -> all_do progs inp out oks -> Forall careful progs -> 0 < cap ->
  (forall ls t, sub_bytes L logfd maxfd cap s s' parts x (u_start byte_handler (subs_from 0 parts) byte_init progs inp) ls = Some t ->
     ended (r_out (u_rd t)) -> nobody t) /\
  (forall ls t, sub_lines L logfd maxfd cap s s' parts x (u_start line_handler (subs_from 0 parts) line_init progs inp) ls = Some t ->
     ended (r_out (u_rd t)) -> nobody t).
Proof.
  intros L pf logfd maxfd g gs s s' parts x cap inp progs out oks HS Hl Hd Hc Hk. split; intros ls t E.
  - destruct (subs_bytes L pf logfd maxfd g gs s s' parts x HS cap progs inp out oks Hl Hd Hc Hk) as (bound & B). exact (proj1 (proj2 (proj2 (B ls t E)))).
  - destruct (subs_lines L pf logfd maxfd g gs s s' parts x HS cap progs inp out oks Hl Hd Hc Hk) as (bound & B). exact (proj1 (proj2 (proj2 (B ls t E)))).
Qed.
Print Assumptions C110_nobody_left.
(** If a command of the pipeline, or the last command of one of its subshells, is to
    fail, it does not end without an exception. *)
Theorem C110_fails : forall L pf logfd maxfd g gs s s' parts x cap inp progs out oks,
  sub_launched L pf logfd maxfd g gs s s' parts x -> List.length progs = List.length (spliced (g :: gs)) -> all_do progs inp out oks -> Forall careful progs -> 0 < cap -> forall l, In l (last_ones 0 (g :: gs)) -> nth_error oks l = Some false ->
  (forall ls t, sub_bytes L logfd maxfd cap s s' parts x (u_start byte_handler (subs_from 0 parts) byte_init progs inp) ls = Some t ->
     ~ In GStop (r_out (u_rd t))) /\
  (forall ls t, sub_lines L logfd maxfd cap s s' parts x (u_start line_handler (subs_from 0 parts) line_init progs inp) ls = Some t ->
     ~ In GStop (r_out (u_rd t))).
Proof.
  intros L pf logfd maxfd g gs s s' parts x cap inp progs out oks HS Hl Hd Hc Hk l Hl' Hf. split; intros ls t E.
  - destruct (subs_bytes L pf logfd maxfd g gs s s' parts x HS cap progs inp out oks Hl Hd Hc Hk) as (bound & B). exact (proj1 (proj2 (proj2 (proj2 (B ls t E)))) l Hl' Hf).
  - destruct (subs_lines L pf logfd maxfd g gs s s' parts x HS cap progs inp out oks Hl Hd Hc Hk) as (bound & B). exact (proj1 (proj2 (proj2 (proj2 (B ls t E)))) l Hl' Hf).
Qed.
Print Assumptions C110_fails.
(** If each program but the first reads all of its input and none is to fail, it does not end with an
    exception. *)
Theorem C110_succeeds : forall L pf logfd maxfd g gs s s' parts x cap inp progs out oks,
  sub_launched L pf logfd maxfd g gs s s' parts x -> List.length progs = List.length (spliced (g :: gs)) -> all_do progs inp out oks -> Forall careful progs -> 0 < cap -> others_read progs inp -> ~ In false oks ->
  (forall ls t, sub_bytes L logfd maxfd cap s s' parts x (u_start byte_handler (subs_from 0 parts) byte_init progs inp) ls = Some t ->
     ~ In GFailed (r_out (u_rd t))) /\
  (forall ls t, sub_lines L logfd maxfd cap s s' parts x (u_start line_handler (subs_from 0 parts) line_init progs inp) ls = Some t ->
     ~ In GFailed (r_out (u_rd t))).
Proof.
  intros L pf logfd maxfd g gs s s' parts x cap inp progs out oks HS Hl Hd Hc Hk Hr Ho. split; intros ls t E.
  - destruct (subs_bytes L pf logfd maxfd g gs s s' parts x HS cap progs inp out oks Hl Hd Hc Hk) as (bound & B). exact (proj1 (proj2 (proj2 (proj2 (proj2 (B ls t E))))) Hr Ho).
  - destruct (subs_lines L pf logfd maxfd g gs s s' parts x HS cap progs inp out oks Hl Hd Hc Hk) as (bound & B). exact (proj1 (proj2 (proj2 (proj2 (proj2 (B ls t E))))) Hr Ho).
Qed.
Print Assumptions C110_succeeds.

(** Pipelines with subshells started by a shell with three files. *)
Definition sub_outer (g : stage) (gs : list stage) := start some_limits (fun _ => true) true (chain (stage_words g) (map stage_words gs)) shell.
Definition sub_items g gs : list item := match snd (sub_outer g gs) with Ok (_, its) => its | Err _ => [] end.
Definition sub_fd g gs : nat := match snd (sub_outer g gs) with Ok (r, _) => hd 0 (caller_fds r) | Err _ => 0 end.
Definition sub_inner (g : stage) (gs : list stage) : option (list part) :=
  enter_all some_limits (fun _ => true) 63 64 (g :: gs) (sub_items g gs) (s_np (fst (sub_outer g gs))) (s_nt (fst (sub_outer g gs))).
Definition sub_parts g gs : list part := match sub_inner g gs with Some ps => ps | None => [] end.
Definition proc_roomy (it : item) : bool := match it with IProc _ _ _ => roomy it | _ => true end.
Definition sub_starts (g : stage) (gs : list stage) : bool :=
  match snd (sub_outer g gs) with
  | Ok (ret, its) => match caller_fds ret with [_] => true | _ => false end && forallb proc_roomy its
  | Err _ => false
  end && match sub_inner g gs with Some ps => forallb proc_roomy (flat_map part_items ps) | None => false end.
Lemma proc_roomy_ok its : forallb proc_roomy its = true -> forall rs t argv, In (IProc rs t argv) its -> room some_limits 63 rs t /\ find_free_fd rs < 64.
Proof.
  intros X2 rs t argv Hit. rewrite forallb_forall in X2. specialize (X2 _ Hit). cbn [proc_roomy] in X2. unfold roomy in X2. apply andb_prop in X2 as [Y1 Y2]. apply Nat.ltb_lt in Y1.
  assert (lim some_limits = 64) by reflexivity. split; [|lia]. split; [lia|]. split; [lia|]. exists 40. split; [lia|]. split; [lia|]. destruct (tget t 40); [discriminate|reflexivity].
Qed.
Lemma sub_started g gs : sub_starts g gs = true -> sub_launched some_limits (fun _ => true) 63 64 g gs shell (fst (sub_outer g gs)) (sub_parts g gs) (sub_fd g gs).
Proof.
  unfold sub_starts. intros X. apply andb_prop in X as [X Y]. exists (sub_items g gs). unfold sub_parts, sub_items, sub_fd in *.
  destruct (sub_inner g gs) as [ps|] eqn:Ei; [|discriminate]. unfold sub_inner, sub_items in Ei. destruct (sub_outer g gs) as [s' [[ret its]|e]] eqn:E; [|discriminate]. cbn [fst snd] in *.
  apply andb_prop in X as [X1 X2]. split; [|split; [exact Ei|now apply proc_roomy_ok]].
  split; [discriminate|]. split; [discriminate|]. split; [discriminate|]. split; [|split; [|split; [lia|split; [lia|now apply proc_roomy_ok]]]].
  - intros n o. do 3 (destruct n as [|n]; [cbn; intros E0; injection E0 as <-; intros []|]). unfold refers. Local Transparent tget. unfold tget. cbn. now destruct n.
  - exists ret. split; [exact E|]. destruct (caller_fds ret) as [|y [|z l]]; try discriminate. reflexivity.
Qed.
(** echo | subshell(cat | cat) | cat, where the last program exits with status 0 iff [ok]. *)
Definition sub_line : list stage := [Subshell ["cat"%string] [["cat"%string]]; Command ["cat"%string]].
CoFixpoint cat_then (ok : bool) : prog := Reads (fun o => match o with Some b => put b (cat_then ok) | None => Exits ok end).
Lemma does_cat_then ok l : does (cat_then ok) l l ok.
Proof. induction l as [|b l IH]; rewrite (unfold_eq (cat_then ok)); cbn; repeat constructor. exact IH. Qed.
Lemma reads_all_cat_then ok l : reads_all (cat_then ok) l.
Proof. induction l as [|b l IH]; rewrite (unfold_eq (cat_then ok)); cbn; repeat constructor. exact IH. Qed.
Lemma careful_cat_then ok : careful (cat_then ok).
Proof. cofix IH. rewrite (unfold_eq (cat_then ok)). cbn. constructor. intros [b|]; [|constructor]. constructor; [reflexivity|exact IH]. Qed.
Definition sub_progs (ok : bool) : list prog := [writer; cat; cat; cat_then ok].
Definition sub_schedule (ok : bool) : list ulabel :=
  URun NNext :: map (fun i => URun (NProc i)) [0; 1; 1; 2; 2; 3; 3; 0; 0; 0; 1; 1; 1; 1; 1; 1; 2; 2; 2; 2; 2; 2] ++ [ULeave 0] ++ map (fun i => URun (NProc i)) [3; 3; 3; 3; 3; 3] ++
  map URun [NReadable 3; NWake; NNext; NReadable 0; NWake; NNext; NAtEof ok].
Definition sub_show (ok : bool) :=
  match sub_bytes some_limits 63 64 4 shell (fst (sub_outer (Command ["echo"%string]) sub_line)) (sub_parts (Command ["echo"%string]) sub_line) (sub_fd (Command ["echo"%string]) sub_line)
    (u_start byte_handler (subs_from 0 (sub_parts (Command ["echo"%string]) sub_line)) byte_init (sub_progs ok) []) (sub_schedule ok) with
  | Some t => r_out (u_rd t) | None => [] end.
Example C110_nonvacuous : forall ok,
  sub_launched some_limits (fun _ => true) 63 64 (Command ["echo"%string]) sub_line shell (fst (sub_outer (Command ["echo"%string]) sub_line)) (sub_parts (Command ["echo"%string]) sub_line) (sub_fd (Command ["echo"%string]) sub_line) /\
  List.length (sub_progs ok) = List.length (spliced (Command ["echo"%string] :: sub_line)) /\
  all_do (sub_progs ok) [] [97; 10; 98]%N [true; true; true; ok] /\ others_read (sub_progs ok) [] /\ Forall careful (sub_progs ok) /\
  last_ones 0 (Command ["echo"%string] :: sub_line) = [0; 2; 3] /\
  sub_show ok = [GItem [97; 10; 98]%N; GItem []; if ok then GStop else GFailed].
Proof.
  intros ok. assert (Wd : does writer [] [97; 10; 98]%N true) by repeat constructor.
  split; [apply sub_started; vm_compute; reflexivity|]. split; [reflexivity|]. split; [|split; [|split; [|split; [reflexivity|destruct ok; vm_compute; reflexivity]]]].
  - econstructor; [exact Wd|]. econstructor; [apply does_cat|]. econstructor; [apply does_cat|]. econstructor; [apply does_cat_then|]. constructor.
  - exists [97; 10; 98]%N, true. split; [exact Wd|]. econstructor; [apply reads_all_cat|apply does_cat|]. econstructor; [apply reads_all_cat|apply does_cat|]. econstructor; [apply reads_all_cat_then|apply does_cat_then|]. constructor.
  - repeat apply Forall_cons; try apply careful_cat; try apply careful_cat_then; [|constructor]. unfold writer. repeat apply careful_put. constructor.
Qed.

(** The program that fails must be the last of its subshell: without the subshell
    false | cat ends with an exception whichever of the two fails (C90), but with one,
    subshell(false | cat) ends as if nothing had happened. *)
Definition hidden : stage := Subshell ["false"%string] [["cat"%string]].
Definition hidden_schedule : list ulabel :=
  URun NNext :: map (fun i => URun (NProc i)) [0; 1; 1] ++ [ULeave 0] ++ map URun [NReadable 0; NWake; NNext; NAtEof true].
Theorem C110_other_failures_refuted :
  sub_launched some_limits (fun _ => true) 63 64 hidden [] shell (fst (sub_outer hidden [])) (sub_parts hidden []) (sub_fd hidden []) /\
  all_do [failing; cat] [] [] [false; true] /\ Forall careful [failing; cat] /\ others_read [failing; cat] [] /\
  exists t, sub_bytes some_limits 63 64 4 shell (fst (sub_outer hidden [])) (sub_parts hidden []) (sub_fd hidden [])
    (u_start byte_handler (subs_from 0 (sub_parts hidden [])) byte_init [failing; cat] []) hidden_schedule = Some t /\
    In GStop (r_out (u_rd t)).
Proof.
  split; [apply sub_started; vm_compute; reflexivity|]. split; [repeat econstructor; apply does_cat|]. split; [repeat constructor; apply careful_cat|].
  split; [exists [], false; split; [constructor|]; econstructor; [apply reads_all_cat|apply does_cat|constructor]|].
  eexists. split; [vm_compute; reflexivity|]. cbn. tauto.
Qed.
Print Assumptions C110_other_failures_refuted.
