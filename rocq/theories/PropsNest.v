(** C95: what bytes() of, and iterating over, a pipeline gives whose commands have
    pipelines as arguments, and when it ends. *)
From Verif Require Import Py RedirModel Os PerformModel PerformSpec RunModel RunSpec RunTopSpec RunEnds PropsRun IterModel IterSpec NetModel NetSpec NestModel NestSpec NestProofs NestTop.

(** C95.  bytes(diff(a | b, c) | ...) is what the programs compute, each from what its
    arguments and the command before it write, for every schedule: at any time a
    prefix of it has been delivered, and all of it when the iteration has ended. *)
Theorem C95_bytes : forall L pf logfd maxfd p s s' its x cap i inp progs out oks,
  started L pf logfd maxfd p s s' its x -> evals any p i progs out oks -> shell_input i inp -> Forall mcareful progs ->
  forall ls t, nest_bytes L logfd maxfd cap s s' its x (m_start byte_handler byte_init progs inp) ls = Some t ->
  prefix (List.concat (items_of (r_out (m_rd t)))) out /\
  (ended (r_out (m_rd t)) -> List.concat (items_of (r_out (m_rd t))) = out).
Proof.
  intros L pf logfd maxfd p s s' its x cap i inp progs out oks HS HE HI HC ls t E.
  destruct (nbytes_top L pf logfd maxfd p s s' its x HS any False ltac:(tauto) i inp out progs oks HE HI HC cap) as (bound & B).
  exact (proj1 (B ls t E)).
Qed.
Print Assumptions C95_bytes.
(** Iterating gives the lines of it. *)
Theorem C95_lines : forall L pf logfd maxfd p s s' its x cap i inp progs out oks lines,
  started L pf logfd maxfd p s s' its x -> evals any p i progs out oks -> shell_input i inp -> Forall mcareful progs -> is_lines out lines ->
  forall ls t, nest_lines L logfd maxfd cap s s' its x (m_start line_handler line_init progs inp) ls = Some t ->
  prefix (items_of (r_out (m_rd t))) lines /\
  (ended (r_out (m_rd t)) -> items_of (r_out (m_rd t)) = lines).
Proof.
  intros L pf logfd maxfd p s s' its x cap i inp progs out oks lines HS HE HI HC Hli ls t E.
  destruct (nlines_top L pf logfd maxfd p s s' its x HS any False ltac:(tauto) i inp out progs oks HE HI HC cap) as (bound & B).
  exact (proj1 (B ls t E) lines Hli).
Qed.
Print Assumptions C95_lines.
(** However it has run so far, it can end, whatever the pipes hold. *)
Theorem C95_no_deadlock : forall L pf logfd maxfd p s s' its x cap i inp progs out oks,
  started L pf logfd maxfd p s s' its x -> evals any p i progs out oks -> shell_input i inp -> Forall mcareful progs -> 0 < cap ->
  (forall ls t, nest_bytes L logfd maxfd cap s s' its x (m_start byte_handler byte_init progs inp) ls = Some t ->
     exists ls' t', nest_bytes L logfd maxfd cap s s' its x t ls' = Some t' /\ ended (r_out (m_rd t'))) /\
  (forall ls t, nest_lines L logfd maxfd cap s s' its x (m_start line_handler line_init progs inp) ls = Some t ->
     exists ls' t', nest_lines L logfd maxfd cap s s' its x t ls' = Some t' /\ ended (r_out (m_rd t'))).
Proof.
  intros L pf logfd maxfd p s s' its x cap i inp progs out oks HS HE HI HC Hc. split; intros ls t E.
  - destruct (nbytes_top L pf logfd maxfd p s s' its x HS any False ltac:(tauto) i inp out progs oks HE HI HC cap) as (bound & B).
    exact (proj1 (proj2 (B ls t E)) Hc).
  - destruct (nlines_top L pf logfd maxfd p s s' its x HS any False ltac:(tauto) i inp out progs oks HE HI HC cap) as (bound & B).
    exact (proj1 (proj2 (B ls t E)) Hc).
Qed.
Print Assumptions C95_no_deadlock.
(** There is no schedule in which the processes run forever. *)
Theorem C95_finite : forall L pf logfd maxfd p s s' its x cap i inp progs out oks,
  started L pf logfd maxfd p s s' its x -> evals any p i progs out oks -> shell_input i inp -> Forall mcareful progs ->
  exists bound,
  (forall ls t, nest_bytes L logfd maxfd cap s s' its x (m_start byte_handler byte_init progs inp) ls = Some t -> List.length (filter proc_label ls) <= bound) /\
  (forall ls t, nest_lines L logfd maxfd cap s s' its x (m_start line_handler line_init progs inp) ls = Some t -> List.length (filter proc_label ls) <= bound).
Proof.
  intros L pf logfd maxfd p s s' its x cap i inp progs out oks HS HE HI HC.
  destruct (nbytes_top L pf logfd maxfd p s s' its x HS any False ltac:(tauto) i inp out progs oks HE HI HC cap) as (b1 & B1).
  destruct (nlines_top L pf logfd maxfd p s s' its x HS any False ltac:(tauto) i inp out progs oks HE HI HC cap) as (b2 & B2).
  exists (b1 + b2). split; intros ls t E; [destruct (B1 ls t E) as (_ & _ & _ & X)|destruct (B2 ls t E) as (_ & _ & _ & X)]; lia.
Qed.
Print Assumptions C95_finite.
(** When it ends no process is left, and if a program was to fail, of the commands or of
    their arguments, it ends with an exception. *)
Theorem C95_fails : forall L pf logfd maxfd p s s' its x cap i inp progs out oks,
  started L pf logfd maxfd p s s' its x -> evals any p i progs out oks -> shell_input i inp -> Forall mcareful progs ->
  (forall ls t, nest_bytes L logfd maxfd cap s s' its x (m_start byte_handler byte_init progs inp) ls = Some t ->
     (ended (r_out (m_rd t)) -> forall k, nth k (m_procs t) None = None) /\ (In false oks -> ~ In GStop (r_out (m_rd t)))) /\
  (forall ls t, nest_lines L logfd maxfd cap s s' its x (m_start line_handler line_init progs inp) ls = Some t ->
     (ended (r_out (m_rd t)) -> forall k, nth k (m_procs t) None = None) /\ (In false oks -> ~ In GStop (r_out (m_rd t)))).
Proof.
  intros L pf logfd maxfd p s s' its x cap i inp progs out oks HS HE HI HC. split; intros ls t E.
  - destruct (nbytes_top L pf logfd maxfd p s s' its x HS any False ltac:(tauto) i inp out progs oks HE HI HC cap) as (bound & B).
    destruct (B ls t E) as (_ & _ & (V1 & V2 & _) & _). now split.
  - destruct (nlines_top L pf logfd maxfd p s s' its x HS any False ltac:(tauto) i inp out progs oks HE HI HC cap) as (bound & B).
    destruct (B ls t E) as (_ & _ & (V1 & V2 & _) & _). now split.
Qed.
Print Assumptions C95_fails.
(** If each program reads all of its input and of the files its arguments name, and
    none is to fail, it does not end with an exception. *)
Theorem C95_succeeds : forall L pf logfd maxfd p s s' its x cap i inp progs out oks,
  started L pf logfd maxfd p s s' its x -> evals reads_everything p i progs out oks -> shell_input i inp -> Forall mcareful progs -> ~ In false oks ->
  (forall ls t, nest_bytes L logfd maxfd cap s s' its x (m_start byte_handler byte_init progs inp) ls = Some t -> ~ In GFailed (r_out (m_rd t))) /\
  (forall ls t, nest_lines L logfd maxfd cap s s' its x (m_start line_handler line_init progs inp) ls = Some t -> ~ In GFailed (r_out (m_rd t))).
Proof.
  intros L pf logfd maxfd p s s' its x cap i inp progs out oks HS HE HI HC Ho. split; intros ls t E.
  - destruct (nbytes_top L pf logfd maxfd p s s' its x HS reads_everything True ltac:(auto) i inp out progs oks HE HI HC cap) as (bound & B).
    destruct (B ls t E) as (_ & _ & (_ & _ & V) & _). exact (V Logic.I Ho).
  - destruct (nlines_top L pf logfd maxfd p s s' its x HS reads_everything True ltac:(auto) i inp out progs oks HE HI HC cap) as (bound & B).
    destruct (B ls t E) as (_ & _ & (_ & _ & V) & _). exact (V Logic.I Ho).
Qed.
Print Assumptions C95_succeeds.

(** cat f1 f2 ... *)
CoFixpoint mcat (cs : list chan) : mprog :=
  match cs with
  | [] => MExits true
  | c :: r => MReads c (fun o => match o with Some b => MWrites b (fun ok => if ok then mcat cs else MExits false) | None => mcat r end)
  end.
Definition mprog_unfold (p : mprog) : mprog := match p with MReads c k => MReads c k | MWrites b k => MWrites b k | MExits ok => MExits ok end.
Lemma mprog_unfold_eq p : p = mprog_unfold p.
Proof. now destruct p. Qed.
Fixpoint mecho (l : list N) (ok : bool) : mprog :=
  match l with [] => MExits ok | b :: r => MWrites b (fun w => if w then mecho r ok else MExits false) end.
Lemma mcareful_mcat cs : mcareful (mcat cs).
Proof.
  revert cs. cofix IH. intros [|c r]; rewrite (mprog_unfold_eq (mcat _)); cbn; constructor.
  intros [b|]; [|apply IH]. constructor; [reflexivity|apply IH].
Qed.
Lemma mcareful_mecho l ok : mcareful (mecho l ok).
Proof. induction l as [|b l IH]; cbn; constructor; [reflexivity|exact IH]. Qed.
Lemma mdoes_mecho l ok ins : mdoes (mecho l ok) ins l ok.
Proof. induction l as [|b l IH]; cbn; constructor. exact IH. Qed.
Lemma chan_eqb_spec a b : chan_eqb a b = true <-> a = b.
Proof. destruct a, b; cbn; try (split; congruence). rewrite Nat.eqb_eq. split; congruence. Qed.
Lemma mcat_facts : forall cs ls ins, NoDup cs -> Forall2 (fun c l => ins c = Some l) cs ls ->
  mdoes (mcat cs) ins (List.concat ls) true /\ mreads (mcat cs) ins cs.
Proof.
  intros cs ls ins Nd F. revert ins F. revert ls. induction cs as [|c cs IHc]; intros ls ins F; inversion F as [|c0 l cs0 ls0 Fa Fb]; subst; clear F.
  - rewrite (mprog_unfold_eq (mcat [])). cbn. split; constructor.
  - inversion Nd as [|c0 cs0 Nn Nd']; subst. revert ins Fa Fb. induction l as [|b l IHl]; intros ins Fa Fb; rewrite (mprog_unfold_eq (mcat (c :: cs))); cbn [mcat mprog_unfold List.concat List.app].
    + destruct (IHc Nd' ls0 ins Fb) as [I1 I2]. split; [now constructor|]. eapply mreads_eof; [exact Fa| |exact I2].
      intros d [Hd|Hd]; [left; now symmetry|now right].
    + assert (G1 : rest_of ins c l c = Some l) by (unfold rest_of; now rewrite (proj2 (chan_eqb_spec c c) eq_refl)).
      assert (G2 : Forall2 (fun d m => rest_of ins c l d = Some m) cs ls0).
      { clear -Fb Nn. induction Fb as [|d m ds ms E F IH]; constructor.
        - unfold rest_of. destruct (chan_eqb d c) eqn:X; [|exact E]. exfalso. apply Nn. left. now apply chan_eqb_spec in X.
        - apply IH. intros X. apply Nn. now right. }
      destruct (IHl (rest_of ins c l) G1 G2) as [I1 I2]. split.
      * eapply mdoes_read; [exact Fa|]. cbn. constructor. exact I1.
      * eapply mreads_read; [exact Fa|]. constructor. exact I2.
Qed.

(** A shell with three files starts pipelines. *)
Definition nest_starts (p : pl) : bool :=
  match start some_limits (fun _ => true) true p shell with
  | (_, Ok (ret, its)) => match caller_fds ret with [_] => true | _ => false end && forallb (fun it => match it with IProc _ _ _ => roomy it | _ => true end) its
  | _ => false
  end.
Definition nest_after (p : pl) : st := fst (start some_limits (fun _ => true) true p shell).
Definition nest_its (p : pl) : list item := match snd (start some_limits (fun _ => true) true p shell) with Ok (_, its) => its | Err _ => [] end.
Definition nest_x (p : pl) : nat := match snd (start some_limits (fun _ => true) true p shell) with Ok (r, _) => hd 0 (caller_fds r) | Err _ => 0 end.
Lemma nest_started p : nest_starts p = true -> started some_limits (fun _ => true) 63 64 p shell (nest_after p) (nest_its p) (nest_x p).
Proof.
  unfold nest_starts, nest_after, nest_its, nest_x. destruct (start some_limits (fun _ => true) true p shell) as [s' [[ret its]|e]] eqn:E; [|discriminate]. cbn [fst snd].
  intros X. apply andb_prop in X as [X1 X2].
  split; [discriminate|]. split; [discriminate|]. split; [discriminate|]. split; [|split; [|split; [lia|split; [lia|]]]].
  - intros n o. do 3 (destruct n as [|n]; [cbn; intros E0; injection E0 as <-; intros []|]). unfold refers. Local Transparent tget. unfold tget. cbn. now destruct n.
  - exists ret. split; [exact E|]. destruct (caller_fds ret) as [|y [|z l]]; try discriminate. reflexivity.
  - rewrite forallb_forall in X2. intros rs t argv Hit. specialize (X2 _ Hit). cbn beta iota in X2. unfold roomy in X2. apply andb_prop in X2 as [Y1 Y2]. apply Nat.ltb_lt in Y1.
    assert (lim some_limits = 64) by reflexivity. clear Hit E.
    split; [|lia]. split; [lia|]. split; [lia|]. exists 40. split; [lia|]. split; [lia|]. destruct (tget t 40); [discriminate|reflexivity].
Qed.
(** cat("-", echo("ab") | cat, echo("c")) | cat, with "x" in the shell's standard input,
    where the second echo exits with status 0 iff [ok]. *)
Definition nest_line : pl :=
  PPipe (PCmd [AWord "cat"; AWord "-"; APipeline (PPipe (PCmd [AWord "echo"]) (PCmd [AWord "cat"])); APipeline (PCmd [AWord "echo"])]) (PCmd [AWord "cat"]).
Definition nest_progs (ok : bool) : list mprog :=
  [mecho [97; 98]%N true; mcat [Stdin]; mecho [99]%N ok; mcat [Stdin; Argument 2; Argument 3]; mcat [Stdin]].
Definition nest_out : list N := [120; 97; 98; 99]%N.
Lemma nest_evals ok : evals reads_everything nest_line (Bytes [120%N]) (nest_progs ok) nest_out [true; true; ok; true; true].
Proof.
  set (none := @nil (option (list N))).
  assert (ES : forall bs, mdoes (mcat [Stdin]) (files (Bytes bs) [None]) bs true /\ reads_everything (mcat [Stdin]) (Bytes bs) [None]).
  { intros bs. destruct (mcat_facts [Stdin] [bs] (files (Bytes bs) [None])) as [A B].
    - repeat constructor; cbn; tauto.
    - repeat constructor.
    - cbn in A. rewrite app_nil_r in A. split; [exact A|]. exists [Stdin]. split; [exact B|]. split; [|intros; now left].
      intros [|[|n]] b0 X; discriminate. }
  assert (EE : forall l o, evals reads_everything (PCmd [AWord "echo"]) Nothing [mecho l o] l [o]).
  { intros l o. change [mecho l o] with (@nil mprog ++ [mecho l o]). change [o] with (@nil bool ++ [o]).
    eapply evals_cmd; [apply ea_word; apply ea_nil|apply mdoes_mecho|]. exists []. split; [constructor|]. split; [|discriminate].
    intros [|[|n]] b0 X; discriminate. }
  assert (EC : forall bs, evals reads_everything (PCmd [AWord "cat"]) (Bytes bs) [mcat [Stdin]] bs [true]).
  { intros bs. change [mcat [Stdin]] with (@nil mprog ++ [mcat [Stdin]]). change [true] with (@nil bool ++ [true]).
    eapply evals_cmd; [apply ea_word; apply ea_nil| |]; apply ES. }
  unfold nest_line, nest_progs. 
  change [mecho [97; 98]%N true; mcat [Stdin]; mecho [99]%N ok; mcat [Stdin; Argument 2; Argument 3]; mcat [Stdin]]
    with ((([mecho [97; 98]%N true] ++ [mcat [Stdin]]) ++ ([mecho [99]%N ok] ++ []) ++ [mcat [Stdin; Argument 2; Argument 3]]) ++ [mcat [Stdin]]).
  change [true; true; ok; true; true] with ((([true] ++ [true]) ++ ([ok] ++ []) ++ [true]) ++ [true]).
  apply evals_pipe with (mid := nest_out); [|apply EC].
  rewrite !app_assoc, <- (app_assoc (_ ++ _) _ (@nil mprog)), <- (app_assoc (_ ++ _) _ (@nil bool)).
  destruct (mcat_facts [Stdin; Argument 2; Argument 3] [[120]; [97; 98]; [99]]%N (files (Bytes [120%N]) [None; None; Some [97; 98]%N; Some [99]%N])) as [A B].
  { repeat constructor; cbn; intuition discriminate. }
  { repeat constructor. }
  eapply evals_cmd with (argouts := [None; None; Some [97; 98]%N; Some [99]%N]).
  - apply ea_word, ea_word, ea_pipeline; [|apply ea_pipeline; [apply EE|apply ea_nil]].
    apply evals_pipe with (mid := [97; 98]%N); [apply EE|apply EC].
  - exact A.
  - exists [Stdin; Argument 2; Argument 3]. split; [exact B|]. split; [|intros; now left].
    intros [|[|[|[|[|n]]]]] b0 X; try discriminate; cbn; tauto.
Qed.
Lemma evals_any : forall p i ps out oks, evals reads_everything p i ps out oks -> evals any p i ps out oks.
Proof.
  apply (evals_mind reads_everything (fun p i ps out oks _ => evals any p i ps out oks) (fun l i ps outs oks _ => evals_args any l i ps outs oks)).
  - intros args i ps argouts oks p out ok _ A D _. eapply evals_cmd; [exact A|exact D|exact Logic.I].
  - intros a b i ps qs mid out oks1 oks2 _ A _ B. eapply evals_pipe; eassumption.
  - intros i. constructor.
  - intros w l i ps outs oks _ A. now constructor.
  - intros q l i ps qs out outs oks1 oks2 _ A _ B. now constructor.
Qed.
Lemma nest_careful ok : Forall mcareful (nest_progs ok).
Proof. repeat (apply Forall_cons; [first [apply mcareful_mcat|apply mcareful_mecho]|]). constructor. Qed.
Definition nest_schedule (ok : bool) : list nlabel :=
  NNext :: map NProc [0; 0; 1; 1; 0; 1; 1; 1; 1; 2; 2; 3; 3; 3; 3; 3; 4; 4; 3; 3; 3; 3; 3; 3; 4; 4; 4; 4; 3; 4; 4; 4; 4] ++
  [NReadable 4; NWake; NNext; NReadable 0; NWake; NNext; NAtEof ok].
Definition nest_show (ok : bool) :=
  match nest_bytes some_limits 63 64 4 shell (nest_after nest_line) (nest_its nest_line) (nest_x nest_line) (m_start byte_handler byte_init (nest_progs ok) [120%N]) (nest_schedule ok) with
  | Some t => r_out (m_rd t) | None => [] end.
Example C95_nonvacuous : forall ok,
  started some_limits (fun _ => true) 63 64 nest_line shell (nest_after nest_line) (nest_its nest_line) (nest_x nest_line) /\
  evals reads_everything nest_line (Bytes [120%N]) (nest_progs ok) nest_out [true; true; ok; true; true] /\
  evals any nest_line (Bytes [120%N]) (nest_progs ok) nest_out [true; true; ok; true; true] /\
  shell_input (Bytes [120%N]) [120%N] /\ Forall mcareful (nest_progs ok) /\
  nest_show ok = [GItem [120; 97; 98; 99]%N; GItem []; if ok then GStop else GFailed].
Proof.
  intros ok. split; [apply nest_started; vm_compute; reflexivity|]. split; [apply nest_evals|]. split; [apply evals_any, nest_evals|].
  split; [now left|]. split; [apply nest_careful|]. destruct ok; vm_compute; reflexivity.
Qed.
(** That arguments do not read the standard input they inherit is necessary: in
    cat(cat, cat) the two arguments share it, and the result depends on which of them
    reads first. *)
Definition race_line : pl := PCmd [AWord "cat"; APipeline (PCmd [AWord "cat"]); APipeline (PCmd [AWord "cat"])].
Definition race_progs : list mprog := [mcat [Stdin]; mcat [Stdin]; mcat [Argument 1; Argument 2]].
Theorem C95_shared_input_refuted :
  started some_limits (fun _ => true) 63 64 race_line shell (nest_after race_line) (nest_its race_line) (nest_x race_line) /\
  exists ls1 ls2 t1 t2,
    nest_bytes some_limits 63 64 4 shell (nest_after race_line) (nest_its race_line) (nest_x race_line) (m_start byte_handler byte_init race_progs [97; 98]%N) ls1 = Some t1 /\
    nest_bytes some_limits 63 64 4 shell (nest_after race_line) (nest_its race_line) (nest_x race_line) (m_start byte_handler byte_init race_progs [97; 98]%N) ls2 = Some t2 /\
    ended (r_out (m_rd t1)) /\ ended (r_out (m_rd t2)) /\
    List.concat (items_of (r_out (m_rd t1))) = [97; 98]%N /\ List.concat (items_of (r_out (m_rd t2))) = [98; 97]%N.
Proof.
  split; [apply nest_started; vm_compute; reflexivity|].
  set (rest := map NProc [0; 1; 0; 1; 0; 1; 2; 2; 2; 2; 2; 2; 2] ++ [NNext; NReadable 2; NWake; NNext; NReadable 0; NWake; NNext; NAtEof true]).
  exists (NProc 0 :: NProc 1 :: rest), (NProc 1 :: NProc 0 :: rest).
  do 2 eexists. split; [vm_compute; reflexivity|]. split; [vm_compute; reflexivity|]. cbn. repeat split; left; cbn; tauto.
Qed.
Print Assumptions C95_shared_input_refuted.
