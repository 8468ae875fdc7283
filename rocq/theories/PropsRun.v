(** Property theorems C06-C12 and C46: starting pipelines. *)
From Verif Require Import Py RedirModel RedirSpec Os PerformModel PerformSpec RunModel RunSpec
  RunTopSpec RunMain RunFinal RunMore RunFail RunEnds RunStarted.

(** C06.  Starting any clean pipeline either fails with EMFILE/EPERM or starts
    exactly the items of the wiring specification, in order, each connected as
    specified. *)
Theorem C06_wiring : forall L pf piped p s o0 o1 logfd maxfd,
  refers (s_tab s) 0 = Some o0 -> refers (s_tab s) 1 = Some o1 -> tget (s_tab s) 2 <> None ->
  clean (can_open L) INone piped p ->
  match start L pf piped p s with
  | (_, Err e) => errs e
  | (s', Ok (ret, its)) =>
      let W := wire p (top_env o0 o1 piped) (s_np s) (s_nt s) in
      Forall2 (connected L logfd maxfd (s_tab s')) (w_leaves W) its /\
      (if piped then exists x k, caller_fds ret = [x] /\ w_out W = Some k /\ refers (s_tab s') x = Some (OPipeR k)
       else w_out W = None)
  end.
Proof.
  exact (fun L pf piped p s o0 o1 logfd maxfd H0 H1 H2 Hc =>
    match start L pf piped p s as r return
      (match r with (_, Err e) => errs e | (s', Ok (ret, its)) => _ end) ->
      match r with (_, Err e) => errs e | (s', Ok (ret, its)) => _ end
    with
    | (s', Ok (ret, its)) => fun H => conj (proj1 H) (proj1 (proj2 H))
    | (s', Err e) => fun H => H
    end (start_correct L pf piped p s o0 o1 logfd maxfd H0 H1 H2 Hc)).
Qed.
Print Assumptions C06_wiring.

(** C06 for the ordinary case c0 | c1 | ... | cn, spelled out without the
    wiring function: command i reads the pipe number i-1 and writes pipe number
    i, the first reads the shell's stdin, the last writes the shell's stdout (or
    the pipe handed to the caller), each has a stderr file of its own and no
    other descriptor. *)
Theorem C06_chain : forall o0 o1 piped c cs np nt i ws,
  let W := wire (chain c cs) (top_env o0 o1 piped) np nt in
  let n := List.length cs in
  List.length (w_leaves W) = S n /\
  (nth_error (c :: cs) i = Some ws ->
   exists io, nth_error (w_leaves W) i = Some (LProc io (map WWord ws)) /\
     io 0 = Some (match i with 0 => o0 | S j => OPipeR (np + j) end) /\
     io 1 = Some (if Nat.eqb i n then (if piped then OPipeW (np + n) else o1) else OPipeW (np + i)) /\
     io 2 = Some (OTmp (nt + i)) /\
     forall m, 2 < m -> io m = None) /\
  w_out W = (if piped then Some (np + n) else None).
Proof. exact chain_spec. Qed.
Print Assumptions C06_chain.

(** Every chain is clean, so C06_wiring applies to it. *)
Theorem C06_chain_clean : forall can c cs piped, clean can INone piped (chain c cs).
Proof. exact clean_chain. Qed.
Print Assumptions C06_chain_clean.

(** C06: nobody holds both ends of one pipe (a process that does never sees end
    of file). *)
Theorem C06_no_both_ends : forall p o0 o1 piped np nt l k,
  (forall o, o = o0 \/ o = o1 -> is_end o -> pipe_no o < np) ->
  (forall j, ~ (In (OPipeR j) [o0; o1] /\ In (OPipeW j) [o0; o1])) ->
  In l (w_leaves (wire p (top_env o0 o1 piped) np nt)) ->
  ~ (holds l (OPipeR k) /\ holds l (OPipeW k)).
Proof. exact no_both_ends. Qed.
Print Assumptions C06_no_both_ends.

(** The same two facts about the started processes themselves. *)
Theorem C06_chain_started : forall L pf piped c cs s o0 o1 logfd maxfd,
  refers (s_tab s) 0 = Some o0 -> refers (s_tab s) 1 = Some o1 -> tget (s_tab s) 2 <> None ->
  match start L pf piped (chain c cs) s with
  | (_, Err e) => errs e
  | (s', Ok (ret, its)) =>
      let n := List.length cs in
      List.length its = S n /\
      (forall i ws, nth_error (c :: cs) i = Some ws -> exists rs t argv, nth_error its i = Some (IProc rs t argv) /\
        (room L logfd rs t -> find_free_fd rs < maxfd ->
         let see := program_fd L logfd maxfd rs t in
         argv = map Word ws /\
         see 0 = Some (match i with 0 => o0 | S j => OPipeR (s_np s + j) end) /\
         see 1 = Some (if Nat.eqb i n then (if piped then OPipeW (s_np s + n) else o1) else OPipeW (s_np s + i)) /\
         see 2 = Some (OTmp (s_nt s + i)) /\
         (forall m, 2 < m -> m < maxfd -> m <> logfd -> see m = None))) /\
      (if piped then exists x, caller_fds ret = [x] /\ refers (s_tab s') x = Some (OPipeR (s_np s + n)) else True)
  end.
Proof. exact start_chain. Qed.
Print Assumptions C06_chain_started.
Theorem C06_no_both_ends_started : forall L pf piped p s o0 o1 logfd maxfd,
  refers (s_tab s) 0 = Some o0 -> refers (s_tab s) 1 = Some o1 -> tget (s_tab s) 2 <> None ->
  clean (can_open L) INone piped p ->
  (forall o, o = o0 \/ o = o1 -> is_end o -> pipe_no o < s_np s) ->
  (forall j, ~ (In (OPipeR j) [o0; o1] /\ In (OPipeW j) [o0; o1])) ->
  match start L pf piped p s with
  | (_, Err e) => errs e
  | (s', Ok (ret, its)) => forall it k, In it its -> ~ (item_holds L logfd maxfd (s_tab s') it (OPipeR k) /\ item_holds L logfd maxfd (s_tab s') it (OPipeW k))
  end.
Proof. exact start_one_end. Qed.
Print Assumptions C06_no_both_ends_started.

(** C07.  The descriptor table of the shell afterwards: as before, except for
    new descriptors owned by python functions and the end handed to the
    caller. *)
Theorem C07_no_leak : forall L pf piped p s o0 o1,
  refers (s_tab s) 0 = Some o0 -> refers (s_tab s) 1 = Some o1 -> tget (s_tab s) 2 <> None ->
  clean (can_open L) INone piped p ->
  match start L pf piped p s with
  | (_, Err e) => errs e
  | (s', Ok (ret, its)) =>
      let own := (if piped then caller_fds ret else []) ++ function_fds its in
      NoDup own /\ (forall n, In n own -> tget (s_tab s) n = None) /\
      (forall n, ~ In n own -> tget (s_tab s') n = tget (s_tab s) n)
  end.
Proof.
  exact (fun L pf piped p s o0 o1 H0 H1 H2 Hc =>
    match start L pf piped p s as r return
      (match r with (_, Err e) => errs e | (s', Ok (ret, its)) => _ end) ->
      match r with (_, Err e) => errs e | (s', Ok (ret, its)) => _ end
    with
    | (s', Ok (ret, its)) => fun H => proj2 (proj2 H)
    | (s', Err e) => fun H => H
    end (start_correct L pf piped p s o0 o1 0 0 H0 H1 H2 Hc)).
Qed.
Print Assumptions C07_no_leak.

(** A shell with stdin, stdout and stderr. *)
Definition shell : st := mkSt [Some (mkEnt (OInit 0) false); Some (mkEnt (OInit 1) false); Some (mkEnt (OInit 2) false)] 0 0.
Definition some_limits : limits := mkLimits 64 (fun _ _ => true).
Definition out_file : redirects := [(1, mkRedirect 1 (SPath (PName "out")) out_flags default_mode None false)].
(** (cat <(ls | wc) - | python_function | sort > out) + echo *)
Definition sample : pl :=
  PGroup
    (PPipe (PPipe (PCmd [AWord "cat"; APipeline (chain ["ls"%string] [["wc"%string]]); AWord "-"]) (PFun true))
           (PRedir (PCmd [AWord "sort"]) out_file))
    (PCmd [AWord "echo"]).
Definition roomy (it : item) : bool :=
  match it with
  | IProc rs t _ => (find_free_fd rs + List.length rs <? 40) && match tget t 40 with None => true | _ => false end
  | IFun _ _ _ => true
  end.
Example C06_C07_nonvacuous :
  refers (s_tab shell) 0 = Some (OInit 0) /\ refers (s_tab shell) 1 = Some (OInit 1) /\ tget (s_tab shell) 2 <> None /\
  clean (can_open some_limits) INone false sample /\
  match start some_limits (fun _ => true) false sample shell with
  | (s', Ok (_, its)) =>
      List.length its = 6 /\ function_fds its = [7; 8] /\
      Forall (fun it => match it with
                        | IProc rs t _ => room some_limits 63 rs t /\ find_free_fd rs < 64
                        | _ => True end) its
  | _ => False
  end.
Proof.
  split; [reflexivity|]. split; [reflexivity|]. split; [discriminate|]. split.
  - cbn. intuition (try discriminate; try reflexivity; try lia).
    + split; [repeat constructor; intros []|repeat constructor; discriminate].
    + repeat constructor; cbn; intros; try discriminate; try reflexivity; lia.
  - destruct (start some_limits (fun _ => true) false sample shell) as [s' [[ret its]|e]] eqn:E.
    + assert (X : (List.length its, function_fds its, forallb roomy its) = (6, [7; 8], true)).
      { apply (f_equal (fun r => match r with (_, Ok (_, l)) => (List.length l, function_fds l, forallb roomy l) | _ => (0, [], false) end)) in E.
        rewrite <- E. vm_compute. reflexivity. }
      injection X as X1 X2 X3. split; [exact X1|]. split; [exact X2|].
      apply Forall_forall. rewrite forallb_forall in X3. intros it Hit. specialize (X3 it Hit).
      destruct it as [rs t argv|]; [|exact I]. apply andb_prop in X3 as [Y1 Y2]. apply Nat.ltb_lt in Y1.
      assert (lim some_limits = 64) by reflexivity.
      split; [|lia]. split; [lia|]. split; [lia|]. exists 40. split; [lia|]. split; [lia|].
      destruct (tget t 40); [discriminate|reflexivity].
    + apply (f_equal (fun r => match snd r with Ok _ => true | Err _ => false end)) in E. vm_compute in E. discriminate.
Qed.

(** C08 is false of the code: in a | (b < file) the read end of a's pipe stays
    open in the shell, owned by nobody - for every such pipeline. *)
Theorem C08_override_leaks_refuted : forall L pf piped a b f fl s o0 o1,
  refers (s_tab s) 0 = Some o0 -> refers (s_tab s) 1 = Some o1 -> tget (s_tab s) 2 <> None ->
  clean (can_open L) INone true a -> clean (can_open L) INone piped b -> can_open L f fl = true ->
  match start L pf piped (PPipe a (PRedir b (stdin_file f fl))) s with
  | (_, Err e) => errs e
  | (s', Ok (ret, its)) => exists n k, tget (s_tab s) n = None /\
      refers (s_tab s') n = Some (OPipeR k) /\
      ~ In n ((if piped then caller_fds ret else []) ++ function_fds its)
  end.
Proof. exact pipe_into_redirected. Qed.
Print Assumptions C08_override_leaks_refuted.
Example C08_nonvacuous :
  clean (can_open some_limits) INone true (PCmd [AWord "a"]) /\
  clean (can_open some_limits) INone false (PCmd [AWord "b"]) /\
  exists s' x, start some_limits (fun _ => true) false
    (PPipe (PCmd [AWord "a"]) (PRedir (PCmd [AWord "b"]) (stdin_file (PName "f") 0))) shell = (s', Ok x).
Proof. cbn. split; [exact I|]. split; [exact I|]. vm_compute. eauto. Qed.

(** C09 is false of the code: in (a + b) | c the two members write to different
    pipes, c reads the second, and the first one's read end stays open in the
    shell, owned by nobody. *)
Theorem C09_group_output_lost_refuted : forall L pf piped a b c s o0 o1 logfd maxfd,
  refers (s_tab s) 0 = Some o0 -> refers (s_tab s) 1 = Some o1 -> tget (s_tab s) 2 <> None ->
  clean (can_open L) INone true a -> clean (can_open L) INone true b -> clean (can_open L) IPiped piped c ->
  match start L pf piped (PPipe (PGroup a b) c) s with
  | (_, Err e) => errs e
  | (s', Ok (ret, its)) => exists k1 k2 la ta lb tb lc ia ib ic,
      k1 <> k2 /\ its = (ia ++ ib) ++ ic /\
      Forall2 (connected L logfd maxfd (s_tab s')) (la ++ [ta]) ia /\ leaf_out ta = Some (OPipeW k1) /\
      Forall2 (connected L logfd maxfd (s_tab s')) (lb ++ [tb]) ib /\ leaf_out tb = Some (OPipeW k2) /\
      Forall2 (connected L logfd maxfd (s_tab s')) lc ic /\
      (exists np nt, lc = w_leaves (wire c (feed_stdin (top_env o0 o1 piped) k2) np nt)) /\
      exists n, tget (s_tab s) n = None /\ refers (s_tab s') n = Some (OPipeR k1) /\
        ~ In n ((if piped then caller_fds ret else []) ++ function_fds its)
  end.
Proof. exact group_piped. Qed.
Print Assumptions C09_group_output_lost_refuted.
Example C09_nonvacuous :
  clean (can_open some_limits) IPiped false (PCmd [AWord "c"]) /\
  exists s' x, start some_limits (fun _ => true) false
    (PPipe (PGroup (PCmd [AWord "a"]) (PCmd [AWord "b"])) (PCmd [AWord "c"])) shell = (s', Ok x).
Proof. cbn. split; [exact I|]. vm_compute. eauto. Qed.

(** C10 is false of the code: the descriptor given as source of a redirect is
    closed in the shell, whatever it is (1 for 2>&1). *)
Theorem C10_source_closed_refuted : forall L pf ws n s e,
  tget (s_tab s) n = Some e ->
  match start L pf false (PRedir (PCmd (map AWord ws)) (stderr_to n)) s with
  | (_, Err _) => False
  | (s', Ok _) => tget (s_tab s') n = None
  end.
Proof. exact int_source_closed. Qed.
Print Assumptions C10_source_closed_refuted.
Example C10_nonvacuous : exists e, tget (s_tab shell) 1 = Some e.
Proof. vm_compute. eauto. Qed.

(** C11.  The last of the started items, whose exit code is the exit code of the
    pipeline, is the rightmost command (or function), whatever the redirects and
    the descriptor table. *)
Theorem C11_last_item_is_rightmost : forall L pf p rs s s' o its,
  no_builtin p -> run L pf p rs s = (s', Ok (o, its)) ->
  o <> None /\ exists its0 it, its = its0 ++ [it] /\ item_of (rightmost p) it.
Proof. exact run_last. Qed.
Print Assumptions C11_last_item_is_rightmost.
Example C11_nonvacuous :
  no_builtin sample /\ rightmost sample = PCmd [AWord "echo"] /\
  exists rs s' o its, default_redirects = Ok rs /\
    run some_limits (fun _ => true) sample rs shell = (s', Ok (o, its)).
Proof. cbn. split; [tauto|]. split; [reflexivity|]. do 4 eexists. split; [reflexivity|]. vm_compute. reflexivity. Qed.

(** C12.  Each argument of a command is wired to the item started for it, all
    argument pipes are different pipes; C06_wiring says that the command finds
    them on different descriptors above 2, which the arguments name. *)
Theorem C12_arguments_wired : forall can i o args e np nt,
  clean can i o (PCmd args) ->
  exists ls io ws, w_leaves (wire (PCmd args) e np nt) = ls ++ [LProc io ws] /\
    Forall2 (arg_wired ls) args ws /\ NoDup (map pipe_no (arg_ofds ws)).
Proof. exact command_args_wired. Qed.
Print Assumptions C12_arguments_wired.
(** The same about the started command. *)
Theorem C12_arguments_started : forall L pf piped args s o0 o1 logfd maxfd,
  refers (s_tab s) 0 = Some o0 -> refers (s_tab s) 1 = Some o1 -> tget (s_tab s) 2 <> None ->
  clean (can_open L) INone piped (PCmd args) ->
  match start L pf piped (PCmd args) s with
  | (_, Err e) => errs e
  | (s', Ok (ret, its)) =>
      exists ls its0 rs t argv, its = its0 ++ [IProc rs t argv] /\
        Forall2 (connected L logfd maxfd (s_tab s')) ls its0 /\
        (room L logfd rs t -> find_free_fd rs < maxfd ->
         Forall2 (arg_started (program_fd L logfd maxfd rs t) ls) args argv /\ NoDup (arg_numbers argv))
  end.
Proof. exact start_args. Qed.
Print Assumptions C12_arguments_started.
Example C12_nonvacuous :
  clean (can_open some_limits) INone false
    (PCmd [AWord "diff"; APipeline (PCmd [AWord "a"]); AIterator; AFunction; AWord "-u"]) /\
  match start some_limits (fun _ => true) false
    (PCmd [AWord "diff"; APipeline (PCmd [AWord "a"]); AIterator; AFunction; AWord "-u"]) shell with
  | (_, Ok (_, its)) => match rev its with
                        | IProc _ _ argv :: _ => argv = [Word "diff"; DevFd 4; DevFd 5; DevFd 6; Word "-u"]
                        | _ => False end
  | _ => False end.
Proof. split; [cbn; tauto|]. vm_compute. reflexivity. Qed.

(** C46 is false of the code: a builtin such as cd or bg at either end of a pipe
    never starts successfully (KeyError after the other side was started). *)
Theorem C46_builtin_right_of_pipe_refuted : forall L pf a rs s s' x,
  run L pf (PPipe a PBuiltin) rs s <> (s', Ok x).
Proof. exact run_pipe_builtin_r. Qed.
Print Assumptions C46_builtin_right_of_pipe_refuted.
Theorem C46_builtin_left_of_pipe_refuted : forall L pf b rs s s' x,
  run L pf (PPipe PBuiltin b) rs s <> (s', Ok x).
Proof. exact run_pipe_builtin_l. Qed.
Print Assumptions C46_builtin_left_of_pipe_refuted.
Example C46_nonvacuous : exists rs, default_redirects = Ok rs /\
  snd (run some_limits (fun _ => true) (PPipe (PCmd [AWord "ls"]) PBuiltin) rs shell) = Err KeyError.
Proof. eexists. split; [reflexivity|]. vm_compute. reflexivity. Qed.
