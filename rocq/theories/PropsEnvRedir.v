(** Property theorems C114: the default redirects of an environment. *)
From Verif Require Import Py RedirModel RedirSpec Os PerformModel PerformSpec RunModel RunSpec RunTopSpec RunMain RunFinal
  OperModel EnvRedirModel EnvRedirSpec EnvRedirProofs EnvRedirTop EnvRedirSame PropsRun.

(** C114: after any session the redirects an environment has are those it was made with
    plus, in order, every redirect registered through an environment that uses the same. *)
Theorem C114_history : forall h e, sensible 0 h -> e < List.length (filter makes h) ->
  object_of (after h) e = Some (fold_left plus (settings h e) (made_with h (user h e))).
Proof. intros h e S0 He. rewrite settings_is. apply (k_obj h _ (okh_all h S0)). now rewrite users_len. Qed.
Print Assumptions C114_history.

(** C114: for any clean pipeline run in an environment that was made by Environment() (or
    derived from one), for any session before: either the system refuses, or every process
    is connected as the wiring of C06 says, with the descriptors the settings name in place
    of the shell's; nothing else stays open. *)
Theorem C114_wiring : forall L pf h piped p s o0 o1 logfd maxfd,
  sensible 0 h -> env_of p < List.length (filter makes h) -> made_with h (user h (env_of p)) = standard ->
  Forall (ordinary (can_open L)) (settings h (env_of p)) ->
  refers (s_tab s) 0 = Some o0 -> refers (s_tab s) 1 = Some o1 -> tget (s_tab s) 2 <> None ->
  clean (can_open L) INone piped (parts p) ->
  match run_in L pf (after h) piped p s with
  | (_, Err e) => errs e
  | (s', Ok (ret, its)) =>
      let given := override (top_env o0 o1 false) (settings h (env_of p)) in
      let W := wire (parts p) (if piped then ask_stdout given else given) (s_np s) (s_nt s) in
      Forall2 (connected L logfd maxfd (s_tab s')) (w_leaves W) its /\
      (if piped then exists x k, caller_fds ret = [x] /\ w_out W = Some k /\ refers (s_tab s') x = Some (OPipeR k)
       else w_out W = None) /\
      (let own := (if piped then caller_fds ret else []) ++ function_fds its in
       NoDup own /\ (forall n, In n own -> tget (s_tab s) n = None) /\
       (forall n, ~ In n own -> tget (s_tab s') n = tget (s_tab s) n))
  end.
Proof.
  intros L pf h piped p s o0 o1 logfd maxfd S0 He Hm Ho H0 H1 H2 Hc. unfold run_in. rewrite (C114_history h _ S0 He), Hm.
  exact (run_set_correct L pf piped _ (parts p) s o0 o1 logfd maxfd H0 H1 H2 Ho Hc).
Qed.
Print Assumptions C114_wiring.

(** C114 spelled out for c0 | c1 | ... | cn: the first command's stdin, the last one's
    stdout and everybody's stderr are what the settings of the environment say, the last
    setting of a descriptor counting; the pipes between them, and the pipe of a caller who
    reads the output, are not affected by any setting. *)
Theorem C114_chain : forall L pf h e piped c cs s o0 o1 logfd maxfd,
  sensible 0 h -> e < List.length (filter makes h) -> made_with h (user h e) = standard ->
  Forall (ordinary (can_open L)) (settings h e) ->
  refers (s_tab s) 0 = Some o0 -> refers (s_tab s) 1 = Some o1 -> tget (s_tab s) 2 <> None ->
  let l := settings h e in
  match run_in L pf (after h) piped (EPart e (chain c cs)) s with
  | (_, Err er) => errs er
  | (s', Ok (ret, its)) =>
      let n := List.length cs in
      List.length its = S n /\
      (forall i ws, nth_error (c :: cs) i = Some ws -> exists rs t argv, nth_error its i = Some (IProc rs t argv) /\
        (room L logfd rs t -> find_free_fd rs < maxfd ->
         let see := program_fd L logfd maxfd rs t in
         argv = map Word ws /\
         match i with 0 => as_set l 0 (fun o => o = Some o0) (see 0) | S j => see 0 = Some (OPipeR (s_np s + j)) end /\
         (if andb (Nat.eqb i n) (negb piped) then as_set l 1 (fun o => o = Some o1) (see 1) else see 1 = Some (OPipeW (s_np s + i))) /\
         as_set l 2 (fun o => exists k, o = Some (OTmp k)) (see 2) /\
         (forall m, 2 < m -> m < maxfd -> m <> logfd -> see m = None))) /\
      (if piped then exists x, caller_fds ret = [x] /\ refers (s_tab s') x = Some (OPipeR (s_np s + n)) else True)
  end.
Proof.
  intros L pf h e piped c cs s o0 o1 logfd maxfd S0 He Hm Ho H0 H1 H2 l. unfold run_in. cbn [env_of parts]. rewrite (C114_history h _ S0 He), Hm.
  exact (run_set_chain L pf piped _ c cs s o0 o1 logfd maxfd H0 H1 H2 Ho).
Qed.
Print Assumptions C114_chain.

(** C114: running a pipeline (any, not only clean ones) in an environment is exactly running it
    in a fresh environment with the settings written as redirects of the pipeline. *)
Theorem C114_like_redirecting : forall L pf h e p s,
  sensible 0 h -> e < List.length (filter makes h) -> made_with h (user h e) = standard ->
  Forall (fun r => r_source r <> SNone) (settings h e) ->
  run_in L pf (after h) false (EPart e p) s = start L pf false (PRedir p (fold_left plus (settings h e) [])) s.
Proof.
  intros L pf h e p s S0 He Hm F. unfold run_in. cbn [env_of parts]. rewrite (C114_history h e S0 He), Hm. exact (env_is_redirecting L pf _ p s F).
Qed.
Print Assumptions C114_like_redirecting.

(** C114: the pipeline's own redirects come after those of its environment, so the last of
    both counts; for any pipeline ... *)
Theorem C114_own_wins : forall L pf h e p crs s,
  sensible 0 h -> e < List.length (filter makes h) -> made_with h (user h e) = standard ->
  Forall (fun r => r_source r <> SNone) (settings h e) -> Forall (fun r => r_source r <> SNone) (dvals crs) ->
  run_in L pf (after h) false (EPart e (PRedir p crs)) s = start L pf false (PRedir p (fold_left plus (settings h e ++ dvals crs) [])) s.
Proof.
  intros L pf h e p crs s S0 He Hm F1 F2. unfold run_in. cbn [env_of parts]. rewrite (C114_history h e S0 He), Hm, (env_then_own L pf _ p crs s F1 F2).
  apply env_is_redirecting. apply Forall_app. now split.
Qed.
Print Assumptions C114_own_wins.
(** ... and spelled out for (c0 | ... | cn) with redirects [crs]. *)
Theorem C114_chain_redirected : forall L pf h e c cs crs s o0 o1 logfd maxfd,
  sensible 0 h -> e < List.length (filter makes h) -> made_with h (user h e) = standard ->
  Forall (ordinary (can_open L)) (settings h e) -> Forall (ordinary (can_open L)) (dvals crs) ->
  refers (s_tab s) 0 = Some o0 -> refers (s_tab s) 1 = Some o1 -> tget (s_tab s) 2 <> None ->
  let l := settings h e ++ dvals crs in
  match run_in L pf (after h) false (EPart e (PRedir (chain c cs) crs)) s with
  | (_, Err er) => errs er
  | (s', Ok (ret, its)) =>
      let n := List.length cs in
      List.length its = S n /\
      (forall i ws, nth_error (c :: cs) i = Some ws -> exists rs t argv, nth_error its i = Some (IProc rs t argv) /\
        (room L logfd rs t -> find_free_fd rs < maxfd ->
         let see := program_fd L logfd maxfd rs t in
         argv = map Word ws /\
         match i with 0 => as_set l 0 (fun o => o = Some o0) (see 0) | S j => see 0 = Some (OPipeR (s_np s + j)) end /\
         (if Nat.eqb i n then as_set l 1 (fun o => o = Some o1) (see 1) else see 1 = Some (OPipeW (s_np s + i))) /\
         as_set l 2 (fun o => exists k, o = Some (OTmp k)) (see 2) /\
         (forall m, 2 < m -> m < maxfd -> m <> logfd -> see m = None)))
  end.
Proof.
  intros L pf h e c cs crs s o0 o1 logfd maxfd S0 He Hm F1 F2 H0 H1 H2 l.
  assert (R : forall x, Forall (ordinary (can_open L)) x -> Forall (fun r => r_source r <> SNone) x).
  { intros x. apply Forall_impl. intros r [_ X]. destruct (r_source r); try contradiction; discriminate. }
  assert (F : Forall (ordinary (can_open L)) l) by (apply Forall_app; now split).
  unfold run_in. cbn [env_of parts]. rewrite (C114_history h e S0 He), Hm, (env_then_own L pf _ _ crs s (R _ F1) (R _ F2)).
  pose proof (run_set_chain L pf false l c cs s o0 o1 logfd maxfd H0 H1 H2 F) as G. unfold l in G at 1. cbv beta iota in G.
  destruct (run_top L pf (fold_left plus (settings h e ++ dvals crs) standard) [] (chain c cs) s) as [s' [[ret its]|er]]; [|exact G].
  destruct G as (A & B & _). cbv zeta. split; [exact A|]. intros i ws Hi. destruct (B i ws Hi) as (rs & t & argv & X & Y). exists rs, t, argv. split; [exact X|]. cbn [negb] in Y. rewrite Bool.andb_true_r in Y. exact Y.
Qed.
Print Assumptions C114_chain_redirected.

(** C114: which environments a registration concerns: exactly those that use the same
    redirects.  The others keep theirs. *)
Theorem C114_others_keep : forall h e r x, sensible 0 (h ++ [ESet e r]) -> x < List.length (filter makes h) ->
  object_of (after (h ++ [ESet e r])) x =
  (if Nat.eqb (user h e) (user h x) then match object_of (after h) x with Some rs => Some (plus rs r) | None => None end
   else object_of (after h) x).
Proof.
  intros h e r x S0 Hx. pose proof S0 as S1. apply sensible_snoc in S1 as [S1 _].
  rewrite (C114_history _ x S0) by (rewrite filter_app, app_length; lia). rewrite (C114_history h x S1 Hx). rewrite !settings_is. rewrite <- users_len in Hx.
  rewrite settings_for_snoc by exact S0. rewrite user_snoc by exact Hx. rewrite made_with_snoc by (apply (k_user h _ (okh_all h S1)); exact Hx).
  rewrite fold_left_app. now destruct (Nat.eqb (user h e) (user h x)).
Qed.
Print Assumptions C114_others_keep.

(** C114: an environment made with redirects of its own shares with nobody: registering
    through it leaves every older environment as it was, and the other way round. *)
Theorem C114_own_redirects : forall h rs r x, sensible 0 h -> x < List.length (filter makes h) ->
  let d := List.length (filter makes h) in
  forall derived, derived = EWith rs \/ derived = EDeriveWith x rs ->
  object_of (after (h ++ [derived] ++ [ESet d r])) x = object_of (after h) x /\
  object_of (after (h ++ [derived] ++ [ESet x r])) d = Some rs.
Proof.
  intros h rs r x S0 Hx d derived Hd.
  assert (Mk : makes derived = true) by (destruct Hd as [-> | ->]; reflexivity).
  assert (S1 : sensible 0 (h ++ [derived])) by (apply sensible_snoc; split; [exact S0|]; destruct Hd as [-> | ->]; cbn; auto).
  assert (Ld : List.length (filter makes (h ++ [derived])) = S d) by (rewrite filter_app, app_length; cbn; rewrite Mk; cbn; fold d; lia).
  assert (Sx : forall y, y < S d -> sensible 0 ((h ++ [derived]) ++ [ESet y r])) by (intros y Hy; apply sensible_snoc; split; [exact S1|]; cbn [names]; rewrite Ld; exact Hy).
  rewrite !app_assoc. rewrite (C114_others_keep _ d r x (Sx d (Nat.lt_succ_diag_r d))) by (rewrite Ld; lia). rewrite (C114_others_keep _ x r d (Sx x (Nat.lt_lt_succ_r _ _ Hx))) by (rewrite Ld; lia).
  assert (Lu : List.length (users h) = d) by apply users_len.
  assert (Ud : user (h ++ [derived]) d = d).
  { unfold user. rewrite users_snoc. destruct Hd as [-> | ->]; cbn [ustep]; rewrite app_nth2 by lia; rewrite Lu, Nat.sub_diag; reflexivity. }
  assert (Ux : user (h ++ [derived]) x = user h x) by (apply user_snoc; lia).
  pose proof (proj1 (k_user h _ (okh_all h S0) x ltac:(lia))) as Lt. rewrite Lu in Lt.
  rewrite Ud, Ux. replace (d =? user h x) with false by (symmetry; apply Nat.eqb_neq; lia). replace (user h x =? d) with false by (symmetry; apply Nat.eqb_neq; lia). split.
  - rewrite (C114_history _ x S1), (C114_history h x S0 Hx) by (rewrite Ld; lia). rewrite !settings_is, Ux. rewrite settings_for_snoc by exact S1. rewrite made_with_snoc by lia.
    destruct Hd as [-> | ->]; now rewrite app_nil_r.
  - pose proof (okh_own h derived rs (after h) S1) as K. rewrite after_snoc.
    replace (fst (envstep (after h) derived)) with (add_env (after h) rs) by (destruct Hd as [-> | ->]; reflexivity).
    unfold object_of, add_env. cbn. pose proof (k_len h _ (okh_all h S0)) as Kl. rewrite nth_error_app2 by lia. rewrite Kl, Lu, Nat.sub_diag. cbn. rewrite nth_error_app2 by lia. now rewrite Nat.sub_diag.
Qed.
Print Assumptions C114_own_redirects.

(** C114 is false of derived environments (env(...), env[dir]): a redirect registered
    through the copy also changes the original, for every redirect and every session. *)
Theorem C114_derived_refuted : forall h e r, sensible 0 h -> e < List.length (filter makes h) ->
  let d := List.length (filter makes h) in
  object_of (after (h ++ [EDerive e] ++ [ESet d r])) e = match object_of (after h) e with Some rs => Some (plus rs r) | None => None end.
Proof.
  intros h e r S0 He d. assert (Lu : List.length (users h) = d) by apply users_len.
  assert (S1 : sensible 0 (h ++ [EDerive e])) by (apply sensible_snoc; split; [exact S0|exact He]).
  assert (Ld : List.length (filter makes (h ++ [EDerive e])) = S d) by (rewrite filter_app, app_length; cbn; fold d; lia).
  assert (S2 : sensible 0 ((h ++ [EDerive e]) ++ [ESet d r])) by (apply sensible_snoc; split; [exact S1|]; cbn [names]; rewrite Ld; cbn; lia).
  rewrite app_assoc, (C114_others_keep _ d r e S2) by (rewrite Ld; lia).
  assert (Ud : user (h ++ [EDerive e]) d = user h e) by (unfold user at 1; rewrite users_snoc; cbn [ustep]; rewrite app_nth2 by lia; rewrite Lu, Nat.sub_diag; reflexivity).
  rewrite Ud, user_snoc by lia. rewrite Nat.eqb_refl.
  rewrite (C114_history _ e S1), (C114_history h e S0 He) by (rewrite Ld; lia). rewrite !settings_is, user_snoc by lia. rewrite settings_for_snoc by exact S1. rewrite made_with_snoc by (apply (k_user h _ (okh_all h S0)); lia).
  now rewrite app_nil_r.
Qed.
Print Assumptions C114_derived_refuted.

(** C114 is false of env | x and x | env, which are to set a default: they raise NameError
    for every x and every session, and no environment changes. *)
Theorem C114_or_refuted : forall h e x, sensible 0 h -> e < List.length (filter makes h) ->
  envstep (after h) (EOr e x) = (after h, Err NameError) /\ envstep (after h) (ERor e x) = (after h, Err NameError).
Proof.
  intros h e x S0 He. pose proof (C114_history h e S0 He) as Ob. cbn [envstep]. unfold set_default. rewrite Ob. unfold object_of in Ob.
  destruct (nth_error (v_refs (after h)) e); [|discriminate]. split; reflexivity.
Qed.
Print Assumptions C114_or_refuted.

(** C114 is false of open descriptors given as a default (env._redirects.redirect('stderr', n)):
    the first command run in the environment closes descriptor n of the shell, while the
    environment goes on naming it. *)
Theorem C114_descriptor_refuted : forall L pf h e n ws s x,
  sensible 0 h -> e < List.length (filter makes h) -> made_with h (user h e) = standard ->
  settings h e = [mkRedirect 2 (SInt n) out_flags default_mode None false] -> tget (s_tab s) n = Some x ->
  match run_in L pf (after h) false (EPart e (PCmd (map AWord ws))) s with
  | (_, Err _) => False
  | (s', Ok _) => tget (s_tab s') n = None
  end.
Proof.
  intros L pf h e n ws s x S0 He Hm Hs Hn. rewrite (C114_like_redirecting L pf h e _ s S0 He Hm) by (rewrite Hs; repeat constructor; discriminate).
  rewrite Hs. exact (C10_source_closed_refuted L pf ws n s x Hn).
Qed.
Print Assumptions C114_descriptor_refuted.

(** C114: a pipeline of parts made in several environments is run with the redirects of
    the leftmost part's environment alone. *)
Theorem C114_left_environment : forall L pf v piped a b s,
  run_in L pf v piped (EPipe a b) s = run_in L pf v piped (EPart (env_of a) (PPipe (parts a) (parts b))) s.
Proof. reflexivity. Qed.
Print Assumptions C114_left_environment.
(** ... so what the environment of the last command sets for stdout is ignored. *)
Definition logged : redirect := mkRedirect 1 (SPath (PName "/tmp/log")) out_flags default_mode None false.
Definition two_envs : list envop := [ENew; ENew; ESet 1 logged].
Theorem C114_mixed_refuted :
  Forall (ordinary (can_open some_limits)) (settings two_envs 1) /\
  exists s' rs1 t1 a1 rs2 t2 a2 ret, run_in some_limits (fun _ => true) (after two_envs) false
      (EPipe (EPart 0 (PCmd [AWord "echo"%string])) (EPart 1 (PCmd [AWord "cat"%string]))) shell = (s', Ok (ret, [IProc rs1 t1 a1; IProc rs2 t2 a2])) /\
    program_fd some_limits 63 64 rs2 t2 1 = refers (s_tab shell) 1 /\
    exists s'' rs t a ret', run_in some_limits (fun _ => true) (after two_envs) false (EPart 1 (PCmd [AWord "cat"%string])) shell = (s'', Ok (ret', [IProc rs t a])) /\
    program_fd some_limits 63 64 rs t 1 = Some (OFile (PName "/tmp/log") out_flags).
Proof.
  split; [repeat constructor|].
  destruct (run_in some_limits (fun _ => true) (after two_envs) false (EPipe (EPart 0 (PCmd [AWord "echo"%string])) (EPart 1 (PCmd [AWord "cat"%string]))) shell) as [s' [[ret its]|er]] eqn:E; [|vm_compute in E; discriminate].
  vm_compute in E. injection E as <- <- <-. do 8 eexists. split; [reflexivity|]. split; [vm_compute; reflexivity|].
  do 5 eexists. split; [vm_compute; reflexivity|]. vm_compute. reflexivity.
Qed.
Print Assumptions C114_mixed_refuted.
(** A session that meets the hypotheses of C114_chain and of C114_others_keep: an environment,
    one derived from it and one of its own; the derived one logs. *)
Definition three_envs : list envop := [ENew; EDerive 0; EDeriveWith 0 standard; ESet 1 logged].
Example C114_chain_nonvacuous :
  sensible 0 three_envs /\ 0 < List.length (filter makes three_envs) /\ made_with three_envs (user three_envs 0) = standard /\
  Forall (ordinary (can_open some_limits)) (settings three_envs 0) /\ settings three_envs 0 = [logged] /\ settings three_envs 2 = [] /\
  object_of (after three_envs) 0 = Some (plus standard logged) /\ object_of (after three_envs) 2 = Some standard /\
  match run_in some_limits (fun _ => true) (after three_envs) false (EPart 0 (chain ["echo"%string] [["cat"%string]])) shell with
  | (_, Ok (_, [IProc rs1 t1 _; IProc rs2 t2 _])) =>
      room some_limits 63 rs2 t2 /\ find_free_fd rs2 < 64 /\
      program_fd some_limits 63 64 rs1 t1 1 = Some (OPipeW (s_np shell)) /\ program_fd some_limits 63 64 rs2 t2 1 = Some (OFile (PName "/tmp/log") out_flags)
  | _ => False
  end.
Proof.
  split; [cbn; lia|]. split; [cbn; lia|]. split; [reflexivity|]. split; [repeat constructor|]. do 4 (split; [vm_compute; reflexivity|]).
  destruct (run_in some_limits (fun _ => true) (after three_envs) false (EPart 0 (chain ["echo"%string] [["cat"%string]])) shell) as [s' [[ret its]|er]] eqn:E; [|vm_compute in E; discriminate].
  vm_compute in E. injection E as <- <- <-. split; [|split; [|split]].
  - split; [vm_compute; lia|]. split; [vm_compute; lia|]. exists 40. split; [vm_compute; lia|]. split; [vm_compute; lia|vm_compute; reflexivity].
  - vm_compute. lia.
  - vm_compute. reflexivity.
  - vm_compute. reflexivity.
Qed.
