(** C63-C70: what the forked child does. *)
From Verif Require Import Py RedirModel RedirSpec Os PerformModel PerformSpec PathModel PathSpec PathProofs EnvModel EnvSpec ExpandModel CommandModel ScopeModel RunModel RunTopSpec
  ChildModel ChildSpec ChildProofs ChildRedir.

(** C63.  Exactly when a forked child goes on running the user's program beside
    the shell: SIGINT arrives before exec or in the handler, or the command
    cannot be started and its standard error cannot be written. *)
Theorem C63_goes_on_iff : forall K L logfd maxfd sig rs dir ws vs c,
  goes_on (fst (child K L logfd maxfd sig rs dir ws vs c)) <->
  sig = BeforeExec \/ (~ startable K dir ws vs /\ (sig = InHandler \/ ~ stderr_works K L logfd maxfd rs (cs_tab c))).
Proof. intros K L logfd maxfd sig rs dir ws vs c. exact (proj2 (proj2 (child_cases K L logfd maxfd sig rs dir ws vs c))). Qed.
Print Assumptions C63_goes_on_iff.
(** So the claim holds if no SIGINT arrives and standard error works ... *)
Theorem C63_one_shell_partial : forall K L logfd maxfd rs dir ws vs c,
  stderr_works K L logfd maxfd rs (cs_tab c) -> ~ goes_on (fst (child K L logfd maxfd Never rs dir ws vs c)).
Proof. intros K L logfd maxfd rs dir ws vs c S G. apply C63_goes_on_iff in G as [G|(_ & [G|G])]; [discriminate|discriminate|auto]. Qed.
Print Assumptions C63_one_shell_partial.
(** ... and is false for a command that cannot be started if its redirects give
    it no standard error, ... *)
Theorem C63_closed_stderr_refuted : forall K L logfd maxfd rs dir ws vs c,
  wf_redirects rs -> snd (perform L logfd maxfd rs (cs_tab c)) = None ->
  dget rs 2 = None -> 2 <> logfd -> 2 < maxfd -> ~ startable K dir ws vs ->
  fst (child K L logfd maxfd Never rs dir ws vs c) = GoesOn (XErrno 9).
Proof. exact closed_stderr_goes_on. Qed.
Print Assumptions C63_closed_stderr_refuted.
(** ... and for every subshell, whatever its pipeline does. *)
Theorem C63_subshell_refuted : forall K L logfd maxfd rs dir l c, k_chdir K dir = None ->
  goes_on (subshell K L logfd maxfd Never rs dir (IEnded l) c).
Proof. intros. now apply subshell_always_goes_on. Qed.
Print Assumptions C63_subshell_refuted.

(** C64.  A command that cannot be started ends with a status that is not 0 (if
    the message can be written, see C63), and only such a command ends without
    having been a program. *)
Theorem C64_not_started_fails : forall K L logfd maxfd rs dir ws vs c,
  sane K -> ~ startable K dir ws vs -> stderr_works K L logfd maxfd rs (cs_tab c) ->
  exists s, fst (child K L logfd maxfd Never rs dir ws vs c) = Exits s /\ (0 < s < 256)%N.
Proof. exact not_started_fails. Qed.
Print Assumptions C64_not_started_fails.
Theorem C64_only_then : forall K L logfd maxfd rs dir ws vs c sig s,
  fst (child K L logfd maxfd sig rs dir ws vs c) = Exits s -> ~ startable K dir ws vs.
Proof. exact exit_only_if. Qed.
Print Assumptions C64_only_then.

(** C65.  A command that can be started is started whatever becomes of its
    redirects ... *)
Theorem C65_started_anyway_refuted : forall K L logfd maxfd rs dir ws vs c e,
  startable K dir ws vs -> snd (perform L logfd maxfd rs (cs_tab c)) = Some e ->
  exists f argv x, fst (child K L logfd maxfd Never rs dir ws vs c) =
    Program f argv x dir (exec_tab (fst (perform L logfd maxfd rs (cs_tab c)))).
Proof.
  intros K L logfd maxfd rs dir ws vs c e S _. apply (child_cases K L logfd maxfd Never rs dir ws vs c); [discriminate|exact S].
Qed.
Print Assumptions C65_started_anyway_refuted.
(** ... for example `cmd < "p"` with a file p that cannot be opened: its
    descriptor 0 is the shell's own standard input, and 1 is closed. *)
Theorem C65_missing_input_refuted : forall L pf ws p fl s e0 e1 e2 logfd maxfd,
  tget (s_tab s) 0 = Some e0 -> tget (s_tab s) 1 = Some e1 -> tget (s_tab s) 2 = Some e2 ->
  can_open L p fl = false -> lowest (s_tab s) + 4 <= lim L ->
  exists s' ret rs t, start L pf false (PRedir (PCmd (map AWord ws)) (in_redirect p fl)) s = (s', Ok (ret, [IProc rs t (map Word ws)])) /\
    snd (perform L logfd maxfd rs t) = Some (OSError ENOENT) /\
    program_fd L logfd maxfd rs t 0 = (if e_cloexec e0 then None else Some (e_ofd e0)) /\
    program_fd L logfd maxfd rs t 1 = None.
Proof. exact missing_input. Qed.
Print Assumptions C65_missing_input_refuted.

(** C66.  The program that runs is the file the command's name denotes: the name
    itself if it has a slash, otherwise the first executable one in the PATH of
    the command's own environment, seen from that environment's directory. *)
Theorem C66_which_program : forall K L logfd maxfd sig rs dir ws vs c f argv e cwd t dirs,
  fst (child K L logfd maxfd sig rs dir ws vs c) = Program f argv e cwd t -> path_dirs e dirs ->
  exists name rest, argv = name :: rest /\ denotes K dir dirs name f.
Proof.
  intros K L logfd maxfd sig rs dir ws vs c f argv e cwd t dirs H P.
  destruct (child_program K L logfd maxfd sig rs dir ws vs c f argv e cwd t H) as (_ & _ & G & _ & _ & D & _).
  destruct G as (_ & _ & n & r & -> & _). exists n, r. split; [reflexivity|]. exact (D dirs P).
Qed.
Print Assumptions C66_which_program.
Theorem C66_found : forall K L logfd maxfd rs dir ws vs c,
  startable K dir ws vs -> exists f argv e t, fst (child K L logfd maxfd Never rs dir ws vs c) = Program f argv e dir t.
Proof.
  intros K L logfd maxfd rs dir ws vs c S.
  destruct (proj1 (child_cases K L logfd maxfd Never rs dir ws vs c)) as (f & a & e & E); [discriminate|exact S|]. eauto.
Qed.
Print Assumptions C66_found.

(** C70.  The program gets exactly the command's words, its environment's
    variables and its environment's directory. *)
Theorem C70_exact : forall K L logfd maxfd sig rs dir ws vs c f argv e cwd t,
  fst (child K L logfd maxfd sig rs dir ws vs c) = Program f argv e cwd t ->
  Forall2 word_text ws argv /\ vs = map (fun kv => (fst kv, Some (snd kv))) e /\ cwd = dir /\
  t = exec_tab (fst (perform L logfd maxfd rs (cs_tab c))).
Proof.
  intros K L logfd maxfd sig rs dir ws vs c f argv e cwd t H.
  destruct (child_program K L logfd maxfd sig rs dir ws vs c f argv e cwd t H) as (_ & _ & G & V & W & _ & T).
  split; [apply G|]. split; [apply V|]. auto.
Qed.
Print Assumptions C70_exact.

(** C67.  The variables of environment n as handed to execve. *)
Definition exported (s : sstate) (n : nat) : envs :=
  map (fun kv => (fst kv, match snd kv with VText t => Some t | _ => None end)) (s_vars s n).
Lemma exported_bad s n k v : dget (s_vars s n) k = Some v -> is_text v = false -> forall e, ~ good_vars (exported s n) e.
Proof.
  intros D T e (E & _). apply dget_In in D. assert (I : In (k, None) (exported s n)).
  { unfold exported. apply in_map_iff. exists (k, v). split; [|exact D]. cbn. destruct v; [reflexivity|discriminate|reflexivity]. }
  rewrite E in I. apply in_map_iff in I as (x & X & _). discriminate.
Qed.
(** Assigning a value that is no string to the name of an exported variable: no
    command of that environment can be started any more. *)
Theorem C67_assignment_breaks_commands_refuted : forall s n name v old K L logfd maxfd rs dir ws c,
  dget (s_loc s) t_env = Some (VEnv n) -> s_os s n = false -> dget (s_vars s n) name = Some old ->
  name <> t_under -> name <> t_env -> is_text v = false ->
  let '(s', r) := scope_set s name v in
  r = Ok tt /\ ~ startable K dir ws (exported s' n) /\
  (k_chdir K dir = None -> stderr_works K L logfd maxfd rs (cs_tab c) ->
   fst (child K L logfd maxfd Never rs dir ws (exported s' n) c) = Exits 255).
Proof.
  intros s n name v old K L logfd maxfd rs dir ws c E O D NU NE T. unfold scope_set.
  destruct (text_eqb_spec name t_under); [contradiction|]. destruct (text_eqb_spec name t_env); [contradiction|].
  cbv beta iota zeta. unfold current. rewrite E. unfold dmem. rewrite D. unfold export_set. rewrite O. cbn [andb].
  set (s' := set_vars s n (dset (s_vars s n) name v)).
  assert (B : forall e, ~ good_vars (exported s' n) e).
  { apply (exported_bad s' n name v); [|exact T]. unfold s'. cbn [set_vars s_vars]. rewrite Nat.eqb_refl. rewrite dget_dset, keqb_refl; reflexivity. }
  split; [reflexivity|]. split.
  - intros (_ & argv & e & dirs & nm & rest & f & _ & G & _). exact (B e G).
  - intros C S. unfold child. unfold command_child, do_chdir. rewrite C. cbn [cs_cwd].
    assert (X : execvpe K dir ws (exported s' n) = inr XPlain).
    { unfold execvpe. destruct (env_strings (exported s' n)) as [e|] eqn:V; [exfalso; apply (B e), env_strings_iff, V|]. now destruct (argv_strings ws). }
    rewrite X. unfold handler. cbn [fst]. apply write_works in S. unfold after_perform in S. unfold do_perform. cbn [cs_tab]. now rewrite S.
Qed.
Print Assumptions C67_assignment_breaks_commands_refuted.
(** Assigning a string leaves every other command's variables proper. *)
Theorem C67_strings_partial : forall s n name t,
  dget (s_loc s) t_env = Some (VEnv n) -> name <> t_under -> name <> t_env ->
  (exists e, good_vars (exported s n) e) -> passable t ->
  exists e, good_vars (exported (fst (scope_set s name (VText t))) n) e.
Proof.
  intros s n name t E NU NE (e & G) O. unfold scope_set.
  destruct (text_eqb_spec name t_under); [contradiction|]. destruct (text_eqb_spec name t_env); [contradiction|].
  cbv beta iota zeta. unfold current. rewrite E. destruct (dmem (s_vars s n) name) eqn:M.
  - unfold export_set. cbn [is_text negb]. rewrite Bool.andb_false_r. cbn [fst]. unfold exported. cbn [set_vars s_vars]. rewrite Nat.eqb_refl.
    unfold exported in G. clear E. revert e G. induction (s_vars s n) as [|[k v] d IH]; intros e G; [discriminate|].
    destruct G as [X F]. destruct e as [|[k' v'] e]; [discriminate|]. cbn [map fst snd] in X. injection X as <- V X.
    apply Forall_cons_iff in F as [ [F1 [F2 F3] ] F].
    unfold dmem in M. cbn [dget] in M. cbn [dset]. destruct (keqb_spec name k) as [->|N].
    + exists ((k, t) :: e). split; [cbn [map fst snd]; now rewrite X|]. constructor; [|exact F]. auto.
    + destruct (IH M e) as (e2 & X2 & F4); [split; auto|]. exists ((k, v') :: e2). split; [cbn [map fst snd]; now rewrite V, X2|]. constructor; auto.
  - cbn [fst]. exists e. exact G.
Qed.
Print Assumptions C67_strings_partial.

(** C68.  How a subshell's pipeline ends and what the subshell is asked to exit
    with (see C63 for what becomes of that exit): the status of the last item. *)
Theorem C68_status : forall K L logfd maxfd rs dir l i c, k_chdir K dir = None -> stderr_works K L logfd maxfd rs (cs_tab c) ->
  subshell K L logfd maxfd Never rs dir (IEnded (l ++ [i])) c =
  GoesOn (XBase (BExit (match i with PEnd s => s | FEnd _ => 0%N end))) \/
  (subshell K L logfd maxfd Never rs dir (IEnded (l ++ [i])) c = GoesOn (XBase (BExit 0)) /\ ~ failed (l ++ [i])).
Proof.
  intros K L logfd maxfd rs dir l i c C S. rewrite subshell_ends by exact C.
  destruct (existsb is_failed (l ++ [i])) eqn:F.
  - left. apply write_works in S. rewrite S, exit_code_last. reflexivity.
  - right. split; [reflexivity|]. intros Q. apply failed_iff in Q. congruence.
Qed.
Print Assumptions C68_status.
(** Right if nothing failed, or the last item is a process that failed. *)
Theorem C68_success_partial : forall K L logfd maxfd rs dir l c, k_chdir K dir = None -> ~ failed l ->
  subshell K L logfd maxfd Never rs dir (IEnded l) c = GoesOn (XBase (BExit 0)).
Proof.
  intros K L logfd maxfd rs dir l c C F. rewrite subshell_ends by exact C.
  destruct (existsb is_failed l) eqn:E; [apply failed_iff in E; contradiction|reflexivity].
Qed.
Print Assumptions C68_success_partial.
Theorem C68_last_fails_partial : forall K L logfd maxfd rs dir l s c, k_chdir K dir = None -> stderr_works K L logfd maxfd rs (cs_tab c) -> s <> 0%N ->
  subshell K L logfd maxfd Never rs dir (IEnded (l ++ [PEnd s])) c = GoesOn (XBase (BExit s)).
Proof.
  intros K L logfd maxfd rs dir l s c C S N. rewrite subshell_ends by exact C.
  assert (F : existsb is_failed (l ++ [PEnd s]) = true).
  { apply failed_iff. exists (PEnd s). split; [apply in_or_app; right; now left|right; eauto]. }
  rewrite F. apply write_works in S. now rewrite S, exit_code_last.
Qed.
Print Assumptions C68_last_fails_partial.
(** A failed pipeline whose last item succeeded, or is a function (failed or
    not), is reported as a success. *)
Theorem C68_success_reported_refuted : forall K L logfd maxfd rs dir l i c,
  k_chdir K dir = None -> stderr_works K L logfd maxfd rs (cs_tab c) ->
  failed (l ++ [i]) -> (i = PEnd 0%N \/ exists b, i = FEnd b) ->
  subshell K L logfd maxfd Never rs dir (IEnded (l ++ [i])) c = GoesOn (XBase (BExit 0)).
Proof.
  intros K L logfd maxfd rs dir l i c C S F I. rewrite subshell_ends by exact C.
  apply failed_iff in F. rewrite F. apply write_works in S. rewrite S, exit_code_last. now destruct I as [->|(b & ->)].
Qed.
Print Assumptions C68_success_reported_refuted.

(** C69.  The file a redirect opens, resolved: it depends on the directory the
    shell's process is in, not on the environment's. *)
Definition one_file (n : nat) (p : string) (r : redirects) : Prop := exists red, r = [(n, red)] /\ r_source red = SPath (PName p).
Theorem C69_which_file : forall K L logfd maxfd rs dir ws vs c here n p,
  cs_opened c = [] -> dir_ok here -> cs_cwd c = render here -> one_file n p rs ->
  map (abspath (cs_cwd c)) (snd (child K L logfd maxfd Never rs dir ws vs c)) = [render (resolve here (txt p))].
Proof.
  intros K L logfd maxfd rs dir ws vs c here n p O H W (r & -> & S). rewrite child_opened by exact O.
  unfold opened_names. cbn [dvals map snd flat_map]. rewrite S. cbn [app map]. rewrite W. now rewrite join_resolve.
Qed.
Print Assumptions C69_which_file.
(** So it is the right one when the shell's process is in the environment's
    directory or the name is absolute ... *)
Theorem C69_relative_to_environment_partial : forall K L logfd maxfd rs there ws vs c here n p,
  cs_opened c = [] -> dir_ok here -> cs_cwd c = render here -> one_file n p rs -> here = there \/ is_abs (txt p) ->
  map (abspath (cs_cwd c)) (snd (child K L logfd maxfd Never rs (render there) ws vs c)) = [render (resolve there (txt p))].
Proof.
  intros K L logfd maxfd rs there ws vs c here n p O H W F [->|(r & A)].
  - eapply C69_which_file; eassumption.
  - rewrite (C69_which_file K L logfd maxfd rs (render there) ws vs c here n p) by assumption. unfold resolve. rewrite A. now destruct r.
Qed.
Print Assumptions C69_relative_to_environment_partial.
(** ... and never when the directories differ and the name is a plain one. *)
Theorem C69_refuted : forall K L logfd maxfd rs there ws vs c here n p,
  cs_opened c = [] -> dir_ok here -> dir_ok there -> cs_cwd c = render here -> one_file n p rs ->
  PathSpec.name_ok (txt p) -> here <> there ->
  map (abspath (cs_cwd c)) (snd (child K L logfd maxfd Never rs (render there) ws vs c)) <> [render (resolve there (txt p))].
Proof.
  intros K L logfd maxfd rs there ws vs c here n p O H T W F N D E.
  rewrite (C69_which_file K L logfd maxfd rs (render there) ws vs c here n p) in E by assumption.
  injection E as E. apply render_inj in E; [|now apply resolve_ok|now apply resolve_ok]. apply D.
  destruct N as (N1 & N2 & N3 & N4). unfold resolve in E.
  assert (A : startswith (txt p) [c_slash] = false).
  { destruct (txt p) as [|x r]; [reflexivity|]. cbn [startswith]. destruct (N.eqb_spec c_slash x) as [<-|]; [exfalso; apply N4; now left|reflexivity]. }
  rewrite A in E. unfold walk in E. rewrite split_none in E by exact N4. cbn [fold_left] in E.
  assert (X : forall l, enter l (txt p) = l ++ [txt p]).
  { intros l. unfold enter. destruct (text_eqb_spec (txt p) []); [contradiction|]. destruct (text_eqb_spec (txt p) t_dot); [contradiction|].
    destruct (text_eqb_spec (txt p) t_dotdot); [contradiction|]. reflexivity. }
  rewrite !X in E. destruct here as [a b], there as [a' b']. cbn in E. injection E as -> E. apply app_inj_tail in E as [-> _]. reflexivity.
Qed.
Print Assumptions C69_refuted.

(** The hypotheses above are met: a machine with one program, /bin/ls, and three
    directories. *)
Definition t_bin_ls : text := txt "/bin/ls".
Definition demo_kernel : kernel := mkKernel
  (fun d => if existsb (text_eqb d) [txt "/"; txt "/home"; txt "/tmp"] then None else Some 2%N)
  (fun _ f => if text_eqb f t_bin_ls then None else Some 2%N)
  (fun o => match o with OTmp _ => Some 28%N | _ => None end).
Definition demo_vars : envs := [(txt "HOME", Some (txt "/home")); (txt "PATH", Some (txt "/sbin:/bin"))].
Definition demo_tab : tab := [Some (mkEnt (OInit 0) false); Some (mkEnt (OInit 1) false); Some (mkEnt (OInit 2) false); Some (mkEnt (OTmp 0) true)].
Definition demo_limits : limits := mkLimits 1024 (fun _ _ => true).
Definition no_files : limits := mkLimits 1024 (fun _ _ => false).
Definition inherit (l : list nat) : redirects := map (fun n => (n, mkRedirect n (SInt n) 0 default_mode None true)) l.
Definition demo_state : cstate := mkCs demo_tab (txt "/home") [].
Definition to_log : redirects := [(1, mkRedirect 1 (SPath (PName "log")) 577 default_mode None false)].
Definition full_disk : redirects := [(2, mkRedirect 2 (SInt 3) 577 default_mode None false)].
Lemma demo_startable : startable demo_kernel (txt "/tmp") [WStr (txt "ls"); WObj (txt "-l") true] demo_vars.
Proof.
  apply startable_iff. split; [vm_compute; reflexivity|]. eexists. vm_compute. reflexivity.
Qed.
Lemma demo_not_startable : ~ startable demo_kernel (txt "/tmp") [WStr (txt "nosuch")] demo_vars.
Proof. intros S. apply startable_iff in S as [_ [r S] ]. vm_compute in S. discriminate. Qed.
Example C63_to_C66_nonvacuous :
  let run rs ws := fst (child demo_kernel demo_limits 63 64 Never rs (txt "/tmp") ws demo_vars demo_state) in
  sane demo_kernel /\
  run (inherit [0; 1; 2]) [WStr (txt "ls"); WObj (txt "-l") true] =
    Program t_bin_ls [txt "ls"; txt "-l"] [(txt "HOME", txt "/home"); (txt "PATH", txt "/sbin:/bin")] (txt "/tmp")
      (exec_tab (fst (perform demo_limits 63 64 (inherit [0; 1; 2]) demo_tab))) /\
  run (inherit [0; 1; 2]) [WStr (txt "nosuch")] = Exits 2 /\
  stderr_works demo_kernel demo_limits 63 64 (inherit [0; 1; 2]) demo_tab /\
  run (inherit [0; 1]) [WStr (txt "nosuch")] = GoesOn (XErrno 9) /\
  run full_disk [WStr (txt "nosuch")] = GoesOn (XErrno 28) /\
  path_dirs [(txt "HOME", txt "/home"); (txt "PATH", txt "/sbin:/bin")] [txt "/sbin"; txt "/bin"] /\
  denotes demo_kernel (txt "/tmp") [txt "/sbin"; txt "/bin"] (txt "ls") t_bin_ls /\
  snd (perform no_files 63 64 to_log demo_tab) = Some (OSError ENOENT).
Proof.
  cbv zeta. split.
  { split.
    - intros d e. unfold demo_kernel. cbn [k_chdir]. destruct (existsb _ _); [discriminate|]. intros [= <-]. lia.
    - intros d f e. unfold demo_kernel. cbn [k_exec]. destruct (text_eqb _ _); [discriminate|]. intros [= <-]. lia. }
  split; [vm_compute; reflexivity|]. split; [vm_compute; reflexivity|].
  split; [eexists; split; vm_compute; reflexivity|]. split; [vm_compute; reflexivity|]. split; [vm_compute; reflexivity|].
  split; [apply exec_path_dirs; vm_compute; reflexivity|]. split; [|vm_compute; reflexivity].
  change t_bin_ls with (path_join (txt "/bin") (txt "ls")). apply den_search with [txt "/sbin"] [].
  - intros H. vm_compute in H. intuition discriminate.
  - reflexivity.
  - intros b [<-|[] ]. discriminate.
  - reflexivity.
Qed.
Example C67_C68_nonvacuous :
  let s := mkS [(t_env, VEnv 0)] (fun _ => [(txt "COLUMNS", VText (txt "80"))]) (fun _ => false) (fun _ => true) None (fun _ => None) in
  exported (fst (scope_set s (txt "COLUMNS") (VObj 100))) 0 = [(txt "COLUMNS", None)] /\
  (exists e, good_vars (exported s 0) e) /\
  failed [PEnd 1; FEnd false] /\ failed [FEnd true] /\
  subshell demo_kernel demo_limits 63 64 Never (inherit [0; 1; 2]) (txt "/tmp") (IEnded [PEnd 1; FEnd false]) demo_state = GoesOn (XBase (BExit 0)) /\
  subshell demo_kernel demo_limits 63 64 Never (inherit [0; 1; 2]) (txt "/tmp") (IEnded [FEnd false; PEnd 3]) demo_state = GoesOn (XBase (BExit 3)).
Proof.
  cbv zeta. split; [vm_compute; reflexivity|]. split; [exists [(txt "COLUMNS", txt "80")]; apply env_strings_iff; vm_compute; reflexivity|].
  split; [exists (PEnd 1); split; [now left|right; exists 1%N; split; [reflexivity|discriminate] ]|].
  split; [exists (FEnd true); split; [now left|now left]|]. split; vm_compute; reflexivity.
Qed.
Example C69_nonvacuous :
  one_file 1 "log" to_log /\ cs_cwd demo_state = render (mkDir false [txt "home"]) /\ txt "/tmp" = render (mkDir false [txt "tmp"]) /\
  dir_ok (mkDir false [txt "home"]) /\ dir_ok (mkDir false [txt "tmp"]) /\ PathSpec.name_ok (txt "log") /\
  snd (child demo_kernel demo_limits 63 64 Never to_log (txt "/tmp") [WStr (txt "ls")] demo_vars demo_state) = [txt "/home/log"].
Proof.
  assert (N : forall s, txt s <> [] -> txt s <> t_dot -> txt s <> t_dotdot -> ~ In c_slash (txt s) -> PathSpec.name_ok (txt s)) by (intros; repeat split; assumption).
  split; [eexists; split; reflexivity|]. split; [reflexivity|]. split; [reflexivity|].
  split; [constructor; [|constructor]; apply N; try discriminate; intros H; vm_compute in H; intuition discriminate|].
  split; [constructor; [|constructor]; apply N; try discriminate; intros H; vm_compute in H; intuition discriminate|].
  split; [apply N; try discriminate; intros H; vm_compute in H; intuition discriminate|]. vm_compute. reflexivity.
Qed.
