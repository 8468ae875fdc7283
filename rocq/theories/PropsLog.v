(** Property theorems C115: log files of environments. *)
From Verif Require Import Py RedirModel RedirProofs Os PerformModel PerformSpec RunModel RunSpec RunTopSpec RunEnds IterModel IterSpec FileModel FileSpec FileProofs
  NetModel NetSpec NetProofs NetTop JobModel JobSpec JobTop JobProofs JobMain PropsFile PropsRun PropsNet PropsJob
  EnvRedirModel EnvRedirSpec EnvRedirProofs EnvRedirTop EnvRedirSame PropsEnvRedir LogModel LogSpec.

Lemma one_setting L way l : Forall (fun r => (exists p, to_path L r p) /\ way r) l ->
  match last_for 1 l with
  | None => l = []
  | Some r => In r l /\ Forall (fun r => r_source r <> SNone) l /\ fold_left plus l [] = [(1, r)]
  end.
Proof.
  intros F. assert (R : Forall (fun r => r_fd r = 1 /\ r_source r <> SNone) l).
  { eapply Forall_impl; [|exact F]. intros r [(p & A & B & _) _]. split; [exact A|]. rewrite B. discriminate. }
  clear F. induction l as [|r l IH] using rev_ind; [reflexivity|]. apply Forall_app in R as [R1 R2]. inversion R2 as [|? ? [E1 E2] _]; subst. rewrite last_for_snoc, E1. cbn [Nat.eqb].
  split; [apply in_app_iff; right; now left|]. split; [apply Forall_app; split; [eapply Forall_impl; [|exact R1]; now intros x [_ X]|repeat constructor; exact E2]|].
  specialize (IH R1). rewrite fold_left_app. cbn [fold_left]. unfold plus at 1. rewrite register_ok by exact E2. rewrite E1. destruct (last_for 1 l) as [r0|].
  - destruct IH as (_ & _ & ->). reflexivity.
  - subst l. reflexivity.
Qed.
Lemma path_eqb_spec' p q : path_eqb p q = true <-> p = q.
Proof. destruct p as [a|a], q as [b|b]; cbn; rewrite ?String.eqb_eq, ?Nat.eqb_eq; split; congruence. Qed.

Section S.
  Variables (L : limits) (pf : ofd -> bool) (logfd maxfd cap : nat).
  Hypothesis Hl : 2 < logfd.
  Hypothesis Hm : 2 < maxfd.
  Hypothesis Hcap : 0 < cap.
  Lemma job_in h e c cs way s s' ret its : sensible 0 h -> e < List.length (filter makes h) -> made_with h (user h e) = standard ->
    Forall (fun r => (exists p, to_path L r p) /\ way r) (settings h e) -> usable s ->
    run_in L pf (after h) false (EPart e (chain c cs)) s = (s', Ok (ret, its)) ->
    (forall rs t argv, In (IProc rs t argv) its -> room L logfd rs t /\ find_free_fd rs < maxfd) ->
    launched_job L pf logfd maxfd c cs None (last_for 1 (settings h e)) s s' its.
  Proof.
    intros S0 He Hmd F (U0 & U1 & U2 & U3 & U4) Er Rm. pose proof (one_setting L way _ F) as O.
    split; [exact U0|]. split; [exact U1|]. split; [exact U2|]. split; [exact U3|]. split; [exact U4|]. split; [discriminate|]. split; [|split; [discriminate|split; [|split; [exact Hl|split; [exact Hm|exact Rm]]]]].
    - intros r E. rewrite E in O. destruct O as (Hin & _). rewrite Forall_forall in F. apply (F r Hin).
    - exists ret. rewrite <- Er. destruct (last_for 1 (settings h e)) as [r|] eqn:El.
      + destruct O as (_ & Rl & E1). rewrite (C114_like_redirecting L pf h e (chain c cs) s S0 He Hmd Rl), E1. reflexivity.
      + unfold run_in. cbn [env_of parts]. rewrite (C114_history h e S0 He), Hmd, O. reflexivity.
  Qed.
  Lemma log_all : forall h f l f' w, session L pf logfd maxfd cap h f l f' w -> forall outs, sensible 0 h -> proper L appends h l outs ->
    (forall p, old_content f' p = old_content f p ++ logged_to (Some p) h l outs) /\ map snd w = logged_to None h l outs.
  Proof.
    induction 1 as [h f|h f op l f' w Hs IH|h f e c cs progs typed l s s' ret its ls t f' w Us Er Rm Ra Wt Hs IH]; intros outs S0 P.
    - destruct outs; [|destruct P]. cbn. split; [|reflexivity]. intros p. now rewrite app_nil_r.
    - cbn in P. destruct P as [S1 P]. cbn [logged_to]. exact (IH outs S1 P).
    - destruct outs as [|out outs]; [destruct P|]. destruct P as (He & Hmd & F & Lp & Gv & P). destruct (IH outs S0 P) as (A & B).
      pose proof (job_in h e c cs appends s s' ret its S0 He Hmd F Us Er Rm) as LJ. pose proof (one_setting L appends _ F) as O.
      assert (G : all_gone t) by (eapply C101_waits; [exact LJ|exact Lp|reflexivity|exact Gv|exact Hcap|exact Ra|exact Wt]).
      cbn [logged_to]. unfold goes_to. destruct (last_for 1 (settings h e)) as [r|] eqn:El.
      + destruct O as (Hin & _). rewrite Forall_forall in F. destruct (F r Hin) as ((p0 & P1 & P2 & P3) & Ap). rewrite P2.
        destruct (C100_append L pf logfd maxfd c cs None r p0 s s' its f typed typed progs cap out ls t LJ P2 Ap Lp eq_refl Gv Hcap Ra) as ((x & _ & X1 & X2) & X3 & X4).
        specialize (X1 G). subst x. rewrite X4. cbn. split; [|exact B]. intros p. rewrite A. destruct (path_eqb p p0) eqn:Ep.
        * apply path_eqb_spec' in Ep as ->. rewrite X2. now rewrite app_assoc.
        * cbn. unfold old_content at 1. rewrite (X3 p); [reflexivity|]. intros ->. assert (path_eqb p0 p0 = true) by now apply path_eqb_spec'. congruence.
      + destruct (C101_shown L pf logfd maxfd c cs None s s' its f typed typed progs cap out ls t LJ Lp eq_refl Gv Hcap Ra) as (o1 & x & _ & Sh & _ & X1 & X2).
        specialize (X1 G). subst x. unfold shown in Sh. split.
        * intros p. rewrite A, X2. reflexivity.
        * rewrite map_app, B, Sh, map_map. cbn. now rewrite map_id.
  Qed.
End S.

(** C115: after any session in which the outputs of environments are set to files that are
    appended to, each file has got exactly the outputs of the jobs run in environments that
    were set to it at that time, in the order of the jobs, after its old content; what is
    shown are the outputs of the others. *)
Theorem C115_logs : forall L pf logfd maxfd cap f l f' w outs,
  2 < logfd -> 2 < maxfd -> 0 < cap -> session L pf logfd maxfd cap [] f l f' w -> proper L appends [] l outs ->
  (forall p, old_content f' p = old_content f p ++ logged_to (Some p) [] l outs) /\ map snd w = logged_to None [] l outs.
Proof.
  intros L pf logfd maxfd cap f l f' w outs Hl Hm Hc S P. exact (log_all L pf logfd maxfd cap Hl Hm Hc [] f l f' w S outs Logic.I P).
Qed.
Print Assumptions C115_logs.

(** C115: no job of such a session is stuck: whatever its processes have done so far, its
    wait() can come to its end. *)
Theorem C115_goes_on : forall L pf logfd maxfd cap h e c cs progs typed out s s' ret its f ls t,
  2 < logfd -> 2 < maxfd -> 0 < cap -> sensible 0 h -> e < List.length (filter makes h) -> made_with h (user h e) = standard ->
  Forall (fun r => exists p, to_path L r p) (settings h e) -> usable s ->
  run_in L pf (after h) false (EPart e (chain c cs)) s = (s', Ok (ret, its)) ->
  (forall rs t argv, In (IProc rs t argv) its -> room L logfd rs t /\ find_free_fd rs < maxfd) ->
  List.length progs = S (List.length cs) -> all_give progs typed true out true -> Forall careful progs ->
  ran L logfd maxfd cap s s' its f progs typed ls t ->
  exists ls' t', run_job L logfd maxfd cap s s' its t ls' = Some t' /\ j_wait t' <> None.
Proof.
  intros L pf logfd maxfd cap h e c cs progs typed out s s' ret its f ls t Hl Hm Hc S0 He Hmd F Us Er Rm Lp Gv Cr Ra.
  assert (F' : Forall (fun r => (exists p, to_path L r p) /\ True) (settings h e)) by (eapply Forall_impl; [|exact F]; intros r X; split; [exact X|exact Logic.I]).
  pose proof (job_in L pf logfd maxfd Hl Hm h e c cs (fun _ => True) s s' ret its S0 He Hmd F' Us Er Rm) as LJ.
  exact (C101_no_deadlock L pf logfd maxfd c cs None _ s s' its f typed typed progs cap out ls t LJ Lp eq_refl Gv Cr Hc Ra).
Qed.
Print Assumptions C115_goes_on.

(** C115 is false when the file is given without flags: the next job overwrites what the one
    before has logged, for all jobs and schedules. *)
Theorem C115_overwritten_refuted : forall L pf logfd maxfd cap f p r c1 cs1 progs1 typed1 out1 c2 cs2 progs2 typed2 out2 f' w,
  2 < logfd -> 2 < maxfd -> 0 < cap -> to_file p = Ok r -> can_open L p (r_flag r) = true -> f p = None ->
  List.length progs1 = S (List.length cs1) -> all_give progs1 typed1 true out1 true ->
  List.length progs2 = S (List.length cs2) -> all_give progs2 typed2 true out2 true ->
  session L pf logfd maxfd cap [] f [SEnv ENew; SEnv (ESet 0 r); SRun 0 c1 cs1 progs1 typed1; SRun 0 c2 cs2 progs2 typed2] f' w ->
  old_content f' p = out2 ++ skipn (List.length out2) out1 /\ (out1 <> [] -> out2 <> [] -> old_content f' p <> out1 ++ out2).
Proof.
  intros L pf logfd maxfd cap f p r c1 cs1 progs1 typed1 out1 c2 cs2 progs2 typed2 out2 f' w Hl Hm Hc Tf Co Fp L1 G1 L2 G2 S.
  inversion S as [|? ? ? ? ? ? S1|]; subst. inversion S1 as [|? ? ? ? ? ? S2|]; subst. cbn [List.app] in S2. set (h := [ENew; ESet 0 r]) in *.
  inversion S2 as [| |? ? ? ? ? ? ? ? s s' ret its ls t ? ? Us Er Rm Ra Wt S3]; subst.
  inversion S3 as [| |? ? ? ? ? ? ? ? z z' ret' its' ls' t' ? ? Us' Er' Rm' Ra' Wt' S4]; subst. inversion S4; subst.
  assert (Tp : to_path L r p) by (injection Tf as <-; cbn in Co |- *; repeat split; [exact Co|discriminate]).
  assert (F : Forall (fun r => (exists p, to_path L r p) /\ True) (settings h 0)) by (repeat constructor; now exists p).
  assert (S0 : sensible 0 h) by (cbn; lia).
  pose proof (job_in L pf logfd maxfd Hl Hm h 0 c1 cs1 (fun _ => True) s s' ret its S0 (Nat.lt_0_succ 0) eq_refl F Us Er Rm) as J1.
  pose proof (job_in L pf logfd maxfd Hl Hm h 0 c2 cs2 (fun _ => True) z z' ret' its' S0 (Nat.lt_0_succ 0) eq_refl F Us' Er' Rm') as J2.
  assert (E1 : last_for 1 (settings h 0) = Some r) by (injection Tf as <-; reflexivity). rewrite E1 in J1, J2.
  assert (D1 : all_gone t) by (eapply C101_waits; [exact J1|exact L1|reflexivity|exact G1|exact Hc|exact Ra|exact Wt]).
  assert (D2 : all_gone t') by (eapply C101_waits; [exact J2|exact L2|reflexivity|exact G2|exact Hc|exact Ra'|exact Wt']).
  destruct (C100_file L pf logfd maxfd c1 cs1 None r p s s' its f typed1 typed1 progs1 cap out1 ls t J1 Tf L1 eq_refl G1 Hc Ra) as ((x & _ & X1 & X2) & _). specialize (X1 D1). subst x.
  destruct (C100_file L pf logfd maxfd c2 cs2 None r p z z' its' (j_fs t) typed2 typed2 progs2 cap out2 ls' t' J2 Tf L2 eq_refl G2 Hc Ra') as ((y & _ & Y1 & Y2) & _). specialize (Y1 D2). subst y.
  unfold old_content in X2 at 2. rewrite Fp, skipn_nil, app_nil_r in X2. rewrite X2 in Y2. split; [exact Y2|]. intros N1 N2 X. rewrite Y2 in X. apply (f_equal (@List.length N)) in X.
  rewrite !app_length, skipn_length in X. destruct out1; [now apply N1|]. destruct out2; [now apply N2|]. cbn [List.length] in X. lia.
Qed.
Print Assumptions C115_overwritten_refuted.

(** An environment, one derived from it, one of its own; the derived one is set to append to
    a log; cat | head -1 is run in all three. *)
Definition log_red : redirect := mkRedirect 1 (SPath (PName "out")) (N.lor out_flags O_APPEND) default_mode None false.
Definition envs3 : list envop := [ENew; EDerive 0; EDeriveWith 0 standard; ESet 1 log_red].
Definition in_env (e : nat) := run_in some_limits (fun _ => true) (after envs3) false (EPart e (chain ["cat"%string] [["head"%string]])) shell.
Definition env_items (e : nat) := match snd (in_env e) with Ok (_, l) => l | Err _ => [] end.
Definition env_job (e : nat) (f : fs) : job :=
  match begin_job some_limits 63 64 (env_items e) f [cat; head1] [97; 10; 98; 10]%N with
  | Some t0 => match run_job some_limits 63 64 4 shell (fst (in_env e)) (env_items e) t0 job_sched with Some t => t | None => t0 end
  | None => mkJ [] (fun _ => []) (fun _ => None) (fun _ _ => None) [] [] true None
  end.
Definition env_ran (e : nat) (f : fs) : bool :=
  match begin_job some_limits 63 64 (env_items e) f [cat; head1] [97; 10; 98; 10]%N with
  | Some t0 => match run_job some_limits 63 64 4 shell (fst (in_env e)) (env_items e) t0 job_sched with Some _ => true | None => false end
  | None => false
  end.
Lemma env_ran_ok e f : env_ran e f = true -> ran some_limits 63 64 4 shell (fst (in_env e)) (env_items e) f [cat; head1] [97; 10; 98; 10]%N job_sched (env_job e f).
Proof.
  unfold env_ran, env_job. intros H. destruct (begin_job some_limits 63 64 (env_items e) f [cat; head1] [97; 10; 98; 10]%N) as [t0|] eqn:E; [|discriminate].
  exists t0. split; [exact E|]. now destruct (run_job some_limits 63 64 4 shell (fst (in_env e)) (env_items e) t0 job_sched).
Qed.
Lemma env_session e f l f' w : e < 3 -> env_ran e f = true -> j_wait (env_job e f) <> None -> session some_limits (fun _ => true) 63 64 4 envs3 (j_fs (env_job e f)) l f' w ->
  session some_limits (fun _ => true) 63 64 4 envs3 f (SRun e ["cat"%string] [["head"%string]] [cat; head1] [97; 10; 98; 10]%N :: l) f' (j_term (env_job e f) ++ w).
Proof.
  intros He R Wt S. destruct (job_launched None None (or_introl eq_refl) (or_introl eq_refl)) as (U0 & U1 & U2 & U3 & U4 & _).
  apply (s_run some_limits (fun _ => true) 63 64 4 envs3 f e ["cat"%string] [["head"%string]] [cat; head1] [97; 10; 98; 10]%N l shell (fst (in_env e))
           (match snd (in_env e) with Ok (r, _) => r | Err _ => None end) (env_items e) job_sched).
  - now repeat split.
  - change (in_env e = (fst (in_env e), Ok (match snd (in_env e) with Ok (r, _) => r | Err _ => None end, env_items e))). unfold env_items.
    do 3 (destruct e as [|e]; [vm_compute; reflexivity|]). lia.
  - assert (X3 : forallb roomy (env_items e) = true) by (do 3 (destruct e as [|e]; [vm_compute; reflexivity|]); lia).
    rewrite forallb_forall in X3. intros rs t argv Hit. specialize (X3 _ Hit). apply andb_prop in X3 as [Y1 Y2]. apply Nat.ltb_lt in Y1.
    assert (lim some_limits = 64) by reflexivity. clear Hit.
    split; [|lia]. split; [lia|]. split; [lia|]. exists 40. split; [lia|]. split; [lia|]. destruct (tget t 40); [discriminate|reflexivity].
  - now apply env_ran_ok.
  - exact Wt.
  - exact S.
Qed.
Definition log_session : list stmt := map SEnv envs3 ++ map (fun e => SRun e ["cat"%string] [["head"%string]] [cat; head1] [97; 10; 98; 10]%N) [0; 2; 1].
Example C115_nonvacuous :
  (exists f' w, session some_limits (fun _ => true) 63 64 4 [] job_fs log_session f' w /\
     old_content f' (PName "out") = [1; 2; 3; 97; 10; 97; 10]%N /\ map snd w = [97; 10]%N) /\
  proper some_limits appends [] log_session [[97; 10]; [97; 10]; [97; 10]]%N /\
  Forall careful [cat; head1].
Proof.
  assert (Gv : all_give [cat; head1] [97; 10; 98; 10]%N true [97; 10]%N true).
  { destruct C100_nonvacuous as (A & _). eapply all_do_give. exact A. }
  split; [|split; [|constructor; [exact careful_cat|exact (Forall_inv_tail careful_both)]]].
  - eexists. eexists. split; [|split].
    + unfold log_session. cbn [map List.app]. do 4 (apply s_env; cbn [List.app]). change [ENew; EDerive 0; EDeriveWith 0 standard; ESet 1 log_red] with envs3.
      apply env_session; [lia|vm_compute; reflexivity|vm_compute; discriminate|]. apply env_session; [lia|vm_compute; reflexivity|vm_compute; discriminate|].
      apply env_session; [lia|vm_compute; reflexivity|vm_compute; discriminate|]. apply s_end.
    + vm_compute. reflexivity.
    + vm_compute. reflexivity.
  - assert (F : Forall (fun r => (exists p, to_path some_limits r p) /\ appends r) [log_red]).
    { constructor; [|constructor]. split; [exists (PName "out"); repeat split; discriminate|repeat split]. }
    unfold log_session. cbn [map List.app proper]. do 4 (split; [cbn; lia|]). cbn [List.app].
    split; [cbn; lia|]. split; [reflexivity|]. split; [exact F|]. split; [reflexivity|]. split; [exact Gv|].
    split; [cbn; lia|]. split; [reflexivity|]. split; [constructor|]. split; [reflexivity|]. split; [exact Gv|].
    split; [cbn; lia|]. split; [reflexivity|]. split; [exact F|]. split; [reflexivity|]. split; [exact Gv|]. exact Logic.I.
Qed.
