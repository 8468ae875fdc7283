(** C116 for environments: pipelines run at the same time in environments that log. *)
From Verif Require Import Py RedirModel RedirProofs Os PerformModel PerformSpec RunModel RunSpec RunTopSpec RunEnds IterModel IterSpec FileModel FileSpec FileProofs
  NetModel NetSpec NetProofs NetTop JobModel JobSpec JobTop JobProofs JobMain PropsFile PropsRun PropsNet PropsJob
  EnvRedirModel EnvRedirSpec EnvRedirProofs EnvRedirTop EnvRedirSame PropsEnvRedir LogModel LogSpec PropsLog BgModel BgSpec BgProofs BgMain PropsBg BgEnvSpec.

Definition plan_of (a : task) (v : in_environment) : plan := mkPlan (v_c v) (v_cs v) None (last_for 1 (settings (v_h v) (v_e v))) (k_typed a) (v_out v).
Fixpoint plans_of (l : list task) (vs : list in_environment) : list plan :=
  match l, vs with a :: l', v :: vs' => plan_of a v :: plans_of l' vs' | _, _ => [] end.
Lemma planned_in L pf logfd maxfd f0 a v : 2 < logfd -> 2 < maxfd -> as_run L pf logfd maxfd a v -> as_planned L pf logfd maxfd f0 a (plan_of a v).
Proof.
  intros Hl Hm (S0 & He & Hmd & F & U & (ret & Er) & Rm & Lp & Gv). unfold as_planned, plan_of. cbn.
  split; [exact (job_in L pf logfd maxfd Hl Hm (v_h v) (v_e v) (v_c v) (v_cs v) appends _ _ ret _ S0 He Hmd F U Er Rm)|].
  split; [exact Lp|]. split; [reflexivity|]. split; [exact Gv|]. intros r E. pose proof (one_setting L appends _ F) as O. rewrite E in O. destruct O as (Hin & _).
  rewrite Forall_forall in F. apply (F r Hin).
Qed.
Lemma logs_goes a v p : logs_to (plan_of a v) p <-> goes_to (v_h v) (v_e v) = Some p.
Proof.
  unfold logs_to, goes_to, plan_of. cbn. split.
  - intros (r & -> & ->). reflexivity.
  - destruct (last_for 1 (settings (v_h v) (v_e v))) as [r|]; [|discriminate]. intros E. exists r. split; [reflexivity|]. destruct (r_source r); try discriminate. congruence.
Qed.
Lemma plans_at : forall l vs k a v, nth_error l k = Some a -> nth_error vs k = Some v -> nth_error (plans_of l vs) k = Some (plan_of a v).
Proof. induction l as [|x l IH]; intros [|u vs] [|k] a v E1 E2; try discriminate; cbn in *; [injection E1 as <-; injection E2 as <-; reflexivity|now apply IH]. Qed.
Theorem C116_environments : forall L pf logfd maxfd cap f0 ls y vs p,
  Forall2 (as_run L pf logfd maxfd) (tasks_of ls) vs -> 2 < logfd -> 2 < maxfd -> 0 < cap ->
  bsteps L logfd maxfd cap (idle f0) ls = Some y ->
  exists m, old_content (y_fs y) p = old_content f0 p ++ map snd m /\
    Forall (fun e => fst e < List.length vs) m /\
    forall k v a t, nth_error vs k = Some v -> nth_error (y_jobs y) k = Some (a, t) ->
      (goes_to (v_h v) (v_e v) = Some p -> prefix (by_job k m) (v_out v) /\ (all_gone t -> by_job k m = v_out v)) /\
      (goes_to (v_h v) (v_e v) <> Some p -> by_job k m = []).
Proof.
  intros L pf logfd maxfd cap f0 ls y vs p F Hl Hm Hc HR.
  assert (HP : all_planned L pf logfd maxfd f0 ls (plans_of (tasks_of ls) vs)).
  { split.
    - clear HR. revert F. generalize (tasks_of ls). intros l F. induction F as [|a v l vs H F IH]; cbn; constructor; [now apply planned_in|exact IH].
    - intros g g' q Hg _ (r & Er & _). assert (X : g_inr g = None); [|congruence]. clear - Hg. revert vs Hg. induction (tasks_of ls) as [|a l IH]; intros [|v vs] Hg; try destruct Hg as [].
      + now subst.
      + now apply (IH vs). }
  assert (Ln : List.length (plans_of (tasks_of ls) vs) = List.length vs) by (clear - F; induction F; cbn; congruence).
  destruct (bg_inv L pf logfd maxfd cap f0 ls y _ HP HR) as (_ & _ & M).
  destruct (C116_log L pf logfd maxfd cap f0 ls y _ p HP Hc HR) as (m & A & B & C). exists m. split; [exact A|]. split; [now rewrite <- Ln|].
  intros k v a t Ev Ej. assert (Ea : nth_error (tasks_of ls) k = Some a) by (rewrite <- M, nth_error_map, Ej; reflexivity).
  destruct (C k _ a t (plans_at _ _ _ _ _ Ea Ev) Ej) as (D1 & D2). split.
  - intros G. apply D1. now apply logs_goes.
  - intros G. apply D2. now rewrite logs_goes.
Qed.
Print Assumptions C116_environments.

(** cat | head -1 started at the same time in environment 1, which logs, and in environment
    2, which does not (C115's environments). *)
Definition env_task (e : nat) (s : st) (progs : list prog) (typed : list N) : task :=
  let r := run_in some_limits (fun _ => true) (after envs3) false (EPart e (chain ["cat"%string] [["head"%string]])) s in
  mkTask s (fst r) (match snd r with Ok (_, l) => l | Err _ => [] end) progs typed.
Definition env_sched : list blabel :=
  BStart (env_task 1 shell [cat; head1] [98; 98; 10]%N) :: map (BStep 0) [JProc 0; JProc 0; JProc 1; JProc 1] ++ BStart (env_task 2 shell [writer; head1] []) ::
  map (BStep 1) [JProc 0; JProc 1; JProc 1] ++ map (BStep 0) [JProc 0; JProc 0; JProc 1; JProc 1; JProc 0; JProc 0; JProc 1; JProc 1; JProc 1; JProc 0; JProc 0; JWait].
Definition env_vs : list in_environment :=
  [mkIn envs3 1 ["cat"%string] [["head"%string]] [98; 98; 10]%N; mkIn envs3 2 ["cat"%string] [["head"%string]] [97; 10]%N].
Example C116_environments_nonvacuous :
  Forall2 (as_run some_limits (fun _ => true) 63 64) (tasks_of env_sched) env_vs /\
  map (fun v => goes_to (v_h v) (v_e v)) env_vs = [Some (PName "out"); None] /\
  match bsteps some_limits 63 64 4 (idle job_fs) env_sched with
  | Some y => map (fun x => (j_wait (snd x), map snd (j_term (snd x)))) (y_jobs y) = [(Some true, []); (None, [97%N])] /\ old_content (y_fs y) (PName "out") = [1; 2; 3; 98; 98; 10]%N
  | None => False
  end.
Proof.
  assert (U : usable shell) by (destruct (job_launched None None (or_introl eq_refl) (or_introl eq_refl)) as (U0 & U1 & U2 & U3 & U4 & _); now repeat split).
  assert (Rm : forall a, forallb roomy (k_its a) = true -> forall rs t argv, In (IProc rs t argv) (k_its a) -> room some_limits 63 rs t /\ find_free_fd rs < 64).
  { intros a X3 rs t argv Hit. rewrite forallb_forall in X3. specialize (X3 _ Hit). apply andb_prop in X3 as [Y1 Y2]. apply Nat.ltb_lt in Y1.
    assert (lim some_limits = 64) by reflexivity. clear Hit.
    split; [|lia]. split; [lia|]. split; [lia|]. exists 40. split; [lia|]. split; [lia|]. destruct (tget t 40); [discriminate|reflexivity]. }
  assert (Sn : sensible 0 envs3) by (cbn; repeat split; lia).
  split; [|split].
  - constructor; [|constructor; [|constructor] ].
    + split; [exact Sn|]. split; [vm_compute; lia|]. split; [vm_compute; reflexivity|]. split.
      { cbv beta. match goal with |- Forall _ ?l => change l with [log_red] end. constructor; [split; [exists (PName "out"); repeat split; discriminate|repeat split]|constructor]. }
      split; [exact U|]. split; [eexists; vm_compute; reflexivity|]. split; [apply Rm; vm_compute; reflexivity|]. split; [reflexivity|]. apply (all_do_give _ _ _ _ cat_head1).
    + split; [exact Sn|]. split; [vm_compute; lia|]. split; [vm_compute; reflexivity|]. split; [cbn; constructor|].
      split; [exact U|]. split; [eexists; vm_compute; reflexivity|]. split; [apply Rm; vm_compute; reflexivity|]. split; [reflexivity|]. apply (all_do_give _ _ _ _ writer_head1).
  - vm_compute. reflexivity.
  - vm_compute. repeat split.
Qed.
