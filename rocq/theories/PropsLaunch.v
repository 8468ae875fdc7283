(** C76: a pipeline that cannot be started leaves nothing behind. *)
From Verif Require Import Py RedirModel Os PerformModel PerformSpec RunModel RunTopSpec RunFinal LaunchModel LaunchProofs PropsRun.

(** [launch_top] is [start], with the list of the items begun; when starting
    succeeds, the pipeline's processes are exactly the items begun, in order. *)
Theorem C76_started_is_reported : forall L pf piped p s s' begun r, launch_top L pf piped p s = (s', begun, r) ->
  start L pf piped p s = (s', r) /\ forall o processes, r = Ok (o, processes) -> begun = processes.
Proof. intros L pf piped p s s' l r H. rewrite launch_top_is in H. rewrite start_is. now apply launch_is_run. Qed.
Print Assumptions C76_started_is_reported.
(** A single command with ordinary words starts nothing if it fails ... *)
Theorem C76_single_partial : forall L pf piped ws s s' begun e,
  launch_top L pf piped (PCmd (map AWord ws)) s = (s', begun, Err e) -> begun = [].
Proof. intros L pf piped ws s s' l e H. rewrite launch_top_is in H. eapply single_default. exact H. Qed.
Print Assumptions C76_single_partial.
(** ... and, if its output is not piped, opens nothing either. *)
Theorem C76_single_descriptors_partial : forall L pf ws s s' e, start L pf false (PCmd (map AWord ws)) s = (s', Err e) -> s' = s.
Proof. exact unpiped_default_no_leak. Qed.
Print Assumptions C76_single_descriptors_partial.
(** But in a pipe the left command has been started whatever becomes of the
    right one: every command that can be started with its output piped is left
    running if the other side cannot be started. *)
Theorem C76_pipe_left_running : forall L pf args b s s1 o items, start L pf true (PCmd args) s = (s1, Ok (o, items)) ->
  forall s' begun r, launch_top L pf false (PPipe (PCmd args) b) s = (s', begun, r) -> exists more, begun = items ++ more.
Proof.
  intros L pf args b s s1 o items H s' l r E. rewrite launch_top_is in E. destruct (left_started L pf args b s s1 o items H) as (l' & X).
  change (top_rs false) with def_rs in E. rewrite E in X. exists l'. exact X.
Qed.
Print Assumptions C76_pipe_left_running.
Theorem C76_pipe_refuted : forall L pf args s s1 o items, start L pf true (PCmd args) s = (s1, Ok (o, items)) ->
  exists s' e, launch_top L pf false (PPipe (PCmd args) PBuiltin) s = (s', items, Err e).
Proof.
  intros L pf args s s1 o items H. destruct (left_started_builtin L pf args s s1 o items H) as (s' & e & E). exists s', e. now rewrite launch_top_is.
Qed.
Print Assumptions C76_pipe_refuted.
(** Nor does a failure further inside stop what was started before it: neither
    the first member of a group nor the left side of the failing pipe. *)
Theorem C76_group_refuted : forall L pf first args s s0 o0 items0 s1 o items, start L pf false (PCmd first) s = (s0, Ok (o0, items0)) ->
  start L pf true (PCmd args) s0 = (s1, Ok (o, items)) ->
  exists s' e, launch_top L pf false (PGroup (PCmd first) (PPipe (PCmd args) PBuiltin)) s = (s', items0 ++ items, Err e).
Proof.
  intros L pf first args s s0 o0 i0 s1 o items H0 H1. destruct (group_started L pf first args s s0 o0 i0 s1 o items H0 H1) as (s' & e & E).
  exists s', e. now rewrite launch_top_is.
Qed.
Print Assumptions C76_group_refuted.
(** And with room for two more descriptors only, iterating over a command fails
    with both ends of its pipe left open. *)
Theorem C76_descriptors_refuted : forall L pf ws s,
  let r := lowest (s_tab s) in let t1 := tset (s_tab s) r (Some (mkEnt (OPipeR (s_np s)) true)) in let w := lowest t1 in
  r < lim L -> w < lim L -> lim L <= lowest (tset t1 w (Some (mkEnt (OPipeW (s_np s)) true))) ->
  exists s', start L pf true (PCmd (map AWord ws)) s = (s', Err (OSError EMFILE)) /\
    tget (s_tab s) r = None /\ refers (s_tab s') r = Some (OPipeR (s_np s)) /\ tget (s_tab s) w = None /\ refers (s_tab s') w = Some (OPipeW (s_np s)).
Proof. exact piped_leak. Qed.
Print Assumptions C76_descriptors_refuted.
Definition few (n : nat) : limits := mkLimits n (fun _ _ => true).
Definition yes (_ : ofd) : bool := true.
Example C76_nonvacuous :
  (exists s1 o i, start some_limits yes true (PCmd [AWord "ls"]) shell = (s1, Ok (o, [i]))) /\
  snd (fst (launch_top some_limits yes false (PPipe (PCmd [AWord "yes"]) PBuiltin) shell)) <> [] /\
  (exists s' i, launch_top (few 6) yes false (PPipe (PCmd [AWord "yes"]) (PPipe (PCmd [AWord "cat"]) (PCmd [AWord "head"]))) shell = (s', [i], Err (OSError EMFILE))) /\
  snd (start (few 5) yes true (PCmd [AWord "ls"]) shell) = Err (OSError EMFILE) /\ snd (start (few 3) yes false (PCmd [AWord "ls"]) shell) = Err (OSError EMFILE) /\
  (let r := lowest (s_tab shell) in let t1 := tset (s_tab shell) r (Some (mkEnt (OPipeR 0) true)) in let w := lowest t1 in
   r < 5 /\ w < 5 /\ 5 <= lowest (tset t1 w (Some (mkEnt (OPipeW 0) true)))).
Proof.
  split; [do 3 eexists; vm_compute; reflexivity|]. split; [vm_compute; discriminate|]. split; [do 2 eexists; vm_compute; reflexivity|].
  split; [vm_compute; reflexivity|]. split; [vm_compute; reflexivity|]. vm_compute. auto.
Qed.
