(** Property theorems C60-C62: equivalent ways of writing a pipeline. *)
From Verif Require Import Py RedirModel RedirSpec Os PerformModel PerformSpec RunModel RunSpec
  RunTopSpec RunSameSpec RunAssoc PropsRun.

(** C60.  (a | b) | c and a | (b | c) start the same processes connected alike,
    with the same output; likewise for +. *)
Theorem C60_pipe_associative : forall L pf piped a b c s o0 o1 logfd maxfd,
  refers (s_tab s) 0 = Some o0 -> refers (s_tab s) 1 = Some o1 -> tget (s_tab s) 2 <> None ->
  clean (can_open L) INone piped (PPipe (PPipe a b) c) ->
  same_pipeline L pf piped (PPipe (PPipe a b) c) (PPipe a (PPipe b c)) s logfd maxfd.
Proof. exact pipe_assoc. Qed.
Print Assumptions C60_pipe_associative.
Theorem C60_group_associative : forall L pf a b c s o0 o1 logfd maxfd,
  refers (s_tab s) 0 = Some o0 -> refers (s_tab s) 1 = Some o1 -> tget (s_tab s) 2 <> None ->
  clean (can_open L) INone false (PGroup (PGroup a b) c) ->
  same_pipeline L pf false (PGroup (PGroup a b) c) (PGroup a (PGroup b c)) s logfd maxfd.
Proof. exact group_assoc. Qed.
Print Assumptions C60_group_associative.

(** C61.  Redirecting a | b redirects the stdin of a, the stdout of b, and every
    other descriptor of both; redirecting a + b redirects both. *)
Theorem C61_redirected_pipe : forall L pf piped a b crs s o0 o1 logfd maxfd,
  refers (s_tab s) 0 = Some o0 -> refers (s_tab s) 1 = Some o1 -> tget (s_tab s) 2 <> None ->
  clean (can_open L) INone piped (PRedir (PPipe a b) crs) ->
  same_pipeline L pf piped (PRedir (PPipe a b) crs) (PPipe (PRedir a (for_first crs)) (PRedir b (for_last crs))) s logfd maxfd.
Proof. exact pipe_redirect. Qed.
Print Assumptions C61_redirected_pipe.
Theorem C61_redirected_group : forall L pf a b crs s o0 o1 logfd maxfd,
  refers (s_tab s) 0 = Some o0 -> refers (s_tab s) 1 = Some o1 -> tget (s_tab s) 2 <> None ->
  clean (can_open L) INone false (PRedir (PGroup a b) crs) ->
  same_pipeline L pf false (PRedir (PGroup a b) crs) (PGroup (PRedir a crs) (PRedir b crs)) s logfd maxfd.
Proof. exact group_redirect. Qed.
Print Assumptions C61_redirected_group.

(** C62 fails: of two redirects of one descriptor the first written wins;
    (a | "f") | "g" starts exactly what a | "f" starts. *)
Theorem C62_later_redirect_ignored_refuted : forall L pf piped a kr kg r g s o0 o1 logfd maxfd,
  refers (s_tab s) 0 = Some o0 -> refers (s_tab s) 1 = Some o1 -> tget (s_tab s) 2 <> None ->
  r_fd r = r_fd g ->
  clean (can_open L) INone piped (PRedir (PRedir a [(kr, r)]) [(kg, g)]) ->
  same_pipeline L pf piped (PRedir (PRedir a [(kr, r)]) [(kg, g)]) (PRedir a [(kr, r)]) s logfd maxfd.
Proof. exact redirect_twice. Qed.
Print Assumptions C62_later_redirect_ignored_refuted.

(** Two redirects that differ, each to its file: the process gets the first one. *)
Definition other_file : redirects := [(1, mkRedirect 1 (SPath (PName "other")) out_flags default_mode None false)].
Definition in_file : redirects := [(0, mkRedirect 0 (SPath (PName "in")) O_RDONLY default_mode None false)].
Definition err_file : redirects := [(2, mkRedirect 2 (SPath (PName "err")) out_flags default_mode None false)].
Definition starts (p : pl) (check : list item -> bool) : Prop :=
  exists s' ret its, start some_limits (fun _ => true) false p shell = (s', Ok (ret, its)) /\
    Forall (fun it => match it with
                      | IProc rs t _ => room some_limits 63 rs t /\ find_free_fd rs < 64
                      | _ => True end) its /\ check its = true.
Lemma starts_checked p check :
  match start some_limits (fun _ => true) false p shell with
  | (_, Ok (_, its)) => forallb roomy its && check its
  | _ => false
  end = true -> starts p check.
Proof.
  unfold starts. destruct (start some_limits (fun _ => true) false p shell) as [s' [ [ret its]|e] ]; [|discriminate].
  intros X. apply andb_prop in X as [X C]. exists s', ret, its. split; [reflexivity|]. split; [|exact C].
  apply Forall_forall. rewrite forallb_forall in X. intros it Hit. specialize (X it Hit).
  destruct it as [rs t argv|]; [|exact I]. apply andb_prop in X as [Y1 Y2]. apply Nat.ltb_lt in Y1.
  assert (lim some_limits = 64) by reflexivity.
  split; [|lia]. split; [lia|]. split; [lia|]. exists 40. split; [lia|]. split; [lia|].
  destruct (tget t 40); [discriminate|reflexivity].
Qed.
Definition a_cmd : pl := PCmd [AWord "a"].
Definition b_cmd : pl := PCmd [AWord "b"].
Definition c_cmd : pl := PCmd [AWord "c"; APipeline (chain ["ls"%string] [["wc"%string] ])].
Example C60_nonvacuous :
  clean (can_open some_limits) INone false (PPipe (PPipe a_cmd (PFun true)) c_cmd) /\
  starts (PPipe (PPipe a_cmd (PFun true)) c_cmd) (fun its => List.length its =? 5) /\
  starts (PPipe a_cmd (PPipe (PFun true) c_cmd)) (fun its => List.length its =? 5) /\
  clean (can_open some_limits) INone false (PGroup (PGroup a_cmd b_cmd) c_cmd).
Proof.
  split; [cbn; tauto|]. split; [apply starts_checked; vm_compute; reflexivity|].
  split; [apply starts_checked; vm_compute; reflexivity|]. cbn; repeat split; intuition discriminate.
Qed.
Definition both : redirects := in_file ++ out_file ++ err_file.
Example C61_nonvacuous :
  clean (can_open some_limits) INone false (PRedir (PPipe a_cmd c_cmd) both) /\
  for_first both = in_file ++ err_file /\ for_last both = out_file ++ err_file /\
  starts (PRedir (PPipe a_cmd c_cmd) both) (fun its => List.length its =? 4) /\
  starts (PPipe (PRedir a_cmd (for_first both)) (PRedir c_cmd (for_last both))) (fun its => List.length its =? 4) /\
  clean (can_open some_limits) INone false (PRedir (PGroup a_cmd c_cmd) both).
Proof.
  split; [cbn; repeat split; repeat constructor; cbn; try lia; try discriminate; intuition discriminate|].
  split; [reflexivity|]. split; [reflexivity|].
  split; [apply starts_checked; vm_compute; reflexivity|]. split; [apply starts_checked; vm_compute; reflexivity|].
  cbn; repeat split; repeat constructor; cbn; try lia; try discriminate; intuition discriminate.
Qed.
Example C62_nonvacuous :
  clean (can_open some_limits) INone false (PRedir (PRedir a_cmd out_file) other_file) /\
  starts (PRedir (PRedir a_cmd out_file) other_file)
    (fun its => match its with
                | [IProc rs t _] => match program_fd some_limits 63 64 rs t 1 with
                                    | Some (OFile (PName f) _) => String.eqb f "out"
                                    | _ => false end
                | _ => false end).
Proof.
  split; [cbn; repeat split; repeat constructor; cbn; try lia; try discriminate; intuition discriminate|].
  apply starts_checked. vm_compute. reflexivity.
Qed.
