(** The wiring of started pipelines without the wiring function. *)
From Verif Require Import Py RedirModel RedirProofs Os PerformModel PerformSpec RunModel RunSpec RunTopSpec RunMain RunFinal RunMore RunFail RunEnds.

Lemma arg_started_from see ls a w x : arg_wired ls a w -> arg_connected see w x -> arg_started see ls a x.
Proof.
  destruct a; cbn.
  - intros ->. destruct x; cbn; auto.
  - intros [k [lf [-> H] ] ]. destruct x; cbn; [easy|]. intros [H2 H3]. split; [easy|]. exists k, lf. intuition.
  - intros [k [lf [-> H] ] ]. destruct x; cbn; [easy|]. intros [H2 H3]. split; [easy|]. exists k, lf. intuition.
  - intros [k [lf [-> H] ] ]. destruct x; cbn; [easy|]. intros [H2 H3]. split; [easy|]. exists k, lf. intuition.
Qed.
Lemma args_started see ls args ws argv : Forall2 (arg_wired ls) args ws -> Forall2 (arg_connected see) ws argv -> Forall2 (arg_started see ls) args argv.
Proof.
  intros H. revert argv. induction H; intros argv H2; inversion H2; subst; constructor; [|auto].
  eapply arg_started_from; eauto.
Qed.
Lemma start_args L pf piped args s o0 o1 logfd maxfd :
  refers (s_tab s) 0 = Some o0 -> refers (s_tab s) 1 = Some o1 -> tget (s_tab s) 2 <> None ->
  clean (can_open L) INone piped (PCmd args) ->
  match start L pf piped (PCmd args) s with
  | (_, Err e) => errs e
  | (s', Ok (ret, its)) =>
      exists ls its0 rs t argv, its = its0 ++ [IProc rs t argv] /\
        Forall2 (connected L logfd maxfd (s_tab s')) ls its0 /\
        (room L logfd rs t -> find_free_fd rs < maxfd ->
         Forall2 (arg_started (program_fd L logfd maxfd rs t) ls) args argv /\ NoDup (arg_numbers argv))
  end.
Proof.
  intros H0 H1 H2 Hc. pose proof (start_correct L pf piped (PCmd args) s o0 o1 logfd maxfd H0 H1 H2 Hc) as S0.
  destruct (start L pf piped (PCmd args) s) as [s' [ [ret its] |e] ]; [|exact S0].
  destruct S0 as [F _]. destruct (command_args_wired _ _ _ args (top_env o0 o1 piped) (s_np s) (s_nt s) Hc) as [ls [io [ws [E [A N0] ] ] ] ].
  rewrite E in F. apply Forall2_app_inv_l in F. destruct F as [its0 [l2 [F1 [F2 ->] ] ] ].
  inversion F2 as [|x y l l' C F3]; subst. inversion F3; subst.
  destruct y as [rs t argv|]; [|destruct C]. exists ls, its0, rs, t, argv. split; [easy|]. split; [easy|].
  intros R M. destruct (C R M) as [_ [C1 [C2 _] ] ]. split; [|easy]. eapply args_started; eauto.
Qed.
Lemma F2_length {A B} (R : A -> B -> Prop) l l' : Forall2 R l l' -> List.length l = List.length l'.
Proof. induction 1; cbn; congruence. Qed.
Lemma F2_nth {A B} (R : A -> B -> Prop) l l' : Forall2 R l l' -> forall n x, nth_error l n = Some x -> exists y, nth_error l' n = Some y /\ R x y.
Proof. induction 1; intros [|n] z Hz; try discriminate; cbn in *; [injection Hz as <-; eauto|eauto]. Qed.
Lemma F2_nth' {A B} (R : A -> B -> Prop) l l' : Forall2 R l l' -> forall n y, nth_error l' n = Some y -> exists x, nth_error l n = Some x /\ R x y.
Proof. induction 1; intros [|n] z Hz; try discriminate; cbn in *; [injection Hz as <-; eauto|eauto]. Qed.
Lemma words_connected see ws argv : Forall2 (arg_connected see) (map WWord ws) argv -> argv = map Word ws.
Proof.
  revert argv. induction ws as [|w ws IH]; intros argv H; inversion H; subst; [easy|]. cbn. f_equal; [|auto].
  destruct y; cbn in *; [now subst|easy].
Qed.
Lemma words_numbers ws : arg_numbers (map Word ws) = [].
Proof. induction ws; cbn; auto. Qed.
Lemma start_chain L pf piped c cs s o0 o1 logfd maxfd :
  refers (s_tab s) 0 = Some o0 -> refers (s_tab s) 1 = Some o1 -> tget (s_tab s) 2 <> None ->
  match start L pf piped (chain c cs) s with
  | (_, Err e) => errs e
  | (s', Ok (ret, its)) =>
      let n := List.length cs in
      List.length its = S n /\
      (forall i ws, nth_error (c :: cs) i = Some ws -> exists rs t argv, nth_error its i = Some (IProc rs t argv) /\
        (room L logfd rs t -> find_free_fd rs < maxfd ->
         let see := program_fd L logfd maxfd rs t in
         argv = map Word ws /\
         see 0 = Some (match i with 0 => o0 | S j => OPipeR (s_np s + j) end) /\
         see 1 = Some (if Nat.eqb i n then (if piped then OPipeW (s_np s + n) else o1) else OPipeW (s_np s + i)) /\
         see 2 = Some (OTmp (s_nt s + i)) /\
         (forall m, 2 < m -> m < maxfd -> m <> logfd -> see m = None))) /\
      (if piped then exists x, caller_fds ret = [x] /\ refers (s_tab s') x = Some (OPipeR (s_np s + n)) else True)
  end.
Proof.
  intros H0 H1 H2. pose proof (start_correct L pf piped (chain c cs) s o0 o1 logfd maxfd H0 H1 H2 (clean_chain _ _ _ _)) as S0.
  destruct (start L pf piped (chain c cs) s) as [s' [ [ret its] |e] ]; [|exact S0].
  destruct S0 as [F [O _] ]. cbn zeta.
  destruct (chain_spec o0 o1 piped c cs (s_np s) (s_nt s) 0 c) as [LW [_ OW] ].
  split; [rewrite <- LW; symmetry; eapply F2_length; exact F|]. split.
  - intros i ws Hi. destruct (chain_spec o0 o1 piped c cs (s_np s) (s_nt s) i ws) as [_ [C _] ].
    destruct (C Hi) as [io [E [I0 [I1 [I2 I3] ] ] ] ].
    destruct (F2_nth _ _ _ F _ _ E) as [it [E2 K] ].
    destruct it as [rs t argv|]; [|destruct K]. exists rs, t, argv. split; [easy|]. intros R M.
    destruct (K R M) as [_ [_ [K1 K2] ] ]. apply words_connected in K1. subst argv. rewrite words_numbers in K2.
    split; [easy|].
    pose proof (proj1 (find_free_fd_above rs)). assert (logfd > 2) by (destruct R as [_ [R _] ]; lia).
    rewrite !K2 by (cbn; auto; lia). split; [easy|]. split; [easy|]. split; [easy|]. intros m Hm M1 M2. rewrite K2; auto.
  - destruct piped; [|easy]. destruct O as [x [k [O1 [O2 O3] ] ] ]. exists x. split; [easy|]. rewrite OW in O2. now injection O2 as <-.
Qed.

(** Which ends a started item holds. *)
Lemma arg_number_in ws argv see n : Forall2 (arg_connected see) ws argv -> In n (arg_numbers argv) -> exists o, In (WArg o) ws /\ see n = Some o.
Proof.
  induction 1 as [|w a ws argv C F IH]; cbn; [easy|]. destruct w, a; cbn in *; try easy.
  - intros H. destruct (IH H) as [o [A B] ]. eauto.
  - intros [<-|H]; [exists o; intuition|]. destruct (IH H) as [o' [A B] ]. eauto.
Qed.
Lemma start_one_end L pf piped p s o0 o1 logfd maxfd :
  refers (s_tab s) 0 = Some o0 -> refers (s_tab s) 1 = Some o1 -> tget (s_tab s) 2 <> None ->
  clean (can_open L) INone piped p ->
  (forall o, o = o0 \/ o = o1 -> is_end o -> pipe_no o < s_np s) ->
  (forall j, ~ (In (OPipeR j) [o0; o1] /\ In (OPipeW j) [o0; o1])) ->
  match start L pf piped p s with
  | (_, Err e) => errs e
  | (s', Ok (ret, its)) => forall it k, In it its -> ~ (item_holds L logfd maxfd (s_tab s') it (OPipeR k) /\ item_holds L logfd maxfd (s_tab s') it (OPipeW k))
  end.
Proof.
  intros H0 H1 H2 Hc Ha Hb. pose proof (start_correct L pf piped p s o0 o1 logfd maxfd H0 H1 H2 Hc) as S0.
  destruct (start L pf piped p s) as [s' [ [ret its] |e] ]; [|exact S0].
  destruct S0 as [F _]. intros it k Hit.
  destruct (In_nth_error _ _ Hit) as [n Hn].
  destruct (F2_nth' _ _ _ F _ _ Hn) as [lf [E K] ]. apply nth_error_In in E.
  pose proof (no_both_ends p o0 o1 piped (s_np s) (s_nt s) lf k Ha Hb E) as NB.
  intros [A B]. apply NB. 
  destruct it as [rs t argv|infd outfd rs], lf as [io ws|inp out]; cbn in K; try easy.
  - assert (X : forall o, item_holds L logfd maxfd (s_tab s') (IProc rs t argv) o -> holds (LProc io ws) o).
    { intros o [R [M [q [Q1 [Q2 Q3] ] ] ] ]. destruct (K R M) as [_ [_ [C1 C2] ] ].
      destruct (in_dec Nat.eq_dec q (arg_numbers argv)) as [I0|I0].
      - destruct (arg_number_in _ _ _ _ C1 I0) as [o' [W1 W2] ]. right. congruence.
      - left. exists q. rewrite <- C2; auto. }
    split; auto.
  - assert (X : forall o, item_holds L logfd maxfd (s_tab s') (IFun infd outfd rs) o -> holds (LFun inp out) o).
    { intros o [ [fd [-> Q] ] |Q]; cbn.
      - destruct inp; [|easy]. left. destruct K as [K _]. congruence.
      - right. destruct K as [_ K]. congruence. }
    split; auto.
Qed.
