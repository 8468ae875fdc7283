(** Proofs about starting pipelines, part 8: what the user sees. *)
From Verif Require Import Py RedirModel RedirSpec RedirProofs Os PerformModel PerformSpec
  PerformProofs PerformSound RunModel RunSpec RunTopSpec RunProofs RunPre RunMake RunMake2 RunMain RunArgs RunTop.
From Coq Require Import Permutation.
#[local] Arguments hp : simpl never.
#[local] Arguments rbind : simpl never.
#[local] Arguments rret : simpl never.

Definition def_rs : redirects :=
  [(0, mkRedirect 0 (SInt 0) O_RDONLY default_mode None true);
   (1, mkRedirect 1 (SInt 1) out_flags default_mode None true);
   (2, mkRedirect 2 SSTRING out_flags default_mode None false)].
Lemma default_is : default_redirects = Ok def_rs.
Proof. reflexivity. Qed.
Lemma wf_def : wf_redirects def_rs.
Proof.
  split; [cbn; repeat constructor; cbn; intuition congruence|].
  repeat constructor; cbn; try reflexivity; discriminate.
Qed.

Section Final.
  Variable L : limits.
  Variable pf : ofd -> bool.

  Lemma Pre_def t o0 o1 : refers t 0 = Some o0 -> refers t 1 = Some o1 -> tget t 2 <> None ->
    Pre L INone false t def_rs (top_env o0 o1 false).
  Proof.
    intros H0 H1 H2. constructor.
    - exact wf_def.
    - repeat constructor; cbn; assumption.
    - cbn. repeat constructor; cbn; intuition congruence.
    - discriminate.
    - discriminate.
    - intros k r [E|[E|[E|[]]]]; injection E as <- <-; cbn; try (split; [intros; auto|discriminate]).
      reflexivity.
    - discriminate.
    - discriminate.
    - intros n Hn. destruct n as [|[|[|n]]]; [| |exact H2|lia].
      + unfold refers in H0. destruct (tget t 0); [discriminate|discriminate].
      + unfold refers in H1. destruct (tget t 1); [discriminate|discriminate].
  Qed.

  Definition top_rs (piped : bool) : redirects := if piped then dset def_rs 1 stdout_pipe else def_rs.
  Lemma start_is piped p s :
    start L pf piped p s = run L pf p (top_rs piped) s.
  Proof. unfold start, run_top. destruct piped; reflexivity. Qed.
  Lemma Pre_top t o0 o1 piped : refers t 0 = Some o0 -> refers t 1 = Some o1 -> tget t 2 <> None ->
    Pre L INone piped t (top_rs piped) (top_env o0 o1 piped).
  Proof.
    intros H0 H1 H2. pose proof (Pre_def t o0 o1 H0 H1 H2) as H. destruct piped; [|exact H].
    exact (Pre_ask1 L _ _ _ _ _ H).
  Qed.
  Lemma nbs_top piped : nbs (dvals (top_rs piped)) = [].
  Proof. destruct piped; reflexivity. Qed.

  (** From the descriptors a process asks for to those its program finds. *)
  Lemma proc_connected logfd maxfd shell io ws rs t argv :
    proc_ok L io ws rs t argv -> connected L logfd maxfd shell (LProc io ws) (IProc rs t argv).
  Proof.
    intros [Hw [Hnd [Hao [Hna [Hio [Hseen Hsrc]]]]]] [R1 [R2 R3]] Hmax.
    assert (HP : performable L logfd rs t).
    { constructor; auto. }
    destruct (perform_correct L logfd maxfd rs t HP) as [t' [E [A [B [C D]]]]].
    assert (V : forall n, n < maxfd -> n <> logfd -> program_fd L logfd maxfd rs t n = seen rs t n).
    { intros n Hn Hl. unfold program_fd. rewrite E. cbn [fst]. unfold seen.
      exact (program_sees L logfd maxfd rs t t' n Hw E Hl Hn). }
    assert (Hkey : forall n, seen rs t n <> None -> n < find_free_fd rs).
    { intros n Hn. unfold seen in Hn. destruct (dget rs n) as [r|] eqn:Er; [|congruence].
      destruct (wf_fd rs n r Hw Er) as [_ Efd]. rewrite <- Efd.
      apply (proj1 (proj2 (find_free_fd_above rs)) n r). now apply dget_In. }
    split; [rewrite E; reflexivity|]. split; [exact Hna|]. split.
    - assert (X : forall n o, dget (combine (arg_fds argv) (arg_ofds ws)) n = Some o ->
                    program_fd L logfd maxfd rs t n = Some o).
      { intros n o Hg. assert (S : seen rs t n = Some o) by now rewrite Hseen, Hg.
        rewrite V; [exact S| |]; assert (n < find_free_fd rs) by (apply Hkey; congruence); lia. }
      assert (Y : forall n, In n (arg_fds argv) -> 2 < n) by (intros n Hn; now apply Hio).
      clear -Hao Hna X Y. induction Hao as [|w a ws argv Ha Hl IH]; constructor.
      + destruct w as [x|o], a as [y|n]; cbn in *; try contradiction; [exact Ha|]. split; [now apply Y; left|].
        apply X. now rewrite Nat.eqb_refl.
      + destruct w as [x|o], a as [y|n]; cbn in *; try contradiction; [apply IH; auto|].
        inversion Hna as [|? ? Hn Hd]; subst. apply IH; auto.
        intros m o' Hg. apply X. destruct (Nat.eqb_spec m n) as [->|]; [|exact Hg].
        exfalso. apply Hn. apply dget_In in Hg. eapply in_combine_l; eauto.
    - intros n Hn Hl Hna'. rewrite V by assumption. rewrite Hseen.
      replace (dget (combine (arg_fds argv) (arg_ofds ws)) n) with (@None ofd); [reflexivity|].
      symmetry. apply dget_None. intros X. apply Hna'. now apply combine_keys in X.
  Qed.
  Lemma item_connected logfd maxfd shell lf it :
    item_ok L shell lf it -> connected L logfd maxfd shell lf it.
  Proof.
    destruct lf as [io ws|inp out], it as [rs t argv|infd outfd rs]; try (intros []; fail).
    - apply proc_connected.
    - intros [A [o [-> B]]]. split.
      + destruct inp, infd; auto. unfold refers. now rewrite A.
      + unfold refers. now rewrite B.
  Qed.

  Theorem start_correct piped p s o0 o1 logfd maxfd :
    refers (s_tab s) 0 = Some o0 -> refers (s_tab s) 1 = Some o1 -> tget (s_tab s) 2 <> None ->
    clean (can_open L) INone piped p ->
    match start L pf piped p s with
    | (_, Err e) => errs e
    | (s', Ok (ret, its)) =>
        let W := wire p (top_env o0 o1 piped) (s_np s) (s_nt s) in
        Forall2 (connected L logfd maxfd (s_tab s')) (w_leaves W) its /\
        (if piped then exists x k, caller_fds ret = [x] /\ w_out W = Some k /\ refers (s_tab s') x = Some (OPipeR k)
         else w_out W = None) /\
        (let own := (if piped then caller_fds ret else []) ++ function_fds its in
         NoDup own /\ (forall n, In n own -> tget (s_tab s) n = None) /\
         (forall n, ~ In n own -> tget (s_tab s') n = tget (s_tab s) n))
    end.
  Proof.
    intros H0 H1 H2 Hc. rewrite start_is.
    pose proof (run_hp L pf p INone piped s _ _ (Pre_top _ _ _ piped H0 H1 H2) Hc) as H. unfold hp in H.
    destruct (run L pf p (top_rs piped) s) as [s' [[ret its]|e]]; [|exact H].
    destruct H as [rs' [E [Hw [_ [_ [Hnp [Hnt [Hit [Hret Hpt]]]]]]]]]. cbn [fst snd] in *. subst ret.
    rewrite nbs_top in Hpt. apply postt_ext in Hpt; [|intros n []].
    split; [|split].
    - clear -Hit. induction Hit as [|lf it ls its Hi Hl IH]; constructor; [|exact IH]. now apply item_connected.
    - destruct piped; [|apply Hret]. destruct (ret_fds_out _ _ _ _ Hret) as [k [r [x [Ek [Er [Ep [Et Ef]]]]]]].
      exists x, k. split; [cbn; now rewrite Er, Ep|]. split; [exact Ek|]. unfold refers. now rewrite Et.
    - assert (E : ret_fds INone piped rs' ++ items_fds its = (if piped then caller_fds (Some rs') else []) ++ function_fds its).
      { f_equal. destruct piped; [|reflexivity]. unfold ret_fds, reqs. cbn. apply app_nil_r. }
      rewrite <- E. destruct Hpt as [A [B C]]. split; [exact A|]. split; [intros n Hn; now apply B|exact C].
  Qed.
End Final.
