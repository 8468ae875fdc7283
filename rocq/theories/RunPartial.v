(** The cases in which the claims that fail in general do hold. *)
From Verif Require Import Py RedirModel RedirSpec Os PerformModel PerformSpec RunModel RunSpec
  RunTopSpec RunMain RunArgs RunTop RunFinal RunMore RunFail RunStarted.

Section P.
  Context (L : limits) (pf : ofd -> bool).
  Definition stderr_to_borrowed (n : nat) : redirects :=
    [(2, mkRedirect 2 (SInt n) out_flags default_mode None true)].
  Lemma borrowed_source ws n s :
    exists x, start L pf false (PRedir (PCmd (map AWord ws)) (stderr_to_borrowed n)) s = (s, Ok x).
  Proof.
    rewrite start_is. change (run L pf (PRedir (PCmd (map AWord ws)) (stderr_to_borrowed n)) (top_rs false))
      with (rdo m <- rlift (merge def_rs (stderr_to_borrowed n)); run L pf (PCmd (map AWord ws)) m).
    unfold rbind at 1.
    change (rlift (merge def_rs (stderr_to_borrowed n)) s) with
      (s, Ok [(0, mkRedirect 0 (SInt 0) O_RDONLY default_mode None true);
              (1, mkRedirect 1 (SInt 1) out_flags default_mode None true);
              (2, mkRedirect 2 (SInt n) out_flags default_mode None true)]).
    cbv beta iota.
    set (rs := [_; _; _]).
    rewrite run_PCmd. unfold rbind.
    assert (Em : make_pipes L rs s = (s, Ok rs)) by reflexivity. rewrite Em.
    assert (Ec : rlift (new_redirects [IRedirects rs]) s = (s, Ok rs)) by reflexivity. rewrite Ec.
    assert (Ea : run_args L pf (borrow rs) (map AWord ws) rs s = (s, Ok (rs, [], map Word ws))).
    { clear. induction ws as [|w ws IH]; [reflexivity|]. cbn [map]. change (run_args L pf (borrow rs) (AWord w :: map AWord ws) rs) with
        (rdo (m, its, argv) <- run_args L pf (borrow rs) (map AWord ws) rs; rret (m, its, Word w :: argv)).
      unfold rbind. now rewrite IH. }
    rewrite Ea. cbv beta iota. unfold get_tab, lift. cbv beta iota.
    assert (Ek : close_source_fds rs (s_tab s) = (s_tab s, Ok tt)) by reflexivity.
    rewrite Ek. unfold rret. eexists. destruct s. reflexivity.
  Qed.
  Lemma builtin_alone s : start L pf false PBuiltin s = (s, Ok (None, [])).
  Proof. rewrite start_is. reflexivity. Qed.

  Lemma words_only ws : forall ws' argv see, Forall2 (arg_connected see) (map WWord ws) argv -> ws' = map Word ws -> argv = ws'.
  Proof.
    induction ws as [|w ws IH]; intros ws' argv see F ->; inversion F as [|? a ? l A F']; subst; [reflexivity|].
    cbn [map]. f_equal; [|exact (IH _ l see F' eq_refl)]. destruct a; cbn in A; [now subst|contradiction].
  Qed.
  (** a + b, unpiped. *)
  Lemma wire_words ws e np nt : exists m np' nt', make e np nt = (m, np', nt') /\
    wire (PCmd (map AWord ws)) e np nt = mkWired [LProc (io_of m) (map WWord ws)] (asked e np 0) (asked e np 1) np' nt'.
  Proof.
    destruct (make e np nt) as [ [m np'] nt'] eqn:M. exists m, np', nt'. split; [reflexivity|]. cbn [wire]. rewrite M.
    set (F := fix wire_args (l : list arg) (np nt : nat) : list leaf * list warg * nat * nat := _).
    assert (E : forall a b, F (map AWord ws) a b = ([], map WWord ws, a, b)).
    { clear. induction ws as [|w ws IH]; intros a b; [reflexivity|]. cbn [map]. cbn. fold F. now rewrite IH. }
    rewrite E. reflexivity.
  Qed.
  Lemma conn_fd logfd maxfd sh io ws it n : connected L logfd maxfd sh (LProc io (map WWord ws)) it -> n < maxfd -> n <> logfd ->
    exists rs t argv, it = IProc rs t argv /\
      (room L logfd rs t -> find_free_fd rs < maxfd -> argv = map Word ws /\ program_fd L logfd maxfd rs t n = io n).
  Proof.
    intros C N1 N2. destruct it as [rs t argv|]; [|contradiction]. exists rs, t, argv. split; [reflexivity|]. intros R F.
    destruct (C R F) as (_ & _ & W & P). assert (argv = map Word ws) as -> by (eapply words_only; eauto).
    split; [reflexivity|]. apply P; auto. clear. induction ws; [intros []|auto].
  Qed.
End P.
