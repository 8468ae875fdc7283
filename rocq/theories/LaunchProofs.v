From Verif Require Import Py RedirModel Os PerformModel RunModel PerformSpec RunSpec RunArgs RunTop RunTopSpec RunFinal LaunchModel.

(** [agrees pre m n its]: [m] does what [n] does, and if it succeeds, the items
    begun before it ([pre]) and in it are those the result lists ([its]). *)
Definition agrees {A} (pre : list item) (m : SM A) (n : RM A) (its : A -> list item) : Prop :=
  forall s s' l r, m s = (s', l, r) -> n s = (s', r) /\ forall a, r = Ok a -> pre ++ l = its a.
Lemma ag_quiet {A} pre (m : RM A) : agrees pre (quiet m) m (fun _ => pre).
Proof. intros s s' l r H. unfold quiet in H. destruct (m s) as [s1 r1]. injection H as <- <- <-. split; [reflexivity|]. intros. apply app_nil_r. Qed.
Lemma ag_bind {A B} pre (m : SM A) n (i1 : A -> list item) (f : A -> SM B) g i2 :
  agrees pre m n i1 -> (forall a, agrees (i1 a) (f a) (g a) i2) -> agrees pre (sbind m f) (rbind n g) i2.
Proof.
  intros H K s s' l r E. unfold sbind in E. destruct (m s) as [[s1 l1] r1] eqn:M. destruct (H _ _ _ _ M) as [N I].
  unfold rbind. rewrite N. destruct r1 as [a|e].
  - destruct (f a s1) as [[s2 l2] r2] eqn:F. injection E as <- <- <-. destruct (K a _ _ _ _ F) as [G J]. split; [exact G|].
    intros b Hb. rewrite app_assoc, (I a eq_refl). now apply J.
  - injection E as <- <- <-. split; [reflexivity|discriminate].
Qed.
Lemma ag_began {A} pre i (f : SM A) g its : agrees (pre ++ [i]) f g its -> agrees pre (sbind (began i) (fun _ => f)) g its.
Proof.
  intros H s s' l r E. unfold sbind, began in E. destruct (f s) as [[s2 l2] r2] eqn:F. injection E as <- <- <-.
  destruct (H _ _ _ _ F) as [G J]. split; [exact G|]. intros a Ha. specialize (J a Ha). now rewrite <- app_assoc in J.
Qed.
Lemma ag_ret {A} pre (a : A) its : its a = pre -> agrees pre (sret a) (rret a) its.
Proof. intros H s s' l r E. unfold sret, quiet, rret in E. injection E as <- <- <-. split; [reflexivity|]. intros b Hb. injection Hb as <-. now rewrite app_nil_r. Qed.
Lemma ag_its {A} pre (m : SM A) n its its' : agrees pre m n its -> (forall a, its a = its' a) -> agrees pre m n its'.
Proof. intros H K s s' l r E. destruct (H _ _ _ _ E) as [N I]. split; [exact N|]. intros a Ha. rewrite <- K. now apply I. Qed.
(** a tail without started items, on both sides *)
Lemma ag_tail {A} pre (m : RM A) its : (forall s s' a, m s = (s', Ok a) -> its a = pre) -> agrees pre (quiet m) m its.
Proof.
  intros K s s' l r H. unfold quiet in H. destruct (m s) as [s1 r1] eqn:E. injection H as <- <- <-. split; [reflexivity|].
  intros a ->. rewrite app_nil_r. symmetry. eapply K. exact E.
Qed.
Lemma rbind_ok {A B} (m : RM A) (f : A -> RM B) s s' b : rbind m f s = (s', Ok b) -> exists s1 a, m s = (s1, Ok a) /\ f a s1 = (s', Ok b).
Proof. unfold rbind. destruct (m s) as [s1 [a|e]]; intros H; [eauto|discriminate]. Qed.

Section Agree.
  Context (L : limits) (pf : ofd -> bool).
  Lemma launch_function_agrees inp rs pre : agrees pre (launch_function L pf inp rs) (run_function L pf inp rs) (fun x => pre ++ snd x).
  Proof.
    unfold launch_function, run_function. eapply ag_bind; [apply ag_quiet|]. intros made. eapply ag_bind; [apply ag_quiet|]. intros infd.
    eapply ag_bind; [apply ag_quiet|]. intros r. eapply ag_bind; [apply ag_quiet|]. intros outfd. eapply ag_bind; [apply ag_quiet|]. intros [].
    apply ag_began. eapply ag_bind; [apply ag_quiet|]. intros []. apply ag_ret. reflexivity.
  Qed.
  Definition launch_args (orig : redirects) :=
    (fix launch_args (l : list arg) (made : redirects) : SM (redirects * list item * list aword) :=
             match l with
             | [] => sret (made, [], [])
             | AWord w :: l' =>
                 sdo (m, its, argv) <- launch_args l' made;
                 sret (m, its, Word w :: argv)
             | APipeline q :: l' =>
                 sdo sub <- quiet (rlift (with_redirect orig "stdout" SPIPE));
                 sdo (o, its1) <- launch L pf q sub;
                 sdo src <- quiet (rlift (pipe_of o "stdout"));
                 sdo (made1, fd) <- quiet (rlift (add_arg_redirect made src O_RDONLY));
                 sdo (m, its2, argv) <- launch_args l' made1;
                 sret (m, its1 ++ its2, DevFd fd :: argv)
             | AIterator :: l' =>
                 sdo sub <- quiet (rlift (with_redirect orig "stdout" SPIPE));
                 sdo (r, its1) <- launch_function L pf false sub;
                 sdo src <- quiet (rlift (pipe_of (Some r) "stdout"));
                 sdo (made1, fd) <- quiet (rlift (add_arg_redirect made src O_RDONLY));
                 sdo (m, its2, argv) <- launch_args l' made1;
                 sret (m, its1 ++ its2, DevFd fd :: argv)
             | AFunction :: l' =>
                 sdo sub <- quiet (rlift (with_redirect orig "stdin" SPIPE));
                 sdo (r, its1) <- launch_function L pf true sub;
                 sdo src <- quiet (rlift (pipe_of (Some r) "stdin"));
                 sdo (made1, fd) <- quiet (rlift (add_arg_redirect made src O_WRONLY));
                 sdo (m, its2, argv) <- launch_args l' made1;
                 sret (m, its1 ++ its2, DevFd fd :: argv)
             end).
  Lemma launch_PCmd args rs : launch L pf (PCmd args) rs =
        (sdo made <- quiet (make_pipes L rs);
        sdo orig0 <- quiet (rlift (new_redirects [IRedirects made]));
        sdo (made', its, argv) <- launch_args (borrow orig0) args made;
        sdo t <- quiet get_tab;
        sdo _ <- began (IProc made' t argv);
        sdo _ <- quiet (lift (close_source_fds made'));
        sret (Some made', its ++ [IProc made' t argv])).
  Proof. reflexivity. Qed.
  Definition ok_at (p : pl) : Prop := forall rs pre, agrees pre (launch L pf p rs) (run L pf p rs) (fun x => pre ++ snd x).
  Lemma launch_args_agrees orig l : Forall (fun a => match a with APipeline q => ok_at q | _ => True end) l ->
    forall made pre, agrees pre (launch_args orig l made) (run_args L pf orig l made) (fun x => pre ++ snd (fst x)).
  Proof.
    induction 1 as [|a l Ha F IH]; intros made pre.
    - apply ag_ret. cbn. apply app_nil_r.
    - destruct a as [w|q| |]; cbn [launch_args run_args]; fold (launch_args orig) (run_args L pf orig).
      + eapply ag_bind; [apply IH|]. intros [[m its] argv]. now apply ag_ret.
      + eapply ag_bind; [apply ag_quiet|]. intros sub. eapply ag_bind; [apply Ha|]. intros [o its1]. eapply ag_bind; [apply ag_quiet|]. intros src.
        eapply ag_bind; [apply ag_quiet|]. intros [made1 fd]. eapply ag_bind; [apply IH|]. intros [[m its2] argv]. apply ag_ret. cbn. apply app_assoc.
      + eapply ag_bind; [apply ag_quiet|]. intros sub. eapply ag_bind; [apply launch_function_agrees|]. intros [o its1]. eapply ag_bind; [apply ag_quiet|]. intros src.
        eapply ag_bind; [apply ag_quiet|]. intros [made1 fd]. eapply ag_bind; [apply IH|]. intros [[m its2] argv]. apply ag_ret. cbn. apply app_assoc.
      + eapply ag_bind; [apply ag_quiet|]. intros sub. eapply ag_bind; [apply launch_function_agrees|]. intros [o its1]. eapply ag_bind; [apply ag_quiet|]. intros src.
        eapply ag_bind; [apply ag_quiet|]. intros [made1 fd]. eapply ag_bind; [apply IH|]. intros [[m its2] argv]. apply ag_ret. cbn. apply app_assoc.
  Qed.
  Lemma launch_agrees p : ok_at p.
  Proof.
    induction p as [args HF|b|a b IHa IHb|a b IHa IHb|q crs IH|] using pl_ind'; intros rs pre.
    - rewrite launch_PCmd, run_PCmd. eapply ag_bind; [apply ag_quiet|]. intros made. eapply ag_bind; [apply ag_quiet|]. intros orig0.
      eapply ag_bind; [apply launch_args_agrees|]. { eapply Forall_impl; [|exact HF]. intros x. destruct x; auto. }
      intros [[m its] argv]. eapply ag_bind; [apply ag_quiet|]. intros t. apply ag_began. eapply ag_bind; [apply ag_quiet|]. intros []. apply ag_ret. cbn. apply app_assoc.
    - cbn [launch run]. eapply ag_bind; [apply launch_function_agrees|]. intros [r its]. now apply ag_ret.
    - cbn [launch run]. eapply ag_bind; [apply ag_quiet|]. intros c0. eapply ag_bind; [apply ag_quiet|]. intros rsa. eapply ag_bind; [apply IHa|]. intros [oa ia].
      eapply ag_bind; [apply ag_quiet|]. intros src. eapply ag_bind; [apply ag_quiet|]. intros rsb. eapply ag_bind; [apply IHb|]. intros [ob ib].
      cbn [snd]. destruct oa as [ra|]; [destruct ob as [rb|]|]; apply ag_tail; intros s s' x H; try discriminate.
      repeat (apply rbind_ok in H; destruct H as (? & ? & _ & H)). injection H as <- <-. cbn. apply app_assoc.
    - cbn [launch run]. eapply ag_bind; [apply ag_quiet|]. intros c0. eapply ag_bind; [apply IHa|]. intros [oa ia]. eapply ag_bind; [apply IHb|]. intros [ob ib].
      cbn [snd]. destruct oa as [ra|]; [destruct ob as [rb|]|]; apply ag_tail; intros s s' x H; try discriminate;
      repeat (apply rbind_ok in H; destruct H as (? & ? & _ & H)); injection H as <- <-; cbn; apply app_assoc.
    - cbn [launch run]. eapply ag_bind; [apply ag_quiet|]. intros m. apply IH.
    - apply ag_ret. cbn. apply app_nil_r.
  Qed.
  Lemma launch_is_run p rs s s' l r : launch L pf p rs s = (s', l, r) -> run L pf p rs s = (s', r) /\ forall o its, r = Ok (o, its) -> l = its.
  Proof. intros H. destruct (launch_agrees p rs [] _ _ _ _ H) as [A B]. split; [exact A|]. intros o its E. exact (B _ E). Qed.
End Agree.
Section Fails.
  Context (L : limits) (pf : ofd -> bool).
  Definition left_rs : redirects :=
    [(0, mkRedirect 0 (SInt 0) O_RDONLY default_mode None true); (1, mkRedirect 1 SPIPE out_flags default_mode None false);
     (2, mkRedirect 2 SSTRING out_flags default_mode None true)].
  Lemma left_same args s : launch L pf (PCmd args) left_rs s = launch L pf (PCmd args) (top_rs true) s.
  Proof.
    rewrite !launch_PCmd. unfold sbind at 1. unfold sbind at 5. assert (E : quiet (make_pipes L left_rs) s = quiet (make_pipes L (top_rs true)) s) by reflexivity.
    now rewrite E.
  Qed.
  Lemma launch_pipe a b : launch L pf (PPipe a b) def_rs =
    (sdo child0 <- quiet (rlift (new_redirects [IRedirects def_rs]));
     sdo rsa <- quiet (rlift (with_redirect (borrow child0) "stdout" SPIPE));
     sdo (oa, ia) <- launch L pf a rsa;
     sdo src <- quiet (rlift (pipe_of oa "stdout"));
     sdo rsb <- quiet (rlift (with_redirect (borrow child0) "stdin" src));
     sdo (ob, ib) <- launch L pf b rsb;
     match oa, ob with
     | Some ra, Some rb =>
            quiet (rdo m <- rlift (merge ra rb);
                   rdo i <- std ra "stdin";
                   rdo m1 <- rlift (register m i);
                   rdo o <- std rb "stdout";
                   rdo m2 <- rlift (register m1 o);
                   rdo _ <- lift (close_source_fds def_rs);
                   rret (Some m2, ia ++ ib))
     | _, _ => quiet (rraise KeyError)
     end).
  Proof. reflexivity. Qed.
  Lemma sbind_quiet_ok {A B} (m : RM A) (f : A -> SM B) s s1 a : m s = (s1, Ok a) -> sbind (quiet m) f s = f a s1.
  Proof. intros H. unfold sbind, quiet. rewrite H. destruct (f a s1) as [[? ?] ?]. reflexivity. Qed.
  Lemma left_started args b s s1 o ia : start L pf true (PCmd args) s = (s1, Ok (o, ia)) ->
    exists l', snd (fst (launch L pf (PPipe (PCmd args) b) def_rs s)) = ia ++ l'.
  Proof.
    intros H. rewrite start_is in H. rewrite launch_pipe. rewrite (sbind_quiet_ok _ _ _ s def_rs) by reflexivity.
    rewrite (sbind_quiet_ok _ _ _ s left_rs) by reflexivity. unfold sbind at 1. rewrite left_same.
    destruct (launch L pf (PCmd args) (top_rs true) s) as [[s2 l] r] eqn:E. destruct (launch_is_run _ _ _ _ _ _ _ _ E) as [R I].
    rewrite H in R. injection R as <- <-. rewrite (I _ _ eq_refl). match goal with |- context [ sbind ?m ?f s1 ] => destruct (sbind m f s1) as [[s3 l3] r3] end.
    exists l3. reflexivity.
  Qed.
  Lemma left_started_builtin args s s1 o ia : start L pf true (PCmd args) s = (s1, Ok (o, ia)) ->
    exists s' e, launch L pf (PPipe (PCmd args) PBuiltin) def_rs s = (s', ia, Err e).
  Proof.
    intros H. rewrite start_is in H. rewrite launch_pipe. rewrite (sbind_quiet_ok _ _ _ s def_rs) by reflexivity.
    rewrite (sbind_quiet_ok _ _ _ s left_rs) by reflexivity. unfold sbind at 1. rewrite left_same.
    destruct (launch L pf (PCmd args) (top_rs true) s) as [[s2 l] r] eqn:E. destruct (launch_is_run _ _ _ _ _ _ _ _ E) as [R I].
    rewrite H in R. injection R as <- <-. rewrite (I _ _ eq_refl). clear.
    assert (Q : forall (A : Type) (r : res A) (f : A -> SM rresult), (forall a, exists e, f a s1 = (s1, [], Err e)) -> exists e, sbind (quiet (rlift r)) f s1 = (s1, [], Err e)).
    { intros A [a|e] f F; [|now exists e]. destruct (F a) as (e & E). exists e. unfold sbind, quiet, rlift. rewrite E. reflexivity. }
    edestruct (Q source) as (e & E); [|unfold rresult in *; rewrite E; rewrite app_nil_r; eauto].
    intros src. apply Q. intros rsb. cbn [launch]. exists KeyError. destruct o; reflexivity.
  Qed.
  (** The same pipe inside a group, whose second member it is. *)
  Lemma left_same_borrowed args s : launch L pf (PPipe (PCmd args) PBuiltin) (borrow def_rs) s = launch L pf (PPipe (PCmd args) PBuiltin) def_rs s.
  Proof. reflexivity. Qed.
  Lemma cmd_same_borrowed args s : launch L pf (PCmd args) (borrow def_rs) s = launch L pf (PCmd args) (top_rs false) s.
  Proof.
    rewrite !launch_PCmd. unfold sbind at 1. unfold sbind at 5. assert (E : quiet (make_pipes L (borrow def_rs)) s = quiet (make_pipes L (top_rs false)) s) by reflexivity.
    now rewrite E.
  Qed.
  Lemma group_started args0 args s s0 o0 i0 s1 o ia : start L pf false (PCmd args0) s = (s0, Ok (o0, i0)) -> start L pf true (PCmd args) s0 = (s1, Ok (o, ia)) ->
    exists s' e, launch L pf (PGroup (PCmd args0) (PPipe (PCmd args) PBuiltin)) def_rs s = (s', i0 ++ ia, Err e).
  Proof.
    intros H0 H1. destruct (left_started_builtin _ _ _ _ _ H1) as (s' & e & E). exists s', e. rewrite start_is in H0.
    change (launch L pf (PGroup (PCmd args0) (PPipe (PCmd args) PBuiltin)) def_rs) with
      (sdo child0 <- quiet (rlift (new_redirects [IRedirects def_rs]));
        let child := borrow child0 in
        sdo (oa, ia) <- launch L pf (PCmd args0) child;
        sdo (ob, ib) <- launch L pf (PPipe (PCmd args) PBuiltin) child;
        match oa, ob with
        | Some ra, Some rb =>
            quiet (rdo m <- rlift (merge ra rb);
                   rdo _ <- lift (close_source_fds def_rs);
                   rret (Some m, ia ++ ib))
        | None, _ =>
            quiet (rdo _ <- lift (close_source_fds def_rs);
                   rret (None, ia ++ ib))
        | _, None => quiet (rraise KeyError)
        end).
    rewrite (sbind_quiet_ok _ _ _ s def_rs) by reflexivity. cbv zeta. unfold sbind at 1. rewrite cmd_same_borrowed.
    destruct (launch L pf (PCmd args0) (top_rs false) s) as [[s2 l] r] eqn:X. destruct (launch_is_run _ _ _ _ _ _ _ _ X) as [R I].
    rewrite H0 in R. injection R as <- <-. rewrite (I _ _ eq_refl). unfold sbind at 1. rewrite left_same_borrowed, E. reflexivity.
  Qed.
  (** A plain command: nothing is begun before everything has been prepared. *)
  Lemma launch_args_words orig ws made s : launch_args L pf orig (map AWord ws) made s = (s, [], Ok (made, [], map Word ws)).
  Proof.
    induction ws as [|w ws IH]; [reflexivity|]. cbn [map]. change (launch_args L pf orig (AWord w :: map AWord ws) made) with
      (sdo (m, its, argv) <- launch_args L pf orig (map AWord ws) made; sret (m, its, Word w :: argv)). unfold sbind. now rewrite IH.
  Qed.
  Lemma single ws rs s s' l e : launch L pf (PCmd (map AWord ws)) rs s = (s', l, Err e) ->
    l = [] \/ e = OSError EBADF /\ exists made t, l = [IProc made t (map Word ws)] /\ snd (close_source_fds made t) = Err e.
  Proof.
    rewrite launch_PCmd. unfold sbind at 1, quiet at 1. destruct (make_pipes L rs s) as [s1 [made|e1]]; [|intros H; left; now injection H].
    unfold sbind at 1, quiet at 1, rlift. destruct (new_redirects [IRedirects made]) as [orig0|e2]; [|intros H; left; now injection H].
    unfold sbind at 1. rewrite launch_args_words. cbn [List.app].
    assert (CL : forall l t t' e, close_source_list l t = (t', Err e) -> e = OSError EBADF).
    { clear. induction l as [|r l IH]; intros t t' e H; cbn in H; [discriminate|]. unfold tbind in H. destruct (close_source_fd r t) as [t1 [u|x]] eqn:E; [eauto|].
      injection H as <- <-. unfold close_source_fd, tret, os_close in E. destruct (r_source r); try discriminate. destruct (r_borrowed r); [discriminate|].
      destruct (tget t n); [discriminate|]. now injection E. }
    unfold sbind, quiet, get_tab, began, lift, sret, quiet, rret. cbn. destruct (close_source_fds made (s_tab s1)) as [t' [u|e3]] eqn:E; intros H; [discriminate|].
    injection H as <- <- <-. right. split; [eapply CL; exact E|]. exists made, (s_tab s1). split; [reflexivity|]. now rewrite E.
  Qed.
End Fails.
Section Default.
  Context (L : limits) (pf : ofd -> bool).
  Lemma make_top_false s : make_pipes L (top_rs false) s =
    let n := lowest (s_tab s) in
    if n <? lim L then (mkSt (tset (s_tab s) n (Some (mkEnt (OTmp (s_nt s)) true))) (s_np s) (S (s_nt s)),
      Ok [(0, mkRedirect 0 (SInt 0) O_RDONLY default_mode None true); (1, mkRedirect 1 (SInt 1) out_flags default_mode None true);
          (2, mkRedirect 2 (SInt n) out_flags default_mode (Some (PString (s_nt s))) false)])
    else (s, Err (OSError EMFILE)).
  Proof.
    unfold make_pipes, top_rs, def_rs. cbn [dvals map snd make_pipe_list]. unfold rbind, make_pipe. cbn [r_source]. unfold rret, mkstemp.
    change (writes (mkRedirect 2 SSTRING out_flags default_mode None false)) with true. cbv iota beta zeta.
    unfold rbind. destruct (lowest (s_tab s) <? lim L); reflexivity.
  Qed.
  Lemma make_top_true s : make_pipes L (top_rs true) s =
    let r := lowest (s_tab s) in
    let t1 := tset (s_tab s) r (Some (mkEnt (OPipeR (s_np s)) true)) in
    let w := lowest t1 in
    let t2 := tset t1 w (Some (mkEnt (OPipeW (s_np s)) true)) in
    let n := lowest t2 in
    if (r <? lim L) && (w <? lim L) then
      if n <? lim L then (mkSt (tset t2 n (Some (mkEnt (OTmp (s_nt s)) true))) (S (s_np s)) (S (s_nt s)),
        Ok [(0, mkRedirect 0 (SInt 0) O_RDONLY default_mode None true); (1, mkRedirect 1 (SInt w) out_flags default_mode (Some (PFd r)) false);
            (2, mkRedirect 2 (SInt n) out_flags default_mode (Some (PString (s_nt s))) false)])
      else (mkSt t2 (S (s_np s)) (s_nt s), Err (OSError EMFILE))
    else (s, Err (OSError EMFILE)).
  Proof.
    unfold make_pipes. change (dvals (top_rs true)) with [mkRedirect 0 (SInt 0) O_RDONLY default_mode None true; mkRedirect 1 SPIPE out_flags default_mode None false; mkRedirect 2 SSTRING out_flags default_mode None false].
    cbn [make_pipe_list]. unfold rbind, make_pipe. cbn [r_source]. unfold rret, os_pipe. cbv zeta.
    change (writes (mkRedirect 2 SSTRING out_flags default_mode None false)) with true.
    change (writes (mkRedirect 1 SPIPE out_flags default_mode None false)) with true. unfold rbind, mkstemp. cbv iota beta.
    destruct ((lowest (s_tab s) <? lim L) && _); [|reflexivity]. cbn [s_tab s_np s_nt]. cbv zeta.
    destruct (lowest _ <? lim L); reflexivity.
  Qed.
  Lemma single_default piped ws s s' l e : launch L pf (PCmd (map AWord ws)) (top_rs piped) s = (s', l, Err e) -> l = [].
  Proof.
    intros H. destruct (single _ _ _ _ _ _ _ _ H) as [->|[_ (made & t & -> & C)]]; [reflexivity|]. exfalso. revert H.
    rewrite launch_PCmd. unfold sbind at 1, quiet at 1. destruct piped.
    - rewrite make_top_true. cbv zeta. destruct (_ && _); [|intros H; discriminate].
      set (t1 := tset (s_tab s) _ _). set (w := lowest t1). set (t2 := tset t1 w _). set (n := lowest t2).
      destruct (n <? lim L); [|intros H; discriminate]. unfold sbind at 1, quiet at 1. match goal with |- context [ rlift (new_redirects [IRedirects ?m]) ?s ] =>
        change (rlift (new_redirects [IRedirects m]) s) with (s, Ok m); set (mm := m) end. cbv iota beta. unfold sbind at 1. rewrite launch_args_words. cbn [List.app].
      unfold sbind, quiet, get_tab, began, lift, sret, quiet, rret. cbn [s_tab].
      assert (E : exists t', close_source_fds mm (tset t2 n (Some (mkEnt (OTmp (s_nt s)) true))) = (t', Ok tt)).
      { unfold close_source_fds, mm. cbn [dvals map snd close_source_list close_source_fd r_source r_borrowed]. unfold tbind, tret, os_close.
        assert (N : n <> w) by (intros E; pose proof (tget_lowest t2) as F; fold n in F; rewrite E in F; unfold t2 in F; rewrite tget_tset, Nat.eqb_refl in F; discriminate).
        rewrite !tget_tset. destruct (Nat.eqb_spec w n); [congruence|]. unfold t2 at 1. rewrite tget_tset, Nat.eqb_refl. cbv iota beta.
        rewrite !tget_tset. destruct (Nat.eqb_spec n w); [congruence|]. rewrite Nat.eqb_refl. eauto. }
      destruct E as (t' & E). rewrite E. cbv iota beta. intros H. discriminate.
    - rewrite make_top_false. cbv zeta. set (n := lowest (s_tab s)).
      destruct (n <? lim L); [|intros H; discriminate]. unfold sbind at 1, quiet at 1. match goal with |- context [ rlift (new_redirects [IRedirects ?m]) ?s ] =>
        change (rlift (new_redirects [IRedirects m]) s) with (s, Ok m); set (mm := m) end. cbv iota beta. unfold sbind at 1. rewrite launch_args_words. cbn [List.app].
      unfold sbind, quiet, get_tab, began, lift, sret, quiet, rret. cbn [s_tab].
      assert (E : exists t', close_source_fds mm (tset (s_tab s) n (Some (mkEnt (OTmp (s_nt s)) true))) = (t', Ok tt)).
      { unfold close_source_fds, mm. cbn [dvals map snd close_source_list close_source_fd r_source r_borrowed]. unfold tbind, tret, os_close.
        rewrite !tget_tset, Nat.eqb_refl. eauto. }
      destruct E as (t' & E). rewrite E. cbv iota beta. intros H. discriminate.
  Qed.
  Lemma unpiped_default_no_leak ws s s' e : start L pf false (PCmd (map AWord ws)) s = (s', Err e) -> s' = s.
  Proof.
    rewrite start_is. destruct (launch L pf (PCmd (map AWord ws)) (top_rs false) s) as [[s1 l] r] eqn:E. destruct (launch_is_run _ _ _ _ _ _ _ _ E) as [R _].
    rewrite R. intros H. injection H as -> ->. pose proof (single_default false _ _ _ _ _ E). subst l. revert E.
    rewrite launch_PCmd. unfold sbind at 1, quiet at 1. rewrite make_top_false. cbv zeta. set (n := lowest (s_tab s)).
    destruct (n <? lim L); [|intros H; now injection H]. unfold sbind at 1, quiet at 1. match goal with |- context [ rlift (new_redirects [IRedirects ?m]) ?s ] =>
        change (rlift (new_redirects [IRedirects m]) s) with (s, Ok m); set (mm := m) end. cbv iota beta. unfold sbind at 1. rewrite launch_args_words. cbn [List.app].
      unfold sbind, quiet, get_tab, began, lift, sret, quiet, rret. cbn [s_tab].
      destruct (close_source_fds mm _) as [t' [u|x]]; intros H; discriminate.
  Qed.
  Lemma piped_leak ws s :
    let r := lowest (s_tab s) in let t1 := tset (s_tab s) r (Some (mkEnt (OPipeR (s_np s)) true)) in let w := lowest t1 in
    let t2 := tset t1 w (Some (mkEnt (OPipeW (s_np s)) true)) in
    r < lim L -> w < lim L -> lim L <= lowest t2 ->
    exists s', start L pf true (PCmd (map AWord ws)) s = (s', Err (OSError EMFILE)) /\
      tget (s_tab s) r = None /\ refers (s_tab s') r = Some (OPipeR (s_np s)) /\ tget (s_tab s) w = None /\ refers (s_tab s') w = Some (OPipeW (s_np s)).
  Proof.
    intros r t1 w t2 R W N. rewrite start_is, run_PCmd. unfold rbind at 1. rewrite make_top_true. cbv zeta. fold r. fold t1. fold w. fold t2.
    apply Nat.ltb_lt in R, W. rewrite R, W. cbn [andb]. apply Nat.ltb_ge in N. rewrite N. eexists. split; [reflexivity|]. cbn [s_tab].
    assert (WR : w <> r). { intros E. pose proof (tget_lowest t1) as F. fold w in F. rewrite E in F. unfold t1 in F. rewrite tget_tset, Nat.eqb_refl in F. discriminate. }
    split; [apply tget_lowest|]. unfold refers, t2. rewrite !tget_tset, Nat.eqb_refl. destruct (Nat.eqb_spec r w); [congruence|]. unfold t1 at 1.
    rewrite tget_tset, Nat.eqb_refl. split; [reflexivity|]. split; [|reflexivity].
    pose proof (tget_lowest t1) as F. fold w in F. unfold t1 in F. rewrite tget_tset in F. destruct (Nat.eqb_spec w r); [congruence|exact F].
  Qed.
End Default.
Lemma launch_top_is L pf piped p s : launch_top L pf piped p s = launch L pf p (top_rs piped) s.
Proof. unfold launch_top. rewrite (sbind_quiet_ok _ _ s s def_rs) by reflexivity. rewrite (sbind_quiet_ok _ _ s s (top_rs piped)) by (destruct piped; reflexivity). reflexivity. Qed.
