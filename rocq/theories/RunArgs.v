(** Proofs about starting pipelines, part 6: the argument pipelines of a
    command. *)
From Verif Require Import Py RedirModel RedirSpec RedirProofs Os PerformModel PerformSpec
  PerformProofs RunModel RunSpec RunTopSpec RunProofs RunPre RunMake RunMake2 RunMain.
From Coq Require Import Permutation.
#[local] Arguments hp : simpl never.
#[local] Arguments rbind : simpl never.
#[local] Arguments rret : simpl never.

Lemma with_stdout_pipe rs : wf_redirects rs -> with_redirect rs "stdout" SPIPE = Ok (dset rs 1 pipe_out).
Proof. intros H. unfold with_redirect. rewrite copy_redirects by exact H. reflexivity. Qed.
Lemma with_stdin_pipe rs : wf_redirects rs -> with_redirect rs "stdin" SPIPE = Ok (dset rs 0 pipe_in).
Proof. intros H. unfold with_redirect. rewrite copy_redirects by exact H. reflexivity. Qed.
Lemma with_stdin_fd rs x : wf_redirects rs -> with_redirect rs "stdin" (SInt x) = Ok (dset rs 0 (fed x)).
Proof. intros H. unfold with_redirect. rewrite copy_redirects by exact H. reflexivity. Qed.

Lemma nbs_dset rs r : wf_redirects rs -> nbs (dvals rs) = [] ->
  (forall n, r_source r = SInt n -> r_borrowed r = true) -> nbs (dvals (dset rs (r_fd r) r)) = [].
Proof.
  intros Hw Hn Hr. destruct (nbs (dvals (dset rs (r_fd r) r))) as [|n l] eqn:E; [reflexivity|]. exfalso.
  assert (X : In n (nbs (dvals (dset rs (r_fd r) r)))) by (rewrite E; now left).
  apply in_nbs in X as [x [Hx [Hs Hb]]]. apply dset_values in Hx as [->|Hx].
  - rewrite (Hr n Hs) in Hb. discriminate.
  - assert (Y : In n (nbs (dvals rs))) by (apply in_nbs; eauto). rewrite Hn in Y. destruct Y.
Qed.
Lemma dvals_app {K V} (a b : dict K V) : dvals (a ++ b) = dvals a ++ dvals b.
Proof. apply map_app. Qed.
Lemma dkeys_app {K V} (a b : dict K V) : dkeys (a ++ b) = dkeys a ++ dkeys b.
Proof. apply map_app. Qed.
Lemma source_ints_app a b : source_ints (a ++ b) = source_ints a ++ source_ints b.
Proof. unfold source_ints. rewrite dvals_app. apply flat_map_app. Qed.

Definition arg_redirect (fd x : nat) (flag : N) : redirect :=
  mkRedirect fd (SInt x) flag default_mode None false.
Lemma add_arg_redirect_ok made x flag : wf_redirects made ->
  add_arg_redirect made (SInt x) flag =
    Ok (made ++ [(find_free_fd made, arg_redirect (find_free_fd made) x flag)], find_free_fd made) /\
  2 < find_free_fd made /\ ~ In (find_free_fd made) (dkeys made).
Proof.
  intros Hw. destruct (find_free_fd_above made) as [A [B C]].
  assert (Hk : ~ In (find_free_fd made) (dkeys made)).
  { intros X. apply in_map_iff in X as [[k r] [E Hin]]. cbn in E. subst k.
    destruct Hw as [_ Hall]. rewrite Forall_forall in Hall. destruct (Hall _ Hin) as [E _]. cbn in E.
    specialize (B _ _ Hin). lia. }
  split; [|split; [exact A|exact Hk]]. unfold add_arg_redirect, redirect_op, new_redirect. cbn.
  rewrite register_ok by discriminate. cbn. rewrite dset_fresh; [reflexivity|]. now apply dget_None.
Qed.

(** [run_args] and [wire_args] as stand-alone functions. *)
Section Args.
  Variable L : limits.
  Variable pollable_file : ofd -> bool.
  Notation run := (run L pollable_file).

  Definition run_args (orig : redirects) :=
    (fix run_args (l : list arg) (made : redirects) : RM (redirects * list item * list aword) :=
       match l with
       | [] => rret (made, [], [])
       | AWord w :: l' =>
           rdo (m, its, argv) <- run_args l' made;
           rret (m, its, Word w :: argv)
       | APipeline q :: l' =>
           rdo sub <- rlift (with_redirect orig "stdout" SPIPE);
           rdo (o, its1) <- run q sub;
           rdo src <- rlift (pipe_of o "stdout");
           rdo (made1, fd) <- rlift (add_arg_redirect made src O_RDONLY);
           rdo (m, its2, argv) <- run_args l' made1;
           rret (m, its1 ++ its2, DevFd fd :: argv)
       | AIterator :: l' =>
           rdo sub <- rlift (with_redirect orig "stdout" SPIPE);
           rdo (r, its1) <- run_function L pollable_file false sub;
           rdo src <- rlift (pipe_of (Some r) "stdout");
           rdo (made1, fd) <- rlift (add_arg_redirect made src O_RDONLY);
           rdo (m, its2, argv) <- run_args l' made1;
           rret (m, its1 ++ its2, DevFd fd :: argv)
       | AFunction :: l' =>
           rdo sub <- rlift (with_redirect orig "stdin" SPIPE);
           rdo (r, its1) <- run_function L pollable_file true sub;
           rdo src <- rlift (pipe_of (Some r) "stdin");
           rdo (made1, fd) <- rlift (add_arg_redirect made src O_WRONLY);
           rdo (m, its2, argv) <- run_args l' made1;
           rret (m, its1 ++ its2, DevFd fd :: argv)
       end).
  Definition wire_args (m : wenv) :=
    (fix wire_args (l : list arg) (np nt : nat) : list leaf * list warg * nat * nat :=
       match l with
       | [] => ([], [], np, nt)
       | AWord w :: l' =>
           let '(ls, ws, np', nt') := wire_args l' np nt in (ls, WWord w :: ws, np', nt')
       | APipeline q :: l' =>
           let wq := wire q (ask_stdout m) np nt in
           let '(ls, ws, np', nt') := wire_args l' (w_np wq) (w_nt wq) in
           (w_leaves wq ++ ls,
            match w_out wq with Some k => WArg (OPipeR k) | None => WWord "" end :: ws, np', nt')
       | AIterator :: l' =>
           let wq := wire_function false (ask_stdout m) np nt in
           let '(ls, ws, np', nt') := wire_args l' (w_np wq) (w_nt wq) in
           (w_leaves wq ++ ls,
            match w_out wq with Some k => WArg (OPipeR k) | None => WWord "" end :: ws, np', nt')
       | AFunction :: l' =>
           let wq := wire_function true (ask_stdin m) np nt in
           let '(ls, ws, np', nt') := wire_args l' (w_np wq) (w_nt wq) in
           (w_leaves wq ++ ls,
            match w_in wq with Some k => WArg (OPipeW k) | None => WWord "" end :: ws, np', nt')
       end).
  Definition clean_args :=
    (fix clean_args (l : list arg) : Prop :=
       match l with
       | [] => True
       | APipeline q :: l' => clean (can_open L) INone true q /\ clean_args l'
       | _ :: l' => clean_args l'
       end).

  Definition ent_ok (t : tab) (kr : nat * redirect) (o : ofd) : Prop :=
    exists n, r_source (snd kr) = SInt n /\ r_borrowed (snd kr) = false /\ 2 < fst kr /\ 2 < n /\
      tget t n = Some (mkEnt o true).

  Definition ArgsPost (made : redirects) (W : list leaf * list warg * nat * nat) (s s' : st)
      (x : redirects * list item * list aword) : Prop :=
    let '(ls, ws, np', nt') := W in
    let '(made', its, argv) := x in
    exists ents, made' = made ++ ents /\ wf_redirects made' /\ NoDup (source_ints made') /\
      s_np s' = np' /\ s_nt s' = nt' /\
      Forall2 (item_ok L (s_tab s')) ls its /\
      ext (s_tab s) (s_tab s') (source_ints ents ++ items_fds its) /\
      dkeys ents = arg_fds argv /\ Forall2 arg_ok ws argv /\
      Forall2 (ent_ok (s_tab s')) ents (arg_ofds ws).

  (** One argument pipe, given what running it did, and the rest. *)
  Lemma arg_step made flag s s1 its1 ls1 x o (k : redirects -> RM (redirects * list item * list aword))
      (W : list leaf * list warg * nat * nat) :
    wf_redirects made -> NoDup (source_ints made) ->
    (forall n, In n (source_ints made) -> tget (s_tab s) n <> None) ->
    (forall n, n <= 2 -> tget (s_tab s) n <> None) ->
    ext (s_tab s) (s_tab s1) (x :: items_fds its1) ->
    tget (s_tab s1) x = Some (mkEnt o true) ->
    Forall2 (item_ok L (s_tab s1)) ls1 its1 ->
    (forall made1, wf_redirects made1 -> NoDup (source_ints made1) ->
       (forall n, In n (source_ints made1) -> tget (s_tab s1) n <> None) ->
       hp (k made1) s1 (ArgsPost made1 W s1)) ->
    hp (rdo (made1, fd) <- rlift (add_arg_redirect made (SInt x) flag);
        rdo (m, its2, argv) <- k made1;
        rret (m, its1 ++ its2, DevFd fd :: argv)) s1
       (ArgsPost made (let '(ls, ws, np', nt') := W in (ls1 ++ ls, WArg o :: ws, np', nt')) s).
  Proof.
    intros Hw Hn Ho H2 He Hx Hi Hk.
    destruct (add_arg_redirect_ok made x flag Hw) as [Ha [Hf2 Hfk]].
    set (fd := find_free_fd made) in *. set (r := arg_redirect fd x flag) in *.
    apply hp_bind. eapply hp_rlift; [exact Ha|]. cbv beta iota.
    assert (Hx0 : tget (s_tab s) x = None) by (apply (proj1 (proj2 He)); now left).
    assert (Hxs : ~ In x (source_ints made)) by (intros X; apply Ho in X; congruence).
    assert (Hx2 : 2 < x) by (destruct (le_lt_dec x 2) as [Z|Z]; [exfalso; now apply (H2 x Z)|exact Z]).
    assert (Hsi : source_ints (made ++ [(fd, r)]) = source_ints made ++ [x]) by now rewrite source_ints_app.
    apply hp_bind. eapply hp_mono; [apply Hk|].
    - destruct Hw as [A B]. split.
      + rewrite dkeys_app. apply NoDup_app_intro; auto; [repeat constructor; intros []|].
        intros z Hz [<-|[]]. contradiction.
      + apply Forall_app. split; [exact B|]. constructor; [|constructor]. split; [reflexivity|discriminate].
    - rewrite Hsi. apply NoDup_app_intro; auto; [repeat constructor; intros []|].
      intros z Hz [<-|[]]. contradiction.
    - rewrite Hsi. intros n Hin. apply in_app_iff in Hin as [Hin|[<-|[]]]; [|congruence].
      rewrite (ext_keep _ _ _ n He); auto.
    - intros s2 [[m its2] argv]. destruct W as [[[ls ws] np'] nt']. unfold ArgsPost.
      intros [ents [Em [Hwm [Hnm [Hnp [Hnt [Hit [Hex [Hdk [Haok Hent]]]]]]]]]].
      apply hp_ret. exists ((fd, r) :: ents). cbn [arg_ofds flat_map].
      split; [now rewrite Em, <- app_assoc|]. split; [exact Hwm|]. split; [exact Hnm|].
      split; [exact Hnp|]. split; [exact Hnt|]. split.
      { apply Forall2_app; [|exact Hit]. eapply items_ok_keep; [|exact Hi].
        intros n _ Hop. now apply (ext_keep _ _ _ n Hex). }
      split.
      { eapply ext_perm; [|eapply ext_trans; [exact He|exact Hex]].
        rewrite source_ints_cons. cbn. unfold items_fds. rewrite flat_map_app. fold (items_fds its1) (items_fds its2).
        constructor. rewrite !app_assoc. apply Permutation_app_tail. apply Permutation_app_comm. }
      split; [cbn; f_equal; exact Hdk|]. split; [constructor; [exact I|exact Haok]|].
      constructor; [|exact Hent]. exists x. cbn. split; [reflexivity|]. split; [reflexivity|].
      split; [exact Hf2|]. split; [exact Hx2|]. rewrite (ext_keep _ _ _ x Hex); [exact Hx|congruence].
  Qed.

  Lemma ret_fds_out t win wout rs : ret_ok INone true t win wout rs ->
    exists k r x, wout = Some k /\ dget rs 1 = Some r /\ r_pipe r = Some (PFd x) /\
      tget t x = Some (mkEnt (OPipeR k) true) /\ ret_fds INone true rs = [x].
  Proof.
    intros [_ [k [E [r [x [A [B C]]]]]]]. exists k, r, x. repeat split; auto.
    unfold ret_fds, reqs. cbn. unfold pipefd. now rewrite A, B.
  Qed.
  Lemma ret_fds_in t win wout rs : ret_ok IReq false t win wout rs ->
    exists k r x, win = Some k /\ dget rs 0 = Some r /\ r_pipe r = Some (PFd x) /\
      tget t x = Some (mkEnt (OPipeW k) true) /\ ret_fds IReq false rs = [x].
  Proof.
    intros [[k [E [r [x [A [B C]]]]]] _]. exists k, r, x. repeat split; auto.
    unfold ret_fds, reqs. cbn. unfold pipefd. now rewrite A, B.
  Qed.
  Lemma pipe_of_std rs (name : string) k r x :
    dget fd_names name = Some k -> dget rs k = Some r -> r_pipe r = Some (PFd x) ->
    pipe_of (Some rs) name = Ok (SInt x).
  Proof. intros A B C. unfold pipe_of, get_std. rewrite A, B. cbn. now rewrite C. Qed.

  Definition run_spec (q : pl) : Prop := forall i o s rs e,
    Pre L i o (s_tab s) rs e -> clean (can_open L) i o q ->
    hp (run q rs) s (Post L i o rs (wire q e (s_np s) (s_nt s)) s).

  Lemma run_args_hp orig m l :
    Forall (fun a => match a with APipeline q => run_spec q | _ => True end) l -> clean_args l ->
    nbs (dvals orig) = [] ->
    forall s made, Pre L INone false (s_tab s) orig m ->
      wf_redirects made -> NoDup (source_ints made) ->
      (forall n, In n (source_ints made) -> tget (s_tab s) n <> None) ->
      hp (run_args orig l made) s (ArgsPost made (wire_args m l (s_np s) (s_nt s)) s).
  Proof.
    intros HF Hc Hno. induction HF as [|a l Ha HF IH]; intros s made HP Hw Hn Ho.
    { cbn. apply hp_ret. exists []. rewrite app_nil_r. cbn. sp; auto using ext_refl; constructor. }
    pose proof (pre_wf _ _ _ _ _ _ HP) as Hwo. pose proof (pre_std _ _ _ _ _ _ HP) as Hstd.
    destruct a as [w|q| |].
    - cbn [run_args wire_args]. fold (run_args orig) (wire_args m).
      apply hp_bind. eapply hp_mono; [apply (IH Hc s made HP Hw Hn Ho)|].
      intros s1 [[mm its] argv]. destruct (wire_args m l (s_np s) (s_nt s)) as [[[ls ws] np'] nt'].
      unfold ArgsPost. intros [ents H]. apply hp_ret. exists ents. sp; auto; try tauto.
      constructor; [reflexivity|tauto].
    - cbn [run_args wire_args]. fold (run_args orig) (wire_args m). destruct Hc as [Hq Hc].
      apply hp_bind. eapply hp_rlift; [now apply with_stdout_pipe|]. cbv beta.
      apply hp_bind. eapply hp_mono; [apply (Ha INone true s _ _ (Pre_ask1 L _ _ _ _ _ HP) Hq)|].
      intros s1 [oo its1] [rs' [E1 [Hw' [_ [_ [Hnp [Hnt [Hit [Hret Hpt]]]]]]]]]. cbn [fst snd] in *. subst oo.
      destruct (ret_fds_out _ _ _ _ Hret) as [k [r [x [Ek [Er [Ep [Et Ef]]]]]]].
      apply hp_bind. eapply hp_rlift; [eapply pipe_of_std; [reflexivity|exact Er|exact Ep]|]. cbv beta.
      rewrite Ef in Hpt.
      assert (Hnn : nbs (dvals (dset orig 1 pipe_out)) = []) by (apply (nbs_dset orig pipe_out Hwo Hno); discriminate).
      rewrite Hnn in Hpt.
      apply postt_ext in Hpt; [|intros n []]. cbn [app] in Hpt.
      rewrite Ek, <- Hnp, <- Hnt.
      apply (arg_step made O_RDONLY s s1 its1 (w_leaves (wire q (ask_stdout m) (s_np s) (s_nt s))) x (OPipeR k)
               (run_args orig l) (wire_args m l (s_np s1) (s_nt s1))); auto.
      intros made1 A B C. apply IH; auto. eapply Pre_frame; [exact HP|]. intros n Hop. now apply (ext_keep _ _ _ n Hpt).
    - cbn [run_args wire_args]. fold (run_args orig) (wire_args m).
      apply hp_bind. eapply hp_rlift; [now apply with_stdin_pipe|]. cbv beta.
      apply hp_bind. eapply hp_mono; [apply (run_function_hp L pollable_file _ _ true s _ _ (Pre_ask0 L _ _ _ _ _ HP))|].
      intros s1 [rr its1] [rs' [E1 [Hw' [_ [_ [Hnp [Hnt [Hit [Hret Hpt]]]]]]]]]. cbn [fst snd] in *.
      injection E1 as ->.
      destruct (ret_fds_in _ _ _ _ Hret) as [k [r [x [Ek [Er [Ep [Et Ef]]]]]]].
      apply hp_bind. eapply hp_rlift; [eapply pipe_of_std; [reflexivity|exact Er|exact Ep]|]. cbv beta.
      rewrite Ef in Hpt.
      assert (Hnn : nbs (dvals (dset orig 0 pipe_in)) = []) by (apply (nbs_dset orig pipe_in Hwo Hno); discriminate).
      rewrite Hnn in Hpt.
      apply postt_ext in Hpt; [|intros n []]. cbn [app] in Hpt.
      rewrite Ek, <- Hnp, <- Hnt.
      apply (arg_step made O_WRONLY s s1 its1 (w_leaves (wire_function true (ask_stdin m) (s_np s) (s_nt s))) x (OPipeW k)
               (run_args orig l) (wire_args m l (s_np s1) (s_nt s1))); auto.
      intros made1 A B C. apply IH; auto. eapply Pre_frame; [exact HP|]. intros n Hop. now apply (ext_keep _ _ _ n Hpt).
    - cbn [run_args wire_args]. fold (run_args orig) (wire_args m).
      apply hp_bind. eapply hp_rlift; [now apply with_stdout_pipe|]. cbv beta.
      apply hp_bind. eapply hp_mono; [apply (run_function_hp L pollable_file _ _ false s _ _ (Pre_ask1 L _ _ _ _ _ HP))|].
      intros s1 [rr its1] [rs' [E1 [Hw' [_ [_ [Hnp [Hnt [Hit [Hret Hpt]]]]]]]]]. cbn [fst snd] in *.
      injection E1 as ->.
      destruct (ret_fds_out _ _ _ _ Hret) as [k [r [x [Ek [Er [Ep [Et Ef]]]]]]].
      apply hp_bind. eapply hp_rlift; [eapply pipe_of_std; [reflexivity|exact Er|exact Ep]|]. cbv beta.
      rewrite Ef in Hpt.
      assert (Hnn : nbs (dvals (dset orig 1 pipe_out)) = []) by (apply (nbs_dset orig pipe_out Hwo Hno); discriminate).
      rewrite Hnn in Hpt.
      apply postt_ext in Hpt; [|intros n []]. cbn [app] in Hpt.
      rewrite Ek, <- Hnp, <- Hnt.
      apply (arg_step made O_RDONLY s s1 its1 (w_leaves (wire_function false (ask_stdout m) (s_np s) (s_nt s))) x (OPipeR k)
               (run_args orig l) (wire_args m l (s_np s1) (s_nt s1))); auto.
      intros made1 A B C. apply IH; auto. eapply Pre_frame; [exact HP|]. intros n Hop. now apply (ext_keep _ _ _ n Hpt).
  Qed.
End Args.
