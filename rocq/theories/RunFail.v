(** Starting pipelines: what goes wrong outside [clean], for every pipeline of
    the given shape. *)
From Verif Require Import Py RedirModel RedirSpec RedirProofs Os PerformModel PerformSpec
  PerformProofs PerformSound RunModel RunSpec RunTopSpec RunProofs RunPre RunMake RunMake2 RunMain
  RunArgs RunTop RunFinal RunMore.
From Coq Require Import Permutation.
#[local] Arguments hp : simpl never.
#[local] Arguments rbind : simpl never.
#[local] Arguments rret : simpl never.

Lemma dset_dset {V} (d : dict nat V) k a b : dset (dset d k a) k b = dset d k b.
Proof.
  induction d as [|[k0 v0] d IH]; cbn.
  - now rewrite Nat.eqb_refl.
  - destruct (Nat.eqb_spec k k0) as [->|H]; cbn.
    + now rewrite Nat.eqb_refl.
    + destruct (Nat.eqb_spec k k0); [congruence|]. now rewrite IH.
Qed.

Section Fail.
  Variable L : limits.
  Variable pf : ofd -> bool.

  Definition stdin_file (f : path) (fl : N) : redirects :=
    [(0, mkRedirect 0 (SPath f) fl default_mode None false)].


  (** Piping into a command whose stdin is redirected to a file: the read end
      of the pipe stays open in the shell. *)
  Lemma pipe_into_redirected_hp o a b f fl s rs e :
    Pre L INone o (s_tab s) rs e -> nbs (dvals rs) = [] ->
    clean (can_open L) INone true a -> clean (can_open L) INone o b -> can_open L f fl = true ->
    hp (run L pf (PPipe a (PRedir b (stdin_file f fl))) rs) s (fun s' x =>
      exists n k rs' rb, fst x = Some rs' /\ tget (s_tab s) n = None /\ refers (s_tab s') n = Some (OPipeR k) /\
        pipefd rs' 1 = pipefd rb 1 /\
        ~ In n (ret_fds INone o rb ++ items_fds (snd x))).
  Proof.
    intros HP Hnb Ca Cb Hcan. cbn [run]. apply hp_bind.
    pose proof (pre_wf _ _ _ _ _ _ HP) as Hwr.
    eapply hp_rlift; [apply copy_redirects; apply HP|]. cbv beta zeta.
    pose proof (Pre_borrow L INone o _ _ _ HP) as HPb. cbn [unpiped] in HPb. pose proof (pre_wf _ _ _ _ _ _ HPb) as Hwb.
    apply hp_bind. eapply hp_rlift; [now apply with_stdout_pipe|]. cbv beta.
    apply hp_bind.
    eapply hp_mono; [apply (run_hp L pf a INone true s _ _ (Pre_ask1 L _ _ _ _ _ HPb) Ca)|].
    intros s1 [oa ia] [ra [E1 [Wa [A0 [A1 [Hnp [Hnt [Hit [Hret Hpt]]]]]]]]]. cbn [fst snd] in *. subst oa.
    assert (Hnn : nbs (dvals (dset (borrow rs) 1 pipe_out)) = []).
    { apply (nbs_dset (borrow rs) pipe_out Hwb (borrow_nbs rs)). discriminate. }
    rewrite Hnn in Hpt. apply postt_ext in Hpt; [|intros n []].
    destruct (ret_fds_out _ _ _ _ Hret) as [k [r1 [x [Ek [Er [Ep [Et Ef]]]]]]]. rewrite Ef in Hpt. cbn [app] in Hpt.
    assert (HPb1 : Pre L INone o (s_tab s1) (borrow rs) e).
    { eapply Pre_frame; [exact HPb|]. intros n Hn. now apply (ext_keep _ _ _ n Hpt). }
    apply hp_bind. eapply hp_rlift; [eapply pipe_of_std; [reflexivity|exact Er|exact Ep]|]. cbv beta.
    apply hp_bind. eapply hp_rlift; [now apply with_stdin_fd|]. cbv beta.
    apply hp_bind. apply hp_bind.
    assert (Wf : wf_redirects (stdin_file f fl)).
    { split; [repeat constructor; intros []|]. repeat constructor; discriminate. }
    assert (Wfed : wf_redirects (dset (borrow rs) 0 (fed x))) by (apply (wf_dset (borrow rs) (fed x) Hwb); discriminate).
    eapply hp_rlift; [apply merge_fold; [exact Wfed|exact Wf]|]. cbv beta.
    cbn [stdin_file dvals map fold_left snd r_fd]. rewrite dset_dset.
    set (r := mkRedirect 0 (SPath f) fl default_mode None false).
    assert (HPr : Pre L INone o (s_tab s1) (dset (borrow rs) 0 r) (dset e 0 (wish r))).
    { apply (Pre_override L INone o (s_tab s1) (borrow rs) e (stdin_file f fl) HPb1); [repeat constructor|].
      constructor; [|constructor]. split; [reflexivity|]. split; [discriminate|]. cbn. split; [lia|exact Hcan]. }
    eapply hp_mono; [apply (run_hp L pf b INone o s1 _ _ HPr Cb)|].
    intros s2 [ob ib] [rb [E2 [Wb [B0 [B1 [Hnp2 [Hnt2 [Hit2 [Hret2 Hpt2]]]]]]]]]. cbn [fst snd] in *. subst ob.
    assert (Hnn2 : nbs (dvals (dset (borrow rs) 0 r)) = []).
    { apply (nbs_dset (borrow rs) r Hwb (borrow_nbs rs)). discriminate. }
    rewrite Hnn2 in Hpt2. apply postt_ext in Hpt2; [|intros n []].
    apply hp_bind. destruct (merge_total ra rb Wa Wb) as [m Em]. eapply hp_rlift; [exact Em|]. cbv beta.
    destruct (dget ra 0) as [i0|] eqn:Ei0; [|congruence]. destruct (dget rb 1) as [o1|] eqn:Eo1; [|congruence].
    apply hp_bind. eapply std_hp; [reflexivity|exact Ei0|].
    assert (Fi : r_fd i0 = 0 /\ r_source i0 <> SNone).
    { destruct Wa as [_ Hall]. rewrite Forall_forall in Hall. exact (Hall _ (dget_In _ _ _ Ei0)). }
    assert (Fo : r_fd o1 = 1 /\ r_source o1 <> SNone).
    { destruct Wb as [_ Hall]. rewrite Forall_forall in Hall. exact (Hall _ (dget_In _ _ _ Eo1)). }
    apply hp_bind. eapply hp_rlift; [apply register_ok; apply Fi|]. cbv beta.
    apply hp_bind. eapply std_hp; [reflexivity|exact Eo1|].
    apply hp_bind. eapply hp_rlift; [apply register_ok; apply Fo|]. cbv beta.
    rewrite (proj1 Fi), (proj1 Fo).
    apply hp_bind. eapply hp_mono; [apply close_hp; [apply HP|rewrite Hnb; intros n []]|].
    cbn beta. intros s3 _ [R [Hp3 Ht3]]. apply hp_ret.
    exists x, k. eexists. exists rb. cbn [fst snd]. split; [reflexivity|].
    assert (Hx0 : tget (s_tab s) x = None) by (apply (proj1 (proj2 Hpt)); now left).
    assert (Hx2 : tget (s_tab s2) x = tget (s_tab s1) x) by (apply (ext_keep _ _ _ x Hpt2); congruence).
    split; [exact Hx0|]. split; [|split].
    - unfold refers. rewrite R, Hnb. cbn. now rewrite Hx2, Et.
    - unfold pipefd. rewrite !dget_dset. cbn. now rewrite Eo1.
    - intros X. rewrite in_app_iff in X.
      assert (Y : In x (items_fds ia) \/ In x (ret_fds INone o rb ++ items_fds ib)).
      { unfold items_fds in *. rewrite flat_map_app, in_app_iff in X. rewrite in_app_iff. tauto. }
      destruct Y as [Y|Y].
      + destruct Hpt as [ND _]. inversion ND; subst; contradiction.
      + apply (proj1 (proj2 Hpt2)) in Y. destruct Y as [Y _]. congruence.
  Qed.

  Theorem pipe_into_redirected piped a b f fl s o0 o1 :
    refers (s_tab s) 0 = Some o0 -> refers (s_tab s) 1 = Some o1 -> tget (s_tab s) 2 <> None ->
    clean (can_open L) INone true a -> clean (can_open L) INone piped b -> can_open L f fl = true ->
    match start L pf piped (PPipe a (PRedir b (stdin_file f fl))) s with
    | (_, Err e) => errs e
    | (s', Ok (ret, its)) => exists n k, tget (s_tab s) n = None /\
        refers (s_tab s') n = Some (OPipeR k) /\
        ~ In n ((if piped then caller_fds ret else []) ++ function_fds its)
    end.
  Proof.
    intros H0 H1 H2 Ca Cb Hcan. rewrite start_is.
    pose proof (pipe_into_redirected_hp piped a b f fl s (top_rs piped) _
      (Pre_top L pf _ _ _ piped H0 H1 H2) (nbs_top piped) Ca Cb Hcan) as H. unfold hp in H.
    destruct (run L pf (PPipe a (PRedir b (stdin_file f fl))) (top_rs piped) s) as [s' [[ret its]|e]]; [|exact H].
    destruct H as [n [k [rs' [rb [E [A [B [C D]]]]]]]]. cbn [fst snd] in *. subst ret.
    exists n, k. split; [exact A|]. split; [exact B|]. intros X. apply D. apply in_app_iff in X as [X|X]; apply in_app_iff; [left|right; exact X].
    destruct piped; [|destruct X]. change (caller_fds (Some rs')) with (pipefd rs' 1) in X. rewrite C in X.
    unfold ret_fds, reqs. cbn. now rewrite app_nil_r.
  Qed.

  (** The output of a group is not collected: each member gets a pipe of its
      own, the reader is connected to the second one, and the first one's read
      end stays open, unread, in the shell. *)
  Lemma group_piped_hp o a b c s rs e :
    Pre L INone o (s_tab s) rs e -> nbs (dvals rs) = [] ->
    clean (can_open L) INone true a -> clean (can_open L) INone true b -> clean (can_open L) IPiped o c ->
    hp (run L pf (PPipe (PGroup a b) c) rs) s (fun s' x =>
      exists wa wb wc k1 k2 n ia ib ic rs' rc, x = (Some rs', (ia ++ ib) ++ ic) /\
        wa = wire a (ask_stdout e) (s_np s) (s_nt s) /\
        wb = wire b (ask_stdout e) (w_np wa) (w_nt wa) /\
        wc = wire c (feed_stdin e k2) (w_np wb) (w_nt wb) /\
        w_out wa = Some k1 /\ w_out wb = Some k2 /\
        Forall2 (item_ok L (s_tab s')) (w_leaves wa) ia /\
        Forall2 (item_ok L (s_tab s')) (w_leaves wb) ib /\
        Forall2 (item_ok L (s_tab s')) (w_leaves wc) ic /\
        tget (s_tab s) n = None /\ refers (s_tab s') n = Some (OPipeR k1) /\
        pipefd rs' 1 = pipefd rc 1 /\
        ~ In n (ret_fds IPiped o rc ++ items_fds ((ia ++ ib) ++ ic))).
  Proof.
    intros HP Hnb Ca Cb Cc. cbn [run]. apply hp_bind.
    pose proof (pre_wf _ _ _ _ _ _ HP) as Hwr.
    eapply hp_rlift; [apply copy_redirects; apply HP|]. cbv beta zeta.
    pose proof (Pre_borrow L INone o _ _ _ HP) as HPb. cbn [unpiped] in HPb. pose proof (pre_wf _ _ _ _ _ _ HPb) as Hwb.
    apply hp_bind. eapply hp_rlift; [now apply with_stdout_pipe|]. cbv beta.
    pose proof (Pre_ask1 L _ _ _ _ _ HPb) as HPg. pose proof (pre_wf _ _ _ _ _ _ HPg) as Hwg.
    assert (Hnn : nbs (dvals (dset (borrow rs) 1 pipe_out)) = []).
    { apply (nbs_dset (borrow rs) pipe_out Hwb (borrow_nbs rs)). discriminate. }
    apply hp_bind. apply hp_bind. eapply hp_rlift; [apply copy_redirects; exact Hwg|]. cbv beta.
    pose proof (Pre_borrow L INone true _ _ _ HPg) as HPc. cbn [unpiped] in HPc.
    apply hp_bind. eapply hp_mono; [apply (run_hp L pf a INone true s _ _ HPc Ca)|].
    intros s1 [oa ia] [ra [E1 [Wa [A0 [A1 [Hnp [Hnt [Hit [Hret Hpt]]]]]]]]]. cbn [fst snd] in *. subst oa.
    set (wa := wire a (ask_stdout e) (s_np s) (s_nt s)) in *.
    rewrite borrow_nbs in Hpt. apply postt_ext in Hpt; [|intros n []].
    destruct (ret_fds_out _ _ _ _ Hret) as [k1 [r1 [x1 [Ek1 [Er1 [Ep1 [Et1 Ef1]]]]]]]. rewrite Ef1 in Hpt. cbn [app] in Hpt.
    assert (HPc1 : Pre L INone true (s_tab s1) (borrow (dset (borrow rs) 1 pipe_out)) (ask_stdout e)).
    { eapply Pre_frame; [exact HPc|]. intros n Hn. now apply (ext_keep _ _ _ n Hpt). }
    apply hp_bind. eapply hp_mono; [apply (run_hp L pf b INone true s1 _ _ HPc1 Cb)|].
    intros s2 [ob ib] [rb [E2 [Wb [B0 [B1 [Hnp2 [Hnt2 [Hit2 [Hret2 Hpt2]]]]]]]]]. cbn [fst snd] in *. subst ob.
    rewrite Hnp, Hnt in Hnp2, Hnt2, Hit2, Hret2. set (wb := wire b (ask_stdout e) (w_np wa) (w_nt wa)) in *.
    rewrite borrow_nbs in Hpt2. apply postt_ext in Hpt2; [|intros n []].
    destruct (ret_fds_out _ _ _ _ Hret2) as [k2 [r2 [x2 [Ek2 [Er2 [Ep2 [Et2 Ef2]]]]]]]. rewrite Ef2 in Hpt2. cbn [app] in Hpt2.
    apply hp_bind. destruct (merge_total ra rb Wa Wb) as [m Em]. eapply hp_rlift; [exact Em|]. cbv beta.
    assert (Wm : wf_redirects m) by (eapply wf_new; exact Em).
    assert (Hm : forall j, dget rb j <> None -> dget m j = dget rb j).
    { intros j Hj. rewrite (merge_in_force ra rb m j Wa Wb Em). unfold force_set. destruct (dget rb j); [reflexivity|congruence]. }
    apply hp_bind. eapply hp_mono; [apply close_hp; [apply HPg|rewrite Hnn; intros n []]|].
    cbn beta. intros s3 _ [R [Hp3 Ht3]]. apply hp_ret.
    assert (S3 : forall n, tget (s_tab s3) n = tget (s_tab s2) n) by (intros n; rewrite R, Hnn; reflexivity).
    apply hp_bind. eapply hp_rlift; [eapply pipe_of_std; [reflexivity|rewrite Hm by congruence; exact Er2|exact Ep2]|]. cbv beta.
    apply hp_bind. eapply hp_rlift; [now apply with_stdin_fd|]. cbv beta.
    pose proof (ext_trans _ _ _ _ _ Hpt Hpt2) as E02.
    assert (HPb3 : Pre L INone o (s_tab s3) (borrow rs) e).
    { eapply Pre_frame; [exact HPb|]. intros n Hn. rewrite S3. now apply (ext_keep _ _ _ n E02). }
    assert (Hx20 : tget (s_tab s1) x2 = None) by (apply (proj1 (proj2 Hpt2)); now left).
    assert (Hx2s : tget (s_tab s) x2 = None).
    { destruct (tget (s_tab s) x2) eqn:Z; [|reflexivity]. rewrite <- (ext_keep _ _ _ x2 Hpt) in Z by congruence. congruence. }
    assert (Hx2n : 2 < x2).
    { destruct (le_lt_dec x2 2) as [Z|Z]; [exfalso; now apply (pre_std _ _ _ _ _ _ HP x2 Z)|exact Z]. }
    assert (Hxs : ~ In x2 (source_ints (borrow rs))).
    { intros X. apply (abs_open _ _ _ (pre_abs _ _ _ _ _ _ HPb)) in X. congruence. }
    assert (HPf : Pre L IPiped o (s_tab s3) (dset (borrow rs) 0 (fed x2)) (feed_stdin e k2)).
    { eapply Pre_feed; [exact HPb3|exact Hxs|exact Hx2n|]. unfold refers. now rewrite S3, Et2. }
    apply hp_bind. eapply hp_mono; [apply (run_hp L pf c IPiped o s3 _ _ HPf Cc)|].
    intros s4 [oc ic] [rc [E3 [Wc [C0 [C1 [Hnp4 [Hnt4 [Hit4 [Hret4 Hpt4]]]]]]]]]. cbn [fst snd] in *. subst oc.
    rewrite Hp3, Ht3, Hnp2, Hnt2 in Hnp4, Hnt4, Hit4, Hret4.
    set (wc := wire c (feed_stdin e k2) (w_np wb) (w_nt wb)) in *.
    assert (Hpt4' : postt (s_tab s3) (s_tab s4) (ret_fds IPiped o rc ++ items_fds ic) [x2]).
    { eapply postt_gone; [|exact Hpt4]. intros n. rewrite in_nbs. split.
      - intros [z [Hz [Hs Hb]]]. apply dset_values in Hz as [->|Hz].
        + cbn in Hs. injection Hs as ->. now left.
        + exfalso. assert (Y : In n (nbs (dvals (borrow rs)))) by (apply in_nbs; eauto). rewrite borrow_nbs in Y. exact Y.
      - intros [<-|[]]. exists (fed x2). split; [|split; reflexivity].
        apply in_map_iff. exists (0, fed x2). split; [reflexivity|]. apply dget_In. rewrite dget_dset. reflexivity. }
    apply hp_bind. destruct (merge_total m rc Wm Wc) as [m' Em']. eapply hp_rlift; [exact Em'|]. cbv beta.
    destruct (dget m 0) as [i0|] eqn:Ei0; [|rewrite Hm in Ei0 by exact B0; congruence].
    destruct (dget rc 1) as [o1|] eqn:Eo1; [|congruence].
    apply hp_bind. eapply std_hp; [reflexivity|exact Ei0|].
    assert (Fi : r_fd i0 = 0 /\ r_source i0 <> SNone).
    { destruct Wm as [_ Hall]. rewrite Forall_forall in Hall. exact (Hall _ (dget_In _ _ _ Ei0)). }
    assert (Fo : r_fd o1 = 1 /\ r_source o1 <> SNone).
    { destruct Wc as [_ Hall]. rewrite Forall_forall in Hall. exact (Hall _ (dget_In _ _ _ Eo1)). }
    apply hp_bind. eapply hp_rlift; [apply register_ok; apply Fi|]. cbv beta.
    apply hp_bind. eapply std_hp; [reflexivity|exact Eo1|].
    apply hp_bind. eapply hp_rlift; [apply register_ok; apply Fo|]. cbv beta.
    rewrite (proj1 Fi), (proj1 Fo).
    apply hp_bind. eapply hp_mono; [apply close_hp; [apply HP|rewrite Hnb; intros n []]|].
    cbn beta. intros s5 _ [R5 [Hp5 Ht5]]. apply hp_ret.
    assert (S5 : forall n, tget (s_tab s5) n = tget (s_tab s4) n) by (intros n; rewrite R5, Hnb; reflexivity).
    assert (Hx1s : tget (s_tab s) x1 = None) by (apply (proj1 (proj2 Hpt)); now left).
    assert (N12 : x1 <> x2) by (intros ->; congruence).
    assert (K4 : forall n, tget (s_tab s2) n <> None -> n <> x2 -> tget (s_tab s5) n = tget (s_tab s2) n).
    { intros n Hn Hne. rewrite S5. rewrite <- S3 in Hn |- *. apply (postt_keep _ _ _ _ n Hpt4' Hn).
      intros [->|[]]. congruence. }
    assert (K2 : forall n, tget (s_tab s1) n <> None -> tget (s_tab s2) n = tget (s_tab s1) n).
    { intros n Hn. now apply (ext_keep _ _ _ n Hpt2). }
    assert (Nb : ~ In x2 (items_fds ib)) by (destruct Hpt2 as [ND _]; inversion ND; assumption).
    exists wa, wb, wc, k1, k2, x1, ia, ib, ic. eexists. exists rc.
    split; [reflexivity|]. split; [reflexivity|]. split; [reflexivity|]. split; [reflexivity|].
    split; [exact Ek1|]. split; [exact Ek2|]. split; [|split; [|split; [|split; [|split; [|split]]]]].
    - eapply items_ok_keep; [|exact Hit]. intros n Hn Ho. rewrite <- (K2 n Ho) in Ho |- *. apply K4; [exact Ho|].
      intros ->. rewrite K2 in Ho; [congruence|]. exfalso.
      assert (X : tget (s_tab s1) x2 <> None) by (apply (proj1 (proj2 Hpt)); now right). congruence.
    - eapply items_ok_keep; [|exact Hit2]. intros n Hn Ho. apply K4; [exact Ho|]. intros ->. contradiction.
    - eapply items_ok_keep; [|exact Hit4]. intros n Hn Ho. apply S5.
    - exact Hx1s.
    - unfold refers. assert (X : tget (s_tab s2) x1 = tget (s_tab s1) x1) by (apply K2; congruence).
      rewrite K4 by congruence. now rewrite X, Et1.
    - unfold pipefd. rewrite !dget_dset. cbn. now rewrite Eo1.
    - intros X. rewrite in_app_iff in X. unfold items_fds in X. rewrite !flat_map_app, !in_app_iff in X.
      fold (items_fds ia) (items_fds ib) (items_fds ic) in X.
      destruct X as [X|[[X|X]|X]].
      + assert (Y : In x1 (ret_fds IPiped o rc ++ items_fds ic)) by (apply in_app_iff; auto).
        apply (proj1 (proj2 Hpt4')) in Y. rewrite S3, K2 in Y by congruence. destruct Y. congruence.
      + destruct Hpt as [ND _]. inversion ND; subst; contradiction.
      + assert (Y : In x1 (x2 :: items_fds ib)) by (now right). apply (proj1 (proj2 Hpt2)) in Y. destruct Y. congruence.
      + assert (Y : In x1 (ret_fds IPiped o rc ++ items_fds ic)) by (apply in_app_iff; auto).
        apply (proj1 (proj2 Hpt4')) in Y. rewrite S3, K2 in Y by congruence. destruct Y. congruence.
  Qed.

  Theorem group_piped piped a b c s o0 o1 logfd maxfd :
    refers (s_tab s) 0 = Some o0 -> refers (s_tab s) 1 = Some o1 -> tget (s_tab s) 2 <> None ->
    clean (can_open L) INone true a -> clean (can_open L) INone true b -> clean (can_open L) IPiped piped c ->
    match start L pf piped (PPipe (PGroup a b) c) s with
    | (_, Err e) => errs e
    | (s', Ok (ret, its)) => exists k1 k2 la ta lb tb lc ia ib ic,
        k1 <> k2 /\ its = (ia ++ ib) ++ ic /\
        Forall2 (connected L logfd maxfd (s_tab s')) (la ++ [ta]) ia /\ leaf_out ta = Some (OPipeW k1) /\
        Forall2 (connected L logfd maxfd (s_tab s')) (lb ++ [tb]) ib /\ leaf_out tb = Some (OPipeW k2) /\
        Forall2 (connected L logfd maxfd (s_tab s')) lc ic /\
        (exists np nt, lc = w_leaves (wire c (feed_stdin (top_env o0 o1 piped) k2) np nt)) /\
        exists n, tget (s_tab s) n = None /\ refers (s_tab s') n = Some (OPipeR k1) /\
          ~ In n ((if piped then caller_fds ret else []) ++ function_fds its)
    end.
  Proof.
    intros H0 H1 H2 Ca Cb Cc. rewrite start_is.
    pose proof (group_piped_hp piped a b c s (top_rs piped) _
      (Pre_top L pf _ _ _ piped H0 H1 H2) (nbs_top piped) Ca Cb Cc) as H. unfold hp in H.
    destruct (run L pf (PPipe (PGroup a b) c) (top_rs piped) s) as [s' [x|e]]; [|exact H].
    destruct H as [wa [wb [wc [k1 [k2 [n [ia [ib [ic [rs' [rc H]]]]]]]]]]].
    destruct H as [-> [Ewa [Ewb [Ewc [K1 [K2 [Fa [Fb [Fc [N1 [N2 [N3 N4]]]]]]]]]]]].
    set (e := top_env o0 o1 piped) in *.
    destruct (wire_writer (can_open L) a INone (ask_stdout e) (s_np s) (s_nt s) Ca (ask_stdout_get e))
      as [k1' [la [ta [X1 [X2 [X3 X4]]]]]]. rewrite <- Ewa in X1, X2, X3. rewrite K1 in X1. injection X1 as <-.
    destruct (wire_writer (can_open L) b INone (ask_stdout e) (w_np wa) (w_nt wa) Cb (ask_stdout_get e))
      as [k2' [lb [tb [Y1 [Y2 [Y3 Y4]]]]]]. rewrite <- Ewb in Y1, Y2, Y3. rewrite K2 in Y1. injection Y1 as <-.
    assert (Conn : forall ls is, Forall2 (item_ok L (s_tab s')) ls is -> Forall2 (connected L logfd maxfd (s_tab s')) ls is).
    { intros ls is F. eapply Forall2_impl; [|exact F]. intros p q. apply item_connected. }
    exists k1, k2, la, ta, lb, tb, (w_leaves wc), ia, ib, ic.
    split; [lia|]. split; [reflexivity|]. split; [rewrite <- X3; auto|]. split; [exact X4|].
    split; [rewrite <- Y3; auto|]. split; [exact Y4|]. split; [auto|]. split.
    - exists (w_np wb), (w_nt wb). rewrite Ewc. reflexivity.
    - exists n. split; [exact N1|]. split; [exact N2|]. intros X. apply N4.
      apply in_app_iff in X as [X|X]; apply in_app_iff; [left|right; exact X].
      destruct piped; [|destruct X]. change (caller_fds (Some rs')) with (pipefd rs' 1) in X. rewrite N3 in X.
      unfold ret_fds, reqs. cbn. now rewrite app_nil_r.
  Qed.

  (** A redirect to a descriptor number closes that descriptor in the shell. *)
  Definition stderr_to (n : nat) : redirects :=
    [(2, mkRedirect 2 (SInt n) out_flags default_mode None false)].
  Theorem int_source_closed ws n s e :
    tget (s_tab s) n = Some e ->
    match start L pf false (PRedir (PCmd (map AWord ws)) (stderr_to n)) s with
    | (_, Err _) => False
    | (s', Ok _) => tget (s_tab s') n = None
    end.
  Proof.
    intros Hn. rewrite start_is. change (run L pf (PRedir (PCmd (map AWord ws)) (stderr_to n)) (top_rs false))
      with (rdo m <- rlift (merge def_rs (stderr_to n)); run L pf (PCmd (map AWord ws)) m).
    unfold rbind at 1.
    change (rlift (merge def_rs (stderr_to n)) s) with
      (s, Ok [(0, mkRedirect 0 (SInt 0) O_RDONLY default_mode None true);
              (1, mkRedirect 1 (SInt 1) out_flags default_mode None true);
              (2, mkRedirect 2 (SInt n) out_flags default_mode None false)]).
    cbv beta iota.
    set (rs := [_; _; _]).
    rewrite run_PCmd. unfold rbind.
    assert (Em : make_pipes L rs s = (s, Ok rs)) by reflexivity. rewrite Em.
    assert (Ec : rlift (new_redirects [IRedirects rs]) s = (s, Ok rs)) by reflexivity. rewrite Ec.
    assert (Ea : run_args L pf (borrow rs) (map AWord ws) rs s = (s, Ok (rs, [], map Word ws))).
    { clear. induction ws as [|w ws IH]; [reflexivity|]. cbn [map]. change (run_args L pf (borrow rs) (AWord w :: map AWord ws) rs) with
        (rdo (m, its, argv) <- run_args L pf (borrow rs) (map AWord ws) rs; rret (m, its, Word w :: argv)).
      unfold rbind. now rewrite IH. }
    rewrite Ea. cbv beta iota. unfold get_tab, lift. cbv beta iota.
    assert (Ek : close_source_fds rs (s_tab s) = (tset (s_tab s) n None, Ok tt)).
    { unfold close_source_fds, rs. cbn. unfold tbind, tret, close_source_fd. cbn. unfold os_close. now rewrite Hn. }
    unfold os_close in *. rewrite Ek. unfold rret, s_tab. apply (eq_trans (tget_tset _ n None n)). now rewrite Nat.eqb_refl.
  Qed.
End Fail.
