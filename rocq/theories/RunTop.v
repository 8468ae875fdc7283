(** Proofs about starting pipelines, part 7: the wiring theorem. *)
From Verif Require Import Py RedirModel RedirSpec RedirProofs Os PerformModel PerformSpec
  PerformProofs RunModel RunSpec RunTopSpec RunProofs RunPre RunMake RunMake2 RunMain RunArgs.
From Coq Require Import Permutation.
#[local] Arguments hp : simpl never.
#[local] Arguments rbind : simpl never.
#[local] Arguments rret : simpl never.

(** Induction over pipelines, including those in arguments. *)
Section PlInd.
  Variable P : pl -> Prop.
  Hypothesis Hcmd : forall args, Forall (fun a => match a with APipeline q => P q | _ => True end) args -> P (PCmd args).
  Hypothesis Hfun : forall b, P (PFun b).
  Hypothesis Hpipe : forall a b, P a -> P b -> P (PPipe a b).
  Hypothesis Hgroup : forall a b, P a -> P b -> P (PGroup a b).
  Hypothesis Hredir : forall q rs, P q -> P (PRedir q rs).
  Hypothesis Hbuiltin : P PBuiltin.
  Lemma pl_ind' : forall p, P p.
  Proof.
    fix IH 1. intros [args|b|a b|a b|q rs|].
    - apply Hcmd. induction args as [|x args IHa]; constructor; [|exact IHa].
      destruct x as [w|q| |]; [exact I|apply IH|exact I|exact I].
    - apply Hfun.
    - apply Hpipe; apply IH.
    - apply Hgroup; apply IH.
    - apply Hredir; apply IH.
    - exact Hbuiltin.
  Qed.
End PlInd.

Lemma dget_app {V} (a b : dict nat V) k :
  dget (a ++ b) k = match dget a k with Some v => Some v | None => dget b k end.
Proof. induction a as [|[k0 v0] a IH]; cbn; [reflexivity|]. destruct (Nat.eqb k k0); auto. Qed.

Lemma nbs_app a b : nbs (a ++ b) = nbs a ++ nbs b.
Proof. apply flat_map_app. Qed.

Lemma merge_fold a b : wf_redirects a -> wf_redirects b ->
  merge a b = Ok (fold_left (fun d r => dset d (r_fd r) r) (dvals b) a).
Proof.
  intros Ha Hb. unfold merge, new_redirects. cbn [new_redirects_from].
  pose proof (copy_redirects a Ha) as E. unfold new_redirects in E. cbn [new_redirects_from] in E.
  destruct (register_all [] a) as [x|]; cbn in E; [|discriminate]. injection E as ->. cbn.
  unfold register_all. destruct (register_list_ok (dvals b) a (wf_vals _ Hb)) as [x [E1 ->]]. now rewrite E1.
Qed.

Section Top.
  Variable L : limits.
  Variable pollable_file : ofd -> bool.
  Notation run := (run L pollable_file).

  Lemma run_PCmd args rs : run (PCmd args) rs =
    (rdo made <- make_pipes L rs;
     rdo orig0 <- rlift (new_redirects [IRedirects made]);
     rdo (made', its, argv) <- run_args L pollable_file (borrow orig0) args made;
     rdo t <- get_tab;
     rdo _ <- lift (close_source_fds made');
     rret (Some made', its ++ [IProc made' t argv])).
  Proof. reflexivity. Qed.
  Lemma wire_PCmd args e np nt : wire (PCmd args) e np nt =
    let '(m, np1, nt1) := make e np nt in
    let '(ls, ws, np2, nt2) := wire_args m args np1 nt1 in
    mkWired (ls ++ [LProc (io_of m) ws]) (asked e np 0) (asked e np 1) np2 nt2.
  Proof. reflexivity. Qed.

  Lemma pipefd_app a b k : dget a k <> None -> pipefd (a ++ b) k = pipefd a k.
  Proof. intros H. unfold pipefd. rewrite dget_app. destruct (dget a k); [reflexivity|congruence]. Qed.
  Lemma ret_fds_app i o a b : dget a 0 <> None -> dget a 1 <> None -> ret_fds i o (a ++ b) = ret_fds i o a.
  Proof. intros A B. unfold ret_fds, reqs. destruct i, o; cbn; rewrite ?pipefd_app by assumption; reflexivity. Qed.
  Lemma end_is_app t a b k o : end_is t a k o -> end_is t (a ++ b) k o.
  Proof. intros [r [x [A B]]]. exists r, x. rewrite dget_app, A. auto. Qed.
  Lemma ret_ok_app i o t win wout a b : ret_ok i o t win wout a -> ret_ok i o t win wout (a ++ b).
  Proof.
    intros [A B]. split.
    - destruct i; auto. destruct A as [k [A1 A2]]. exists k. split; [exact A1|now apply end_is_app].
    - destruct o; auto. destruct B as [k [B1 B2]]. exists k. split; [exact B1|now apply end_is_app].
  Qed.
  Lemma ents_nbs t ents ofds : Forall2 (ent_ok t) ents ofds -> nbs (dvals ents) = source_ints ents.
  Proof.
    induction 1 as [|[k r] o ents ofds [n [A [B _]]] Hl IH]; [reflexivity|].
    rewrite source_ints_cons. cbn in A, B. rewrite <- IH. unfold nbs. cbn. now rewrite A, B.
  Qed.

  Lemma seen_made t rs m n : Forall2 (absw t) rs m -> concrete rs -> seen rs t n = io_of m n.
  Proof.
    intros Ha Hc. unfold seen, io_of. destruct (dget rs n) as [r|] eqn:E.
    - destruct (abs_get _ _ _ _ _ Ha E) as [[w f] [Hw [_ [Hf Hs]]]]. rewrite Hw. cbn in Hf, Hs.
      unfold wanted. destruct (Hc _ _ E) as [[x Ex]|[p Ep]].
      + rewrite Ex in *. destruct w; cbn; try contradiction. exact Hs.
      + rewrite Ep in *. destruct w; cbn; try contradiction. now subst.
    - rewrite (abs_get_none _ _ _ _ Ha E). reflexivity.
  Qed.
  Lemma seen_ents t ents ofds n : Forall2 (ent_ok t) ents ofds ->
    seen ents t n = dget (combine (dkeys ents) ofds) n.
  Proof.
    intros H. unfold seen. induction H as [|[k r] o ents ofds [x [A [_ [_ [_ B]]]]] Hl IH]; [reflexivity|].
    cbn in *. destruct (Nat.eqb n k); [|exact IH]. unfold wanted. rewrite A, B. reflexivity.
  Qed.
  Lemma combine_keys {A B} (a : list A) (b : list B) n :
    In n (map fst (combine a b)) -> In n a.
  Proof.
    intros H. apply in_map_iff in H as [[x y] [E Hin]]. cbn in E. subst. eapply in_combine_l; eauto.
  Qed.

  Lemma run_cmd_hp args :
    Forall (fun a => match a with APipeline q => run_spec L pollable_file q | _ => True end) args ->
    run_spec L pollable_file (PCmd args).
  Proof.
    intros HF i o s rs e HP Hc. rewrite run_PCmd, wire_PCmd. apply hp_bind.
    eapply hp_mono; [apply make_pipes_hp; exact HP|]. cbn.
    intros s1 made [srcs [m [Hmk [Hext [Hwf [Hdk [Hnd [Hab [Hnb [HPm [Hcon Hret]]]]]]]]]]].
    apply hp_bind. eapply hp_rlift; [now apply copy_redirects|]. cbv beta.
    rewrite Hmk. apply hp_bind.
    eapply hp_mono; [apply (run_args_hp L pollable_file (borrow made) m args HF Hc (borrow_nbs made) s1 made HPm Hwf Hnd)|].
    { intros n. eapply abs_open; eauto. }
    intros s2 [[made' its] argv] HA.
    destruct (wire_args m args (s_np s1) (s_nt s1)) as [[[ls ws] np2] nt2]. unfold ArgsPost in HA.
    destruct HA as [ents [Em [Hw' [Hn' [Hnp [Hnt [Hit [Hex [Hkeys [Haok Hent]]]]]]]]]].
    apply hp_bind. change (hp (fun s0 => (s0, Ok (s_tab s0))) s2 (fun s' a => hp (rdo _ <- lift (close_source_fds made'); rret (Some made', its ++ [IProc made' a argv])) s'
      (Post L i o rs (mkWired (ls ++ [LProc (io_of m) ws]) (asked e (s_np s) 0) (asked e (s_np s) 1) np2 nt2) s))).
    unfold hp at 1.
    assert (H0 : dget made 0 <> None) by (eapply dkeys_dget; [symmetry; exact Hdk|apply HP]).
    assert (H1 : dget made 1 <> None) by (eapply dkeys_dget; [symmetry; exact Hdk|apply HP]).
    assert (Hab2 : Forall2 (absw (s_tab s2)) made m).
    { eapply abs_frame; [exact Hab|]. intros n Hn. apply (ext_keep _ _ _ n Hex). eapply abs_open; eauto. }
    assert (Hsi : source_ints made' = source_ints made ++ source_ints ents) by now rewrite Em, source_ints_app.
    assert (Hno : nbs (dvals made') = nbs (dvals made) ++ source_ints ents).
    { rewrite Em, dvals_app, nbs_app. f_equal. eapply ents_nbs; eauto. }
    assert (Hopen : forall n, In n (source_ints made') -> tget (s_tab s2) n <> None).
    { intros n Hn. rewrite Hsi in Hn. apply in_app_iff in Hn as [Hn|Hn]; [eapply abs_open; eauto|].
      apply Hex. apply in_app_iff. now left. }
    apply hp_bind. eapply hp_mono.
    { apply close_hp; [exact Hn'|]. intros n Hn. apply Hopen. now apply nbs_ints. }
    cbn. intros s3 _ [R [Hp3 Ht3]]. apply hp_ret.
    assert (E02 : ext (s_tab s) (s_tab s2) ((srcs ++ source_ints ents) ++ (ret_fds i o made ++ items_fds its))).
    { eapply ext_perm; [|eapply ext_trans; [exact Hext|exact Hex]].
      rewrite <- !app_assoc. apply Permutation_app_head. rewrite !app_assoc. apply Permutation_app_tail.
      apply Permutation_app_comm. }
    assert (Hgone : forall n, In n (nbs (dvals rs)) -> tget (s_tab s) n <> None).
    { intros n Hn. eapply abs_open; [apply HP|]. now apply nbs_ints. }
    assert (PT : postt (s_tab s) (s_tab s3) (ret_fds i o made ++ items_fds its) (nbs (dvals rs))).
    { eapply ext_removed_post; [exact E02|exact R| |exact Hgone].
      intros n. rewrite Hno, !in_app_iff. split; intros X.
      - destruct X as [X|X]; [|auto]. apply (Permutation_in _ Hnb) in X. apply in_app_iff in X. tauto.
      - destruct X as [X|[X|X]]; [left|left|auto];
          apply (Permutation_in _ (Permutation_sym Hnb)); apply in_app_iff; auto. }
    assert (K23 : forall n, In n (ret_fds i o made ++ items_fds its) -> tget (s_tab s3) n = tget (s_tab s2) n).
    { intros n Hn. rewrite R. destruct (in_dec Nat.eq_dec n (nbs (dvals made'))) as [X|]; [|reflexivity].
      exfalso. apply PT in Hn. destruct Hn as [_ Hn2]. rewrite R in Hn2.
      destruct (in_dec Nat.eq_dec n (nbs (dvals made'))); [congruence|contradiction]. }
    exists made'. cbn [fst snd w_np w_nt w_leaves w_in w_out].
    split; [reflexivity|]. split; [exact Hw'|].
    assert (G : forall k, dget made k <> None -> dget made' k <> None).
    { intros k Hk. rewrite Em, dget_app. destruct (dget made k); [discriminate|congruence]. }
    split; [auto|]. split; [auto|]. split; [congruence|]. split; [congruence|]. split; [|split].
    - apply Forall2_app.
      + eapply items_ok_keep; [|exact Hit]. intros n Hn _. apply K23. apply in_app_iff. auto.
      + constructor; [|constructor]. cbn. unfold proc_ok.
        split; [exact Hw'|]. split; [exact Hn'|]. split; [exact Haok|].
        assert (NDk : NoDup (dkeys made ++ dkeys ents)) by (rewrite <- dkeys_app, <- Em; apply Hw').
        apply NoDup_app_inv in NDk as [_ [ND2 ND3]].
        split; [rewrite <- Hkeys; exact ND2|]. split; [|split].
        * intros n Hn. rewrite <- Hkeys in Hn. split.
          -- apply in_map_iff in Hn as [[k r] [E Hin]]. cbn in E. subst k.
             destruct (Forall2_in_l _ _ _ _ Hent Hin) as [o0 [_ [x [_ [_ [X _]]]]]]. exact X.
          -- unfold io_of. replace (dget m n) with (@None (want * N)); [reflexivity|]. symmetry.
             apply dget_None. rewrite <- (abs_keys _ _ _ Hab). intros X. now apply (ND3 n).
        * intros n. rewrite Em. unfold seen. rewrite dget_app. rewrite <- Hkeys.
          rewrite <- (seen_ents (s_tab s2) ents _ n Hent).
          destruct (dget made n) as [r|] eqn:E.
          -- assert (X : dget ents n = None).
             { apply dget_None. apply ND3. apply dget_mem. eauto. }
             unfold seen at 1. rewrite X. rewrite <- (seen_made _ _ _ n Hab2 Hcon). unfold seen. now rewrite E.
          -- unfold seen. destruct (dget ents n) as [r|] eqn:E2.
             ++ destruct (Forall2_in_l _ _ _ _ Hent (dget_In _ _ _ E2)) as [o0 [_ [x [X1 [_ [_ [_ X2]]]]]]].
                cbn in X1. unfold wanted. rewrite X1, X2. reflexivity.
             ++ rewrite <- (seen_made _ _ _ n Hab2 Hcon). unfold seen. now rewrite E.
        * intros r Hr. rewrite Em, dvals_app in Hr. apply in_app_iff in Hr as [Hr|Hr].
          -- apply in_map_iff in Hr as [[k r0] [E Hin]]. cbn in E. subst r0.
             assert (Hg : dget made k = Some r) by (apply In_dget; [apply Hwf|exact Hin]).
             assert (Hfd : r_fd r = k).
             { destruct Hwf as [_ Hall]. rewrite Forall_forall in Hall. now destruct (Hall _ Hin). }
             pose proof (pre_ent _ _ _ _ _ _ HPm k (borrow1 r)) as Hek.
             assert (Hbi : In (k, borrow1 r) (borrow made)).
             { apply in_map_iff. now exists (k, r). }
             specialize (Hek Hbi). unfold entry_ok in Hek. cbn in Hek.
             destruct (Hcon _ _ Hg) as [[x Ex]|[p Ep]].
             ++ left. exists x. split; [exact Ex|]. apply Hopen. rewrite Hsi. apply in_app_iff. left.
                apply in_ints. exists r. split; [|exact Ex]. apply in_map_iff. now exists (k, r).
             ++ right. exists p. rewrite Ep in Hek. destruct Hek as [Hk2 Hco]. split; [exact Ep|].
                split; [exact Hco|]. rewrite Hfd. split.
                ** rewrite (ext_keep _ _ _ k Hex); [now apply HPm|now apply HPm].
                ** rewrite Hsi, in_app_iff. intros [X|X].
                   --- apply in_ints in X as [r2 [Hr2 Es2]]. apply in_map_iff in Hr2 as [[k2 r3] [E3 Hin2]].
                       cbn in E3. subst r3.
                       pose proof (pre_ent _ _ _ _ _ _ HPm k2 (borrow1 r2)) as He2.
                       assert (Hbi2 : In (k2, borrow1 r2) (borrow made)) by (apply in_map_iff; now exists (k2, r2)).
                       specialize (He2 Hbi2). unfold entry_ok in He2. cbn in He2. rewrite Es2 in He2.
                       destruct He2 as [He2 _]. destruct (He2 Hk2) as [<- _].
                       assert (Hg2 : dget made k = Some r2) by (apply In_dget; [apply Hwf|exact Hin2]).
                       rewrite Hg in Hg2. injection Hg2 as <-. congruence.
                   --- apply in_ints in X as [r2 [Hr2 Es2]]. apply in_map_iff in Hr2 as [[k2 r3] [E3 Hin2]].
                       cbn in E3. subst r3.
                       destruct (Forall2_in_l _ _ _ _ Hent Hin2) as [o0 [_ [x [X1 [_ [_ [X2 _]]]]]]].
                       cbn in X1. rewrite Es2 in X1. injection X1 as <-. lia.
          -- left. apply in_map_iff in Hr as [[k r0] [E Hin]]. cbn in E. subst r0.
             destruct (Forall2_in_l _ _ _ _ Hent Hin) as [o0 [_ [x [X1 [_ [_ [_ X2]]]]]]].
             exists x. split; [exact X1|]. rewrite X2. discriminate.
    - rewrite Em. apply ret_ok_app. eapply ret_ok_keep; [|exact Hret]. intros n Hn Ho.
      rewrite K23; [|apply in_app_iff; auto]. now apply (ext_keep _ _ _ n Hex).
    - rewrite Em, ret_fds_app by assumption. unfold items_fds. rewrite flat_map_app. cbn. rewrite app_nil_r. exact PT.
  Qed.

  Lemma run_fun_hp b : run_spec L pollable_file (PFun b).
  Proof.
    intros i o s rs e HP _. cbn [RunModel.run wire]. apply hp_bind.
    eapply hp_mono; [apply run_function_hp; exact HP|]. intros s1 [r its] H. apply hp_ret. exact H.
  Qed.

  Lemma fold_nbs i o t rs e crs : Pre L i o t rs e ->
    Forall (fun kr => r_fd (snd kr) = fst kr) crs -> Forall (redirect_clean (can_open L) i o) crs ->
    forall n, In n (nbs (dvals (fold_left (fun d r => dset d (r_fd r) r) (dvals crs) rs))) <-> In n (nbs (dvals rs)).
  Proof.
    revert rs e. induction crs as [|[k r] crs IH]; intros rs e HP Hf Hc n; [reflexivity|].
    inversion Hf as [|? ? Hf1 Hf2]; subst. inversion Hc as [|? ? Hc1 Hc2]; subst. cbn.
    assert (HP1 : Pre L i o t (dset rs (r_fd r) r) (dset e (r_fd r) (wish r))).
    { apply (Pre_override L i o t rs e [(k, r)] HP); constructor; auto. }
    rewrite (IH _ _ HP1 Hf2 Hc2 n). clear IH.
    destruct Hc1 as [C0 [C1 Hk]]. cbn in C0, C1, Hk.
    pose proof (pre_wf _ _ _ _ _ _ HP) as [Hnd Hall].
    assert (Hns : forall m, r_source r <> SInt m) by (intros m E; rewrite E in Hk; exact Hk).
    rewrite !in_nbs. split; intros [x [Hx [Hs Hb]]].
    - exists x. split; [|auto]. apply dset_values in Hx as [->|Hx]; [|exact Hx]. exfalso. eapply Hns; eauto.
    - exists x. split; [|auto]. apply in_map_iff in Hx as [[k1 x1] [E Hin]]. cbn in E. subst x1.
      pose proof (pre_ent _ _ _ _ _ _ HP _ _ Hin) as He. unfold entry_ok in He. rewrite Hs in He.
      destruct He as [_ He]. destruct (He Hb) as [-> ->].
      assert (Hne : 0 <> r_fd r) by (intros E; symmetry in E; apply C0 in E; discriminate).
      apply in_map_iff. exists (0, x). split; [reflexivity|]. apply dget_In. rewrite dget_dset.
      cbn. destruct (r_fd r); [congruence|]. apply (In_dget rs 0 x Hnd Hin).
  Qed.

  Lemma run_redir_hp q crs : run_spec L pollable_file q -> run_spec L pollable_file (PRedir q crs).
  Proof.
    intros IH i o s rs e HP [Hw [Hcl Hq]]. cbn [RunModel.run wire]. apply hp_bind.
    eapply hp_rlift; [apply merge_fold; [apply HP|exact Hw]|]. cbv beta.
    assert (Hfd : Forall (fun kr : nat * redirect => r_fd (snd kr) = fst kr) crs).
    { destruct Hw as [_ Hall]. eapply Forall_impl; [|exact Hall]. intros a [A _]. exact A. }
    eapply hp_mono; [apply (IH i o s _ _ (Pre_override L i o _ rs e crs HP Hfd Hcl) Hq)|].
    intros s1 x [rs' H]. exists rs'. sp; try tauto.
    eapply postt_gone; [|apply H]. eapply fold_nbs; eauto.
  Qed.

  Lemma run_group_hp a b : run_spec L pollable_file a -> run_spec L pollable_file b ->
    run_spec L pollable_file (PGroup a b).
  Proof.
    intros IHa IHb i o s rs e HP [Hi [-> [Ca Cb]]]. cbn [RunModel.run wire]. apply hp_bind.
    eapply hp_rlift; [apply copy_redirects; apply HP|]. cbv beta zeta.
    pose proof (Pre_borrow L i false _ _ _ HP) as HPb.
    replace (unpiped i) with INone in HPb by (destruct i; [reflexivity|reflexivity|congruence]).
    apply hp_bind. eapply hp_mono; [apply (IHa INone false s _ _ HPb Ca)|].
    intros s1 [oa ia] [ra [E1 [Wa [A0 [A1 [Hnp [Hnt [Hit [Hret Hpt]]]]]]]]]. cbn [fst snd] in *. subst oa.
    rewrite borrow_nbs in Hpt. apply postt_ext in Hpt; [|intros n []]. cbn [ret_fds reqs flat_map app] in Hpt.
    assert (HPb1 : Pre L INone false (s_tab s1) (borrow rs) e).
    { eapply Pre_frame; [exact HPb|]. intros n Hn. now apply (ext_keep _ _ _ n Hpt). }
    apply hp_bind. rewrite <- Hnp, <- Hnt. eapply hp_mono; [apply (IHb INone false s1 _ _ HPb1 Cb)|].
    intros s2 [ob ib] [rb [E2 [Wb [B0 [B1 [Hnp2 [Hnt2 [Hit2 [Hret2 Hpt2]]]]]]]]]. cbn [fst snd] in *. subst ob.
    rewrite borrow_nbs in Hpt2. apply postt_ext in Hpt2; [|intros n []]. cbn [ret_fds reqs flat_map app] in Hpt2.
    pose proof (ext_trans _ _ _ _ _ Hpt Hpt2) as E02.
    apply hp_bind. destruct (merge_total ra rb Wa Wb) as [m Em]. eapply hp_rlift; [exact Em|]. cbv beta.
    apply hp_bind. eapply hp_mono.
    { apply close_hp; [apply HP|]. intros n Hn. apply nbs_ints in Hn.
      assert (X : tget (s_tab s) n <> None) by (eapply abs_open; [apply HP|exact Hn]).
      now rewrite (ext_keep _ _ _ n E02). }
    cbn. intros s3 _ [R [Hp3 Ht3]]. apply hp_ret.
    assert (PT : postt (s_tab s) (s_tab s3) (items_fds ia ++ items_fds ib) (nbs (dvals rs))).
    { eapply (ext_removed_post _ _ _ [] _ _ _ E02 R).
      - intros n. cbn. tauto.
      - intros n Hn. eapply abs_open; [apply HP|]. now apply nbs_ints. }
    assert (K23 : forall n, In n (items_fds ia ++ items_fds ib) -> tget (s_tab s3) n = tget (s_tab s2) n).
    { intros n Hn. rewrite R. destruct (in_dec Nat.eq_dec n (nbs (dvals rs))) as [X|]; [|reflexivity].
      exfalso. apply PT in Hn. destruct Hn as [_ Hn2]. rewrite R in Hn2.
      destruct (in_dec Nat.eq_dec n (nbs (dvals rs))); [congruence|contradiction]. }
    exists m. cbn [fst snd w_np w_nt w_leaves w_in w_out].
    split; [reflexivity|]. split; [eapply wf_new; exact Em|].
    assert (G : forall k, dget rb k <> None -> dget m k <> None).
    { intros k Hk. rewrite (merge_in_force ra rb m k Wa Wb Em). unfold force_set. destruct (dget rb k); [discriminate|congruence]. }
    split; [auto|]. split; [auto|]. split; [congruence|]. split; [congruence|]. split; [|split].
    - apply Forall2_app.
      + eapply items_ok_keep; [|exact Hit]. intros n Hn Ho. rewrite K23 by (apply in_app_iff; auto).
        now apply (ext_keep _ _ _ n Hpt2).
      + eapply items_ok_keep; [|exact Hit2]. intros n Hn _. apply K23. apply in_app_iff; auto.
    - split; [|reflexivity]. destruct i; [reflexivity|reflexivity|congruence].
    - unfold items_fds. rewrite flat_map_app.
      replace (ret_fds i false m) with (@nil nat); [exact PT|].
      unfold ret_fds, reqs. destruct i; [reflexivity|reflexivity|congruence].
  Qed.

  Lemma run_pipe_hp a b : run_spec L pollable_file a -> run_spec L pollable_file b ->
    run_spec L pollable_file (PPipe a b).
  Proof.
    intros IHa IHb i o s rs e HP [Ca Cb]. cbn [RunModel.run wire]. apply hp_bind.
    pose proof (pre_wf _ _ _ _ _ _ HP) as Hwr.
    eapply hp_rlift; [apply copy_redirects; apply HP|]. cbv beta zeta.
    pose proof (Pre_borrow L i o _ _ _ HP) as HPb. pose proof (pre_wf _ _ _ _ _ _ HPb) as Hwb.
    apply hp_bind. eapply hp_rlift; [now apply with_stdout_pipe|]. cbv beta.
    apply hp_bind. change (match i with IReq => IReq | _ => INone end) with (unpiped i) in Ca.
    eapply hp_mono; [apply (IHa (unpiped i) true s _ _ (Pre_ask1 L _ _ _ _ _ HPb) Ca)|].
    intros s1 [oa ia] [ra [E1 [Wa [A0 [A1 [Hnp [Hnt [Hit [Hret Hpt]]]]]]]]]. cbn [fst snd] in *. subst oa.
    set (wa := wire a (ask_stdout e) (s_np s) (s_nt s)) in *.
    assert (Hnn : nbs (dvals (dset (borrow rs) 1 pipe_out)) = []).
    { apply (nbs_dset (borrow rs) pipe_out Hwb (borrow_nbs rs)). discriminate. }
    rewrite Hnn in Hpt. apply postt_ext in Hpt; [|intros n []].
    destruct Hret as [Hri [k [Ek [r1 [x [Er [Ep Et]]]]]]].
    set (inr := flat_map (pipefd ra) (match i with IReq => [0] | _ => [] end)).
    assert (Hrf : ret_fds (unpiped i) true ra = inr ++ [x]).
    { assert (P1x : pipefd ra 1 = [x]) by (unfold pipefd; now rewrite Er, Ep).
      unfold ret_fds, reqs, inr. destruct i; cbn; rewrite P1x; [reflexivity|reflexivity|].
      rewrite !app_nil_r. reflexivity. }
    rewrite Hrf in Hpt.
    assert (E01 : ext (s_tab s) (s_tab s1) (x :: inr ++ items_fds ia)).
    { eapply ext_perm; [|exact Hpt]. rewrite <- app_assoc. cbn. symmetry. apply Permutation_middle. }
    assert (Hx0 : tget (s_tab s) x = None) by (apply (proj1 (proj2 E01)); now left).
    assert (Hx2 : 2 < x).
    { destruct (le_lt_dec x 2) as [Z|Z]; [exfalso; now apply (pre_std _ _ _ _ _ _ HP x Z)|exact Z]. }
    assert (Hxs : ~ In x (source_ints (borrow rs))).
    { intros X. apply (abs_open _ _ _ (pre_abs _ _ _ _ _ _ HPb)) in X. congruence. }
    assert (HPb1 : Pre L (unpiped i) o (s_tab s1) (borrow rs) e).
    { eapply Pre_frame; [exact HPb|]. intros n Hn. now apply (ext_keep _ _ _ n E01). }
    apply hp_bind. eapply hp_rlift; [eapply pipe_of_std; [reflexivity|exact Er|exact Ep]|]. cbv beta.
    apply hp_bind. eapply hp_rlift; [now apply with_stdin_fd|]. cbv beta.
    rewrite Ek. rewrite <- Hnp, <- Hnt.
    assert (HPf : Pre L IPiped o (s_tab s1) (dset (borrow rs) 0 (fed x)) (feed_stdin e k)).
    { eapply Pre_feed; [exact HPb1|exact Hxs|exact Hx2|]. unfold refers. now rewrite Et. }
    apply hp_bind. eapply hp_mono; [apply (IHb IPiped o s1 _ _ HPf Cb)|].
    intros s2 [ob ib] [rb [E2 [Wb [B0 [B1 [Hnp2 [Hnt2 [Hit2 [Hret2 Hpt2]]]]]]]]]. cbn [fst snd] in *. subst ob.
    set (wb := wire b (feed_stdin e k) (s_np s1) (s_nt s1)) in *.
    assert (Hpt2' : postt (s_tab s1) (s_tab s2) (ret_fds IPiped o rb ++ items_fds ib) [x]).
    { eapply postt_gone; [|exact Hpt2]. intros n. rewrite in_nbs. split.
      - intros [z [Hz [Hs Hb]]]. apply dset_values in Hz as [->|Hz].
        + cbn in Hs. injection Hs as ->. now left.
        + exfalso. assert (Y : In n (nbs (dvals (borrow rs)))) by (apply in_nbs; eauto). rewrite borrow_nbs in Y. exact Y.
      - intros [<-|[]]. exists (fed x). split; [|split; reflexivity].
        apply in_map_iff. exists (0, fed x). split; [reflexivity|]. apply dget_In. rewrite dget_dset. reflexivity. }
    destruct (ext_postt_consume _ _ _ _ _ _ E01 Hpt2') as [E02 KA].
    apply hp_bind. destruct (merge_total ra rb Wa Wb) as [m Em]. eapply hp_rlift; [exact Em|]. cbv beta.
    destruct (dget ra 0) as [i0|] eqn:Ei0; [|congruence]. destruct (dget rb 1) as [o1|] eqn:Eo1; [|congruence].
    apply hp_bind. eapply std_hp; [reflexivity|exact Ei0|].
    assert (Fi : r_fd i0 = 0 /\ r_source i0 <> SNone).
    { destruct Wa as [_ Hall]. rewrite Forall_forall in Hall. exact (Hall _ (dget_In _ _ _ Ei0)). }
    assert (Fo : r_fd o1 = 1 /\ r_source o1 <> SNone).
    { destruct Wb as [_ Hall]. rewrite Forall_forall in Hall. exact (Hall _ (dget_In _ _ _ Eo1)). }
    apply hp_bind. eapply hp_rlift; [apply register_ok; apply Fi|]. cbv beta.
    apply hp_bind. eapply std_hp; [reflexivity|exact Eo1|].
    apply hp_bind. eapply hp_rlift; [apply register_ok; apply Fo|]. cbv beta.
    rewrite (proj1 Fi), (proj1 Fo).
    apply hp_bind. eapply hp_mono.
    { apply close_hp; [apply HP|]. intros n Hn. apply nbs_ints in Hn.
      assert (X : tget (s_tab s) n <> None) by (eapply abs_open; [apply HP|exact Hn]).
      now rewrite (ext_keep _ _ _ n E02). }
    cbn beta. intros s3 _ [R [Hp3 Ht3]]. apply hp_ret.
    assert (PT : postt (s_tab s) (s_tab s3) ((inr ++ items_fds ia) ++ ret_fds IPiped o rb ++ items_fds ib) (nbs (dvals rs))).
    { eapply (ext_removed_post _ _ _ [] _ _ _ E02 R).
      - intros n. cbn. tauto.
      - intros n Hn. eapply abs_open; [apply HP|]. now apply nbs_ints. }
    assert (K23 : forall n, In n ((inr ++ items_fds ia) ++ ret_fds IPiped o rb ++ items_fds ib) ->
              tget (s_tab s3) n = tget (s_tab s2) n).
    { intros n Hn. rewrite R. destruct (in_dec Nat.eq_dec n (nbs (dvals rs))) as [X|]; [|reflexivity].
      exfalso. apply PT in Hn. destruct Hn as [_ Hn2]. rewrite R in Hn2.
      destruct (in_dec Nat.eq_dec n (nbs (dvals rs))); [congruence|contradiction]. }
    set (m2 := dset (dset m 0 i0) 1 o1).
    assert (G0 : dget m2 0 = Some i0) by (unfold m2; now rewrite !dget_dset).
    assert (G1 : dget m2 1 = Some o1) by (unfold m2; now rewrite !dget_dset).
    assert (P0 : pipefd m2 0 = pipefd ra 0) by (unfold pipefd; now rewrite G0, Ei0).
    assert (P1 : pipefd m2 1 = pipefd rb 1) by (unfold pipefd; now rewrite G1, Eo1).
    assert (Wm : wf_redirects m2).
    { pose proof (wf_new _ _ Em) as Hwm. unfold m2. rewrite <- (proj1 Fi) at 1. rewrite <- (proj1 Fo) at 1.
      apply wf_dset; [apply wf_dset; [exact Hwm|apply Fi]|apply Fo]. }
    assert (Hrm : ret_fds i o m2 = inr ++ ret_fds IPiped o rb).
    { unfold ret_fds, reqs, inr. rewrite flat_map_app. f_equal.
      - destruct i; cbn; [reflexivity|reflexivity|]. now rewrite P0.
      - destruct o; cbn; [|reflexivity]. now rewrite P1. }
    exists m2. cbn [fst snd w_np w_nt w_leaves w_in w_out].
    split; [reflexivity|]. split; [exact Wm|]. split; [rewrite G0; discriminate|]. split; [rewrite G1; discriminate|].
    split; [congruence|]. split; [congruence|]. split; [|split].
    - apply Forall2_app.
      + eapply items_ok_keep; [|exact Hit]. intros n Hn Ho.
        rewrite K23 by (apply in_app_iff; left; apply in_app_iff; auto). apply KA. apply in_app_iff; auto.
      + eapply items_ok_keep; [|exact Hit2]. intros n Hn _. apply K23.
        apply in_app_iff; right; apply in_app_iff; auto.
    - split.
      + destruct i; [exact Hri|exact Hri|]. destruct Hri as [k0 [X1 [r [y [X2 [X3 X4]]]]]].
        exists k0. split; [exact X1|]. exists r, y. rewrite Ei0 in X2. injection X2 as <-.
        split; [exact G0|]. split; [exact X3|].
        assert (Hy : In y inr).
        { unfold inr. cbn. unfold pipefd. rewrite Ei0, X3. now left. }
        rewrite K23 by (apply in_app_iff; left; apply in_app_iff; auto).
        rewrite KA by (apply in_app_iff; auto). exact X4.
      + destruct Hret2 as [_ Hro]. destruct o; [|exact Hro].
        destruct Hro as [k0 [X1 [r [y [X2 [X3 X4]]]]]].
        exists k0. split; [exact X1|]. exists r, y. rewrite Eo1 in X2. injection X2 as <-.
        split; [exact G1|]. split; [exact X3|].
        rewrite K23; [exact X4|]. apply in_app_iff; right. apply in_app_iff; left.
        unfold ret_fds, reqs. cbn. unfold pipefd. rewrite Eo1, X3. now left.
    - rewrite Hrm. unfold items_fds. rewrite flat_map_app. fold (items_fds ia) (items_fds ib).
      eapply postt_perm; [|exact PT]. rewrite <- !app_assoc. apply Permutation_app_head.
      rewrite !app_assoc. apply Permutation_app_tail. apply Permutation_app_comm.
  Qed.

  Theorem run_hp p : run_spec L pollable_file p.
  Proof.
    induction p as [args HF|b|a b IHa IHb|a b IHa IHb|q rs IH|] using pl_ind'.
    - now apply run_cmd_hp.
    - apply run_fun_hp.
    - now apply run_pipe_hp.
    - now apply run_group_hp.
    - now apply run_redir_hp.
    - intros i o s rs e _ [].
  Qed.
End Top.
