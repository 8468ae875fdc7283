(** More about the child side of redirection: what a child that reports no
    error has done, and what happens when it does report one. *)
From Verif Require Import Py RedirModel RedirProofs Os PerformModel PerformSpec PerformProofs.

Section S.
  Variable L : limits.

  Lemma redirect_move_inv r fd t t' r' :
    redirect_move L r fd t = (t', Ok r') ->
    (exists s e, r_source r = SInt s /\ tget t s = Some e /\ fd < lim L /\
       r' = set_source r (SInt fd) /\
       (forall n, tget t' n = if n =? s then None else if n =? fd then Some (mkEnt (e_ofd e) false) else tget t n)) \/
    ((forall s, r_source r <> SInt s) /\ r' = r /\ t' = t).
  Proof.
    unfold redirect_move. destruct (r_source r) as [|s|p| | | |] eqn:Es; unfold tbind, tret, os_dup2, os_close.
    2:{ destruct (tget t s) as [e|] eqn:Ee; [|discriminate].
      destruct (Nat.ltb_spec fd (lim L)) as [Hl|]; [|discriminate].
      rewrite tget_tset. intros H. left. exists s, e.
      destruct (Nat.eqb_spec s fd) as [->|Hne].
      - injection H as <- <-. repeat split; auto. intros n. rewrite !tget_tset. reflexivity.
      - rewrite Ee in H. injection H as <- <-. repeat split; auto. intros n. rewrite !tget_tset. reflexivity. }
    all: intros H; right; injection H as <- <-; repeat split; auto; intros s E; discriminate.
  Qed.

  Lemma redirect_move_err r fd t t' e :
    redirect_move L r fd t = (t', Err e) -> e = OSError EBADF /\
      (forall n, n <> fd -> r_source r <> SInt n -> tget t' n = tget t n).
  Proof.
    unfold redirect_move. destruct (r_source r) as [|s|p| | | |] eqn:Es; unfold tbind, tret, os_dup2, os_close;
      try discriminate.
    destruct (tget t s) as [e0|] eqn:Ee.
    2:{ intros H. injection H as <- <-. split; auto. }
    destruct (fd <? lim L).
    2:{ intros H. injection H as <- <-. split; auto. }
    rewrite tget_tset. destruct (Nat.eqb_spec s fd) as [->|Hne].
    { discriminate. }
    rewrite Ee. discriminate.
  Qed.

  Lemma move_loop_sound l : forall b t t' l',
    (forall n, In n (ints l) -> n < b) ->
    move_loop L l b t = (t', Ok l') ->
    l' = moved l b /\ NoDup (ints l) /\ (forall n, In n (ints l) -> tget t n <> None) /\
    (forall i r s, nth_error l i = Some r -> r_source r = SInt s ->
         tget t' (b + i) = option_map (fun e => mkEnt (e_ofd e) false) (tget t s)) /\
    (forall n, ~ In n (ints l) -> (n < b \/ b + List.length l <= n) -> tget t' n = tget t n) /\
    (forall n, In n (ints l) -> tget t' n = None).
  Proof.
    induction l as [|r l IH]; intros b t t' l' Hb H.
    { cbn in H. injection H as <- <-. cbn. repeat split; auto; try constructor; try tauto.
      intros [|i] r s E; discriminate. }
    cbn in H. unfold tbind in H.
    destruct (redirect_move L r b t) as [t1 [r'|e]] eqn:Em; [|discriminate].
    destruct (move_loop L l (b + 1) t1) as [t2 [rest|e]] eqn:El; [|discriminate].
    cbn in H. injection H as <- <-.
    destruct (redirect_move_inv _ _ _ _ _ Em) as [[s [e [Es [Ee [Hl [-> Hg]]]]]]|[Hns [-> ->]]].
    - assert (Hi : ints (r :: l) = s :: ints l) by (unfold ints; cbn; rewrite Es; reflexivity).
      rewrite Hi in *. assert (Hsb : s < b) by (apply Hb; now left).
      destruct (IH (b + 1) t1 t2 rest) as [-> [Hnd [Hop [Ha [Hc Hd]]]]]; [|exact El|].
      { intros n Hn. specialize (Hb n (or_intror Hn)). lia. }
      assert (Hns : ~ In s (ints l)).
      { intros Hin. apply Hop in Hin. rewrite Hg, Nat.eqb_refl in Hin. congruence. }
      split; [cbn; rewrite Es; reflexivity|]. split; [constructor; assumption|].
      split; [|split; [|split]].
      + intros n [<-|Hn]; [congruence|]. specialize (Hop n Hn). rewrite Hg in Hop.
        destruct (Nat.eqb_spec n s); [congruence|].
        destruct (Nat.eqb_spec n b); [|exact Hop]. specialize (Hb n (or_intror Hn)). lia.
      + intros i r0 s0 Hn Hs0. destruct i as [|i]; cbn in Hn.
        * injection Hn as <-. rewrite Es in Hs0. injection Hs0 as <-.
          rewrite Nat.add_0_r. rewrite Hc; [|intros Hin; specialize (Hb b (or_intror Hin)); lia|left; lia].
          rewrite Hg. destruct (Nat.eqb_spec b s); [lia|]. rewrite Nat.eqb_refl, Ee. reflexivity.
        * replace (b + S i) with (b + 1 + i) by lia. rewrite (Ha i r0 s0 Hn Hs0).
          assert (Hin : In s0 (ints l)) by (apply in_ints; exists r0; split; [eapply nth_error_In; eauto|exact Hs0]).
          rewrite Hg. destruct (Nat.eqb_spec s0 s); [subst; contradiction|].
          destruct (Nat.eqb_spec s0 b); [|reflexivity]. specialize (Hb s0 (or_intror Hin)). lia.
      + intros n Hn Hr. cbn [List.length] in Hr. rewrite Hc; [|intros Hx; apply Hn; now right|lia].
        rewrite Hg. destruct (Nat.eqb_spec n s); [subst; exfalso; apply Hn; now left|].
        destruct (Nat.eqb_spec n b); [lia|reflexivity].
      + intros n [<-|Hn]; [|now apply Hd]. rewrite Hc; [|exact Hns|left; lia].
        rewrite Hg, Nat.eqb_refl. reflexivity.
    - assert (Hi : ints (r :: l) = ints l).
      { unfold ints; cbn. destruct (r_source r) as [|s|p| | | |] eqn:Es; try reflexivity.
        exfalso. apply (Hns s). reflexivity. }
      rewrite Hi in *.
      destruct (IH (b + 1) t t2 rest) as [-> [Hnd [Hop [Ha [Hc Hd]]]]]; [|exact El|].
      { intros n Hn. specialize (Hb n Hn). lia. }
      split.
      { cbn. destruct (r_source r) as [|s|p| | | |] eqn:Es; try reflexivity. exfalso. now apply (Hns s). }
      split; [exact Hnd|]. split; [exact Hop|]. split; [|split].
      + intros i r0 s0 Hn Hs0. destruct i as [|i]; cbn in Hn.
        * injection Hn as <-. exfalso. now apply (Hns s0).
        * replace (b + S i) with (b + 1 + i) by lia. now apply (Ha i r0 s0).
      + intros n Hn Hr. cbn [List.length] in Hr. apply Hc; [exact Hn|lia].
      + exact Hd.
  Qed.

  Lemma move_loop_err l : forall b t t' e,
    move_loop L l b t = (t', Err e) ->
    e = OSError EBADF /\ (forall n, ~ In n (ints l) -> n < b -> tget t' n = tget t n).
  Proof.
    induction l as [|r l IH]; intros b t t' e H; cbn in H; [discriminate|].
    unfold tbind in H.
    destruct (redirect_move L r b t) as [t1 [r'|e1]] eqn:Em.
    - destruct (move_loop L l (b + 1) t1) as [t2 [rest|e2]] eqn:El; [discriminate|].
      injection H as <- <-. destruct (IH _ _ _ _ El) as [-> Hf]. split; [reflexivity|].
      intros n Hn Hb.
      assert (Hi : incl (ints l) (ints (r :: l))).
      { intros x Hx. apply in_ints in Hx as [r0 [Hr0 Hs0]]. apply in_ints. exists r0. split; [now right|exact Hs0]. }
      rewrite Hf; [|intros Hx; apply Hn; now apply Hi|lia].
      destruct (redirect_move_inv _ _ _ _ _ Em) as [[s [e [Es [Ee [Hl [-> Hg]]]]]]|[Hns [-> ->]]]; [|reflexivity].
      rewrite Hg. destruct (Nat.eqb_spec n s) as [->|].
      + exfalso. apply Hn. apply in_ints. exists r. split; [now left|exact Es].
      + destruct (Nat.eqb_spec n b); [lia|reflexivity].
    - injection H as <- <-. destruct (redirect_move_err _ _ _ _ _ Em) as [-> Hf]. split; [reflexivity|].
      intros n Hn Hb. apply Hf; [lia|]. intros Es. apply Hn. apply in_ints. exists r. split; [now left|exact Es].
  Qed.

  (** The outcome of one performed redirect whose source was moved to [b]. *)
  Lemma redirect_perform_sound r b t t1 :
    r_fd r < b ->
    redirect_perform L (match r_source r with SInt _ => set_source r (SInt b) | _ => r end) t = (t1, Ok tt) ->
    exists o,
      (forall n, (n <> b \/ (forall s, r_source r <> SInt s)) ->
         tget t1 n = if n =? r_fd r then Some (mkEnt o false) else tget t n) /\
      match r_source r with
      | SInt _ => exists e, tget t b = Some e /\ o = e_ofd e
      | SPath p => o = OFile p (r_flag r) /\ can_open L p (r_flag r) = true
      | _ => False
      end.
  Proof.
    intros Hlt. unfold redirect_perform, redirect_open.
    destruct (r_source r) as [|s|p| | | |] eqn:Es; cbn [r_source set_source r_fd]; rewrite ?Es;
      unfold tbind, tret, traise, os_dup2, os_close; try discriminate.
    - destruct (Nat.eqb_spec b (r_fd r)) as [Hx|_]; [lia|].
      destruct (tget t b) as [e|] eqn:Eb; [|discriminate].
      destruct (r_fd r <? lim L); [|discriminate].
      rewrite tget_tset. destruct (Nat.eqb_spec b (r_fd r)) as [Hx|_]; [lia|]. rewrite Eb.
      intros H. injection H as <-. exists (e_ofd e). split; [|now exists e].
      intros n [Hn|Hn]; [|exfalso; now apply (Hn s)].
      rewrite !tget_tset. destruct (Nat.eqb_spec n b); [congruence|reflexivity].
    - unfold os_open, os_alloc, traise. destruct (can_open L p (r_flag r)) eqn:Eco; [|discriminate].
      destruct (lowest t <? lim L); [|discriminate].
      pose proof (tget_lowest t) as Hfree. remember (lowest t) as w eqn:Ew. clear Ew.
      destruct (Nat.eqb_spec w (r_fd r)) as [|Hne]; [discriminate|].
      rewrite tget_tset, Nat.eqb_refl. destruct (r_fd r <? lim L); [|discriminate].
      rewrite tget_tset. destruct (Nat.eqb_spec w (r_fd r)) as [Hx|_]; [congruence|].
      rewrite tget_tset, Nat.eqb_refl. intros H. injection H as <-.
      exists (OFile p (r_flag r)). split; [|auto].
      intros n _. rewrite !tget_tset. destruct (Nat.eqb_spec n w) as [->|]; [|reflexivity].
      rewrite Hfree. destruct (Nat.eqb_spec w (r_fd r)); [congruence|reflexivity].
  Qed.

  Lemma perform_loop_sound l : forall b t t',
    NoDup (map r_fd l) -> (forall r, In r l -> r_fd r < b) ->
    perform_loop L (moved l b) t = (t', Ok tt) ->
    (forall i r, nth_error l i = Some r ->
       match r_source r with
       | SInt _ => exists e, tget t (b + i) = Some e /\ tget t' (r_fd r) = Some (mkEnt (e_ofd e) false)
       | SPath p => tget t' (r_fd r) = Some (mkEnt (OFile p (r_flag r)) false) /\ can_open L p (r_flag r) = true
       | _ => False
       end) /\
    (forall n, ~ In n (map r_fd l) -> (n < b \/ b + List.length l <= n) -> tget t' n = tget t n).
  Proof.
    induction l as [|r l IH]; intros b t t' Hnd Hlt H.
    { cbn in H. injection H as <-. split; [intros [|i] r E; discriminate|auto]. }
    cbn [moved perform_loop] in H. unfold tbind in H.
    cbn [map] in Hnd. inversion Hnd as [|? ? Hnf Hnd']; subst.
    destruct (redirect_perform L _ t) as [t1 [[]|e]] eqn:Ep; [|discriminate].
    assert (Hfb : r_fd r < b) by (apply Hlt; now left).
    destruct (redirect_perform_sound r b t t1 Hfb Ep) as [o [Hg Ho]].
    destruct (IH (b + 1) t1 t' Hnd') as [Ha Hc]; [|exact H|].
    { intros x Hx. specialize (Hlt x (or_intror Hx)). lia. }
    assert (Hfd : tget t' (r_fd r) = Some (mkEnt o false)).
    { rewrite Hc; [|exact Hnf|left; lia]. rewrite Hg; [|left; lia]. now rewrite Nat.eqb_refl. }
    split.
    - intros i x Hx. destruct i as [|i]; cbn in Hx.
      + injection Hx as <-. rewrite Nat.add_0_r, Hfd.
        destruct (r_source r); try contradiction.
        * destruct Ho as [e [He ->]]. now exists e.
        * destruct Ho as [-> Hco]. auto.
      + specialize (Ha i x Hx). replace (b + 1 + i) with (b + S i) in Ha by lia.
        destruct (r_source x); try exact Ha.
        destruct Ha as [e [He1 He2]]. exists e. split; [|exact He2].
        rewrite Hg in He1 by (left; lia). destruct (Nat.eqb_spec (b + S i) (r_fd r)); [lia|exact He1].
    - intros n Hn Hr. cbn [List.length map] in *. rewrite Hc; [|intros Hx; apply Hn; now right|lia].
      rewrite Hg by (left; lia). destruct (Nat.eqb_spec n (r_fd r)) as [->|]; [|reflexivity].
      exfalso. apply Hn. now left.
  Qed.

  Lemma wf_bounds rs : wf_redirects rs ->
    (forall r, In r (dvals rs) -> r_fd r < find_free_fd rs) /\
    (forall n, In n (ints (dvals rs)) -> n < find_free_fd rs) /\
    map r_fd (dvals rs) = dkeys rs.
  Proof.
    intros [_ Hall]. destruct (find_free_fd_above rs) as [_ [HF1 HF2]]. split; [|split].
    - intros r Hr. apply in_map_iff in Hr as [[k x] [E Hk]]. cbn in E. subst x. now apply HF1 in Hk.
    - intros n Hn. apply in_ints in Hn as [r [Hr Hs]].
      apply in_map_iff in Hr as [[k x] [E Hk]]. cbn in E. subst x. eapply HF2; eauto.
    - unfold dvals, dkeys. rewrite map_map. apply map_ext_in.
      intros x Hx. rewrite Forall_forall in Hall. now apply Hall in Hx.
  Qed.

  Lemma wf_fd rs n r : wf_redirects rs -> dget rs n = Some r -> In r (dvals rs) /\ r_fd r = n.
  Proof.
    intros [_ Hall] H. apply dget_In in H. split.
    - apply in_map_iff. now exists (n, r).
    - rewrite Forall_forall in Hall. now apply Hall in H.
  Qed.

  (** If the child saw no error, it has exactly what was asked for, whatever
      the descriptor table, the redirects and the state of the file system. *)
  Theorem perform_sound logfd maxfd rs t t' :
    wf_redirects rs ->
    perform L logfd maxfd rs t = (t', None) ->
    (forall n r, dget rs n = Some r ->
       wanted t r <> None /\ tget t' n = option_map (fun o => mkEnt o false) (wanted t r)) /\
    (forall n, dget rs n = None -> n <> logfd -> n < maxfd -> tget t' n = None) /\
    NoDup (source_ints rs).
  Proof.
    intros Hwf. destruct (wf_bounds rs Hwf) as [HfdF [HsF Hkeys]].
    unfold perform, move_existing_fds, tbind.
    destruct (move_loop L (dvals rs) (find_free_fd rs) t) as [t1 [l|e]] eqn:Em; [|discriminate].
    destruct (move_loop_sound _ _ _ _ _ HsF Em) as [-> [Hnd [Hop [Ha [Hc Hd]]]]].
    destruct (perform_loop L (moved (dvals rs) (find_free_fd rs)) t1) as [t2 [[]|e]] eqn:Ep; [|discriminate].
    cbn. intros H. injection H as <-.
    destruct (perform_loop_sound (dvals rs) (find_free_fd rs) t1 t2) as [Hpa Hpc];
      [rewrite Hkeys; apply Hwf|exact HfdF|exact Ep|].
    split; [|split; [|exact Hnd]].
    - intros n r Hn. destruct (wf_fd _ _ _ Hwf Hn) as [Hin Hfd].
      destruct (In_nth_error _ _ Hin) as [i Hi]. specialize (Hpa i r Hi).
      rewrite close_loop_get. unfold dmem. rewrite Hn. cbn. rewrite andb_false_r. cbn.
      rewrite <- Hfd. unfold wanted.
      destruct (r_source r) as [|s|p| | | |] eqn:Es; try contradiction.
      + destruct Hpa as [e [He1 He2]]. rewrite (Ha i r s Hi Es) in He1.
        destruct (tget t s) as [e0|]; [|discriminate]. cbn in He1. injection He1 as <-.
        split; [discriminate|exact He2].
      + split; [discriminate|apply Hpa].
    - intros n Hn Hl Hx. rewrite close_loop_get. unfold dmem. rewrite Hn.
      replace (0 <=? n) with true by reflexivity.
      replace (n <? 0 + maxfd) with true by (symmetry; apply Nat.ltb_lt; lia).
      replace (n =? logfd) with false by (symmetry; now apply Nat.eqb_neq). reflexivity.
  Qed.

  (** Two redirects with the same source descriptor always fail, in every
      table: the error is swallowed, nothing is connected and nothing closed. *)
  Theorem perform_shared_source logfd maxfd rs t :
    wf_redirects rs -> ~ NoDup (source_ints rs) ->
    exists t', perform L logfd maxfd rs t = (t', Some (OSError EBADF)) /\
      (forall n, ~ In n (source_ints rs) -> n < find_free_fd rs -> tget t' n = tget t n).
  Proof.
    intros Hwf Hdup. destruct (wf_bounds rs Hwf) as [HfdF [HsF Hkeys]].
    unfold perform, move_existing_fds, tbind.
    destruct (move_loop L (dvals rs) (find_free_fd rs) t) as [t1 [l|e]] eqn:Em.
    - exfalso. apply Hdup. now destruct (move_loop_sound _ _ _ _ _ HsF Em) as [_ [Hnd _]].
    - destruct (move_loop_err _ _ _ _ _ Em) as [-> Hf]. exists t1. split; [reflexivity|exact Hf].
  Qed.

  (** A single file redirect whose target is the lowest free descriptor is
      never installed: the assertion fires and the file sits at the target with
      close-on-exec set, so the command does not see it. *)
  Theorem perform_file_at_lowest logfd maxfd r p t :
    r_source r = SPath p -> can_open L p (r_flag r) = true ->
    r_fd r = lowest t -> lowest t < lim L ->
    exists t', perform L logfd maxfd [(r_fd r, r)] t = (t', Some AssertionError) /\
      tget t' (r_fd r) = Some (mkEnt (OFile p (r_flag r)) true).
  Proof.
    intros Hs Hco Hfd Hl. unfold perform, move_existing_fds, dvals, tbind. cbn.
    unfold redirect_move. rewrite Hs. unfold tbind, tret. cbn.
    unfold redirect_perform, redirect_open. rewrite Hs. unfold tbind, os_open, os_alloc. rewrite Hco.
    replace (lowest t <? lim L) with true by (symmetry; now apply Nat.ltb_lt).
    rewrite Hfd, Nat.eqb_refl. cbn. eexists. split; [reflexivity|].
    rewrite tget_tset, Nat.eqb_refl. reflexivity.
  Qed.
End S.

(** What execve leaves of a table. *)
Lemma tget_exec t n : tget (exec_tab t) n =
  match tget t n with Some e => if e_cloexec e then None else Some e | None => None end.
Proof.
  Transparent tget. unfold tget, exec_tab. rewrite nth_error_map.
  destruct (nth_error t n) as [[e|]|]; cbn; try reflexivity. destruct (e_cloexec e); reflexivity.
  Opaque tget.
Qed.

Lemma merge_spec a b :
  wf_redirects a -> wf_redirects b ->
  exists c, merge a b = Ok c /\ wf_redirects c /\
    forall n, dget c n = match dget b n with Some r => Some r | None => dget a n end.
Proof.
  intros Ha Hb. destruct (merge_total a b Ha Hb) as [c Hc]. exists c. split; [exact Hc|].
  split; [exact (wf_new [IRedirects a; IRedirects b] c Hc)|]. intros n.
  exact (merge_in_force a b c n Ha Hb Hc).
Qed.

Lemma program_sees L logfd maxfd rs t t' n :
  wf_redirects rs -> perform L logfd maxfd rs t = (t', None) -> n <> logfd -> n < maxfd ->
  refers (exec_tab t') n = match dget rs n with Some r => wanted t r | None => None end.
Proof.
  intros Hwf H Hl Hm. destruct (perform_sound _ _ _ _ _ _ Hwf H) as [H1 [H2 _]].
  unfold refers. rewrite tget_exec. destruct (dget rs n) as [r|] eqn:E.
  - destruct (H1 n r E) as [_ ->]. destruct (wanted t r); reflexivity.
  - rewrite H2 by assumption. reflexivity.
Qed.

Lemma file_at_lowest L logfd maxfd r p t :
  r_source r = SPath p -> can_open L p (r_flag r) = true ->
  r_fd r = lowest t -> lowest t < lim L ->
  exists t', perform L logfd maxfd [(r_fd r, r)] t = (t', Some AssertionError) /\
    tget t' (r_fd r) = Some (mkEnt (OFile p (r_flag r)) true) /\
    refers (exec_tab t') (r_fd r) = None.
Proof.
  intros H1 H2 H3 H4. destruct (perform_file_at_lowest L logfd maxfd r p t H1 H2 H3 H4) as [t' [Ha Hb]].
  exists t'. split; [exact Ha|]. split; [exact Hb|]. unfold refers. rewrite tget_exec, Hb. reflexivity.
Qed.

Lemma file_redirect_ok L logfd maxfd rs t :
  performable L logfd rs t ->
  forall n r p, dget rs n = Some r -> r_source r = SPath p ->
  refers (exec_tab (fst (perform L logfd maxfd rs t))) n = Some (OFile p (r_flag r)).
Proof.
  intros H n r p Hn Hs. destruct (perform_correct L logfd maxfd rs t H) as [t' [E [H1 _]]].
  rewrite E. cbn [fst]. unfold refers. rewrite tget_exec, (H1 n r Hn). unfold wanted. rewrite Hs. reflexivity.
Qed.
