(** Proofs about the child side of redirection. *)
From Verif Require Import Py RedirModel RedirProofs Os PerformModel PerformSpec.

Definition ints (l : list redirect) : list nat :=
  flat_map (fun r => match r_source r with SInt n => [n] | _ => [] end) l.

Lemma in_ints l n : In n (ints l) <-> exists r, In r l /\ r_source r = SInt n.
Proof.
  unfold ints. rewrite in_flat_map. split; intros [r [Hr H]]; exists r; split; auto.
  - destruct (r_source r); cbn in H; try tauto. destruct H as [->|[]]. reflexivity.
  - rewrite H. cbn. auto.
Qed.

(** Descriptors after a move: int sources now live at b, b+1, ... *)
Fixpoint moved (l : list redirect) (b : nat) : list redirect :=
  match l with
  | [] => []
  | r :: l' => match r_source r with SInt _ => set_source r (SInt b) | _ => r end :: moved l' (b + 1)
  end.

Section P.
  Variable L : limits.

  Lemma move_loop_spec l : forall b t,
    (forall n, In n (ints l) -> tget t n <> None /\ n < b) ->
    NoDup (ints l) -> b + List.length l <= lim L ->
    exists t',
      move_loop L l b t = (t', Ok (moved l b)) /\
      (forall i r s, nth_error l i = Some r -> r_source r = SInt s ->
         tget t' (b + i) = option_map (fun e => mkEnt (e_ofd e) false) (tget t s)) /\
      (forall n, ~ In n (ints l) -> (n < b \/ b + List.length l <= n) -> tget t' n = tget t n) /\
      (forall n, In n (ints l) -> tget t' n = None).
  Proof.
    induction l as [|r l IH]; intros b t Hopen Hnd Hlim.
    { exists t. cbn. split; [reflexivity|]. split; [intros [|i] r s H; discriminate|]. split; [auto|tauto]. }
    cbn [List.length] in Hlim.
    destruct (r_source r) as [|s|p| | | |] eqn:Es.
    2:{ (* int source *)
      assert (Hi : ints (r :: l) = s :: ints l) by (unfold ints; cbn; rewrite Es; reflexivity).
      rewrite Hi in *. inversion Hnd as [|? ? Hns Hnd']; subst.
      destruct (Hopen s (or_introl eq_refl)) as [Hs Hsb].
      destruct (tget t s) as [e|] eqn:Ee; [|congruence].
      set (t1 := tset (tset t b (Some (mkEnt (e_ofd e) false))) s None).
      assert (G1 : forall n, tget t1 n = if n =? s then None else if n =? b then Some (mkEnt (e_ofd e) false) else tget t n).
      { intros n. unfold t1. now rewrite !tget_tset. }
      destruct (IH (b + 1) t1) as [t' [Hm [Ha [Hc Hd]]]].
      - intros n Hn. destruct (Hopen n (or_intror Hn)) as [H1 H2]. split; [|lia].
        rewrite G1. destruct (Nat.eqb_spec n s); [subst; contradiction|].
        destruct (Nat.eqb_spec n b); [lia|exact H1].
      - exact Hnd'.
      - lia.
      - exists t'. split; [|split; [|split]].
        + cbn. rewrite Es. unfold redirect_move. rewrite Es. unfold tbind, os_dup2, os_close, tret.
          rewrite Ee. replace (b <? lim L) with true by (symmetry; apply Nat.ltb_lt; lia).
          rewrite tget_tset. destruct (Nat.eqb_spec s b); [lia|]. rewrite Ee.
          fold t1. rewrite Hm. reflexivity.
        + intros i r0 s0 Hn Hs0. destruct i as [|i]; cbn in Hn.
          * injection Hn as <-. rewrite Es in Hs0. injection Hs0 as <-.
            rewrite Nat.add_0_r. rewrite Hc.
            -- rewrite G1. destruct (Nat.eqb_spec b s); [lia|].
               rewrite Nat.eqb_refl, Ee. reflexivity.
            -- intros Hin. apply (fun H => proj2 (Hopen b (or_intror H))) in Hin. lia.
            -- left. lia.
          * replace (b + S i) with (b + 1 + i) by lia. rewrite (Ha i r0 s0 Hn Hs0).
            assert (Hin : In s0 (ints l)).
            { apply in_ints. exists r0. split; [|exact Hs0]. eapply nth_error_In; eauto. }
            rewrite G1. destruct (Nat.eqb_spec s0 s); [subst; contradiction|].
            destruct (Nat.eqb_spec s0 b); [|reflexivity].
            apply (fun H => proj2 (Hopen s0 (or_intror H))) in Hin. lia.
        + intros n Hn Hr. cbn [List.length] in Hr. rewrite Hc.
          * rewrite G1. destruct (Nat.eqb_spec n s); [subst; exfalso; apply Hn; now left|].
            destruct (Nat.eqb_spec n b); [lia|reflexivity].
          * intros H. apply Hn. now right.
          * lia.
        + intros n [->|Hn]; [|now apply Hd].
          destruct (in_dec Nat.eq_dec n (ints l)) as [Hin|Hin]; [contradiction|].
          rewrite Hc; [|exact Hin|left; lia]. rewrite G1, Nat.eqb_refl. reflexivity. }
    all: assert (Hi : ints (r :: l) = ints l) by (unfold ints; cbn; rewrite Es; reflexivity);
      rewrite Hi in *;
      destruct (IH (b + 1) t) as [t' [Hm [Ha [Hc Hd]]]];
      [intros n Hn; destruct (Hopen n Hn); split; [assumption|lia]|exact Hnd|lia|];
      exists t'; (split; [|split; [|split]]);
      [ cbn; rewrite Es; unfold redirect_move; rewrite Es; unfold tbind, tret; rewrite Hm; reflexivity
      | intros i r0 s0 Hn Hs0; destruct i as [|i]; cbn in Hn; [injection Hn as <-; congruence|];
        replace (b + S i) with (b + 1 + i) by lia; apply (Ha i r0 s0 Hn Hs0)
      | intros n Hn Hr; cbn [List.length] in Hr; apply Hc; [exact Hn|lia]
      | exact Hd ].
  Qed.

  Lemma moved_fd l b : map r_fd (moved l b) = map r_fd l.
  Proof.
    revert b. induction l as [|r l IH]; cbn; intros b; [reflexivity|]. rewrite IH.
    destruct (r_source r); reflexivity.
  Qed.

  Lemma perform_loop_spec l : forall b t,
    (forall i r s, nth_error l i = Some r -> r_source r = SInt s -> tget t (b + i) <> None) ->
    (forall r, In r l -> exists s, r_source r = SInt s \/
        exists p, r_source r = SPath p /\ can_open L p (r_flag r) = true /\ tget t (r_fd r) <> None) ->
    NoDup (map r_fd l) -> (forall r, In r l -> r_fd r < b) -> b + List.length l <= lim L ->
    ((exists r p, In r l /\ r_source r = SPath p) ->
       exists j, j < lim L /\ tget t j = None /\ ~ In j (map r_fd l) /\ (j < b \/ b + List.length l <= j)) ->
    exists t',
      perform_loop L (moved l b) t = (t', Ok tt) /\
      (forall i r, nth_error l i = Some r ->
         tget t' (r_fd r) =
         match r_source r with
         | SInt _ => option_map (fun e => mkEnt (e_ofd e) false) (tget t (b + i))
         | SPath p => Some (mkEnt (OFile p (r_flag r)) false)
         | _ => None
         end) /\
      (forall n, ~ In n (map r_fd l) -> (n < b \/ b + List.length l <= n) -> tget t' n = tget t n).
  Proof.
    induction l as [|r l IH]; intros b t Hslot Hsrc Hnd Hlt Hlim Hspare.
    { exists t. cbn. repeat split; auto. intros i r H. destruct i; discriminate. }
    cbn [List.length map] in *. inversion Hnd as [|? ? Hnf Hnd']; subst.
    assert (Hfb : r_fd r < b) by (apply Hlt; now left).
    assert (STEP : exists t1 o, redirect_perform L (match r_source r with SInt _ => set_source r (SInt b) | _ => r end) t = (t1, Ok tt) /\
       (forall n, n <> b -> tget t1 n = if n =? r_fd r then Some (mkEnt o false) else tget t n) /\
       Some (mkEnt o false) = match r_source r with
         | SInt _ => option_map (fun e => mkEnt (e_ofd e) false) (tget t (b + 0))
         | SPath p => Some (mkEnt (OFile p (r_flag r)) false)
         | _ => None
         end).
    { destruct (Hsrc r (or_introl eq_refl)) as [s [Hs|[p [Hp [Hco Hto]]]]].
      - rewrite Hs. assert (Hb : tget t (b + 0) <> None) by (eapply Hslot; [reflexivity|exact Hs]).
        rewrite Nat.add_0_r in *. destruct (tget t b) as [e|] eqn:Eb; [|congruence].
        unfold redirect_perform, redirect_open. cbn [r_source set_source r_fd].
        unfold tbind, tret, os_dup2, os_close.
        destruct (Nat.eqb_spec b (r_fd r)); [lia|]. rewrite Eb.
        replace (r_fd r <? lim L) with true by (symmetry; apply Nat.ltb_lt; lia).
        rewrite tget_tset. destruct (Nat.eqb_spec b (r_fd r)); [lia|]. rewrite Eb.
        eexists _, (e_ofd e). split; [reflexivity|]. split; [|reflexivity].
        intros m Hm. rewrite !tget_tset. destruct (Nat.eqb_spec m b); [congruence|reflexivity].
      - rewrite Hp. unfold redirect_perform, redirect_open. rewrite Hp.
        unfold tbind, tret, os_open, os_alloc, os_dup2, os_close. rewrite Hco.
        destruct Hspare as [j [Hj [Hjn _]]]; [exists r, p; split; [now left|exact Hp]|].
        pose proof (lowest_le t j Hjn) as Hlow.
        replace (lowest t <? lim L) with true by (symmetry; apply Nat.ltb_lt; lia).
        pose proof (tget_lowest t) as Hfree.
        assert (Hne : lowest t <> r_fd r) by (intros E; rewrite E in Hfree; congruence).
        destruct (Nat.eqb_spec (lowest t) (r_fd r)); [congruence|].
        rewrite tget_tset, Nat.eqb_refl. cbn [e_ofd].
        replace (r_fd r <? lim L) with true by (symmetry; apply Nat.ltb_lt; lia).
        rewrite tget_tset. destruct (Nat.eqb_spec (lowest t) (r_fd r)); [congruence|].
        rewrite tget_tset, Nat.eqb_refl.
        eexists _, (OFile p (r_flag r)). split; [reflexivity|]. split; [|reflexivity].
        intros m Hm. rewrite !tget_tset.
        destruct (Nat.eqb_spec m (lowest t)) as [->|]; [|reflexivity].
        destruct (Nat.eqb_spec (lowest t) (r_fd r)); congruence. }
    destruct STEP as [t1 [o [Hstep [Hget Ho]]]].
    assert (Hkeep : forall x, In x l -> tget t1 (r_fd x) = tget t (r_fd x)).
    { intros x Hx. rewrite Hget; [|specialize (Hlt x (or_intror Hx)); lia].
      destruct (Nat.eqb_spec (r_fd x) (r_fd r)) as [E|]; [|reflexivity].
      exfalso. apply Hnf. rewrite <- E. now apply in_map. }
    destruct (IH (b + 1) t1) as [t' [Hp' [Ha Hc]]].
    - intros i x s Hx Hs. rewrite Hget by lia.
      destruct (Nat.eqb_spec (b + 1 + i) (r_fd r)); [lia|].
      replace (b + 1 + i) with (b + S i) by lia. eapply Hslot; [exact Hx|exact Hs].
    - intros x Hx. rewrite (Hkeep x Hx). apply Hsrc. now right.
    - exact Hnd'.
    - intros x Hx. specialize (Hlt x (or_intror Hx)). lia.
    - lia.
    - intros [x [p [Hx Hp]]]. destruct Hspare as [j [Hj [Hjn [Hjf Hjr]]]].
      { exists x, p. split; [now right|exact Hp]. }
      exists j. repeat split; auto; [|intros H; apply Hjf; now right|lia].
      rewrite Hget by lia. destruct (Nat.eqb_spec j (r_fd r)) as [->|]; [|exact Hjn].
      exfalso. apply Hjf. now left.
    - exists t'. split; [|split].
      + cbn. unfold tbind. rewrite Hstep. exact Hp'.
      + intros i x Hx. destruct i as [|i]; cbn in Hx.
        * injection Hx as <-. rewrite Hc; [|exact Hnf|left; lia].
          rewrite Hget by lia. rewrite Nat.eqb_refl. exact Ho.
        * rewrite (Ha i x Hx). replace (b + 1 + i) with (b + S i) by lia.
          rewrite Hget by lia. destruct (Nat.eqb_spec (b + S i) (r_fd r)); [lia|reflexivity].
      + intros n Hn Hr. rewrite Hc; [|intros H; apply Hn; now right|lia].
        rewrite Hget by lia. destruct (Nat.eqb_spec n (r_fd r)) as [->|]; [|reflexivity].
        exfalso. apply Hn. now left.
  Qed.

  Lemma close_loop_get logfd rs n : forall i t m,
    tget (close_loop logfd rs i n t) m =
    if (i <=? m) && (m <? i + n) && negb (dmem rs m) && negb (m =? logfd) then None else tget t m.
  Proof.
    induction n as [|n IH]; intros i t m.
    - cbn [close_loop]. replace ((i <=? m) && (m <? i + 0)) with false; [reflexivity|].
      destruct (Nat.leb_spec i m), (Nat.ltb_spec m (i + 0)); try reflexivity; lia.
    - cbn [close_loop]. rewrite IH.
      assert (Hc : tget (if dmem rs i then t else if i =? logfd then t else fst (os_close i t)) m
                   = if (m =? i) && negb (dmem rs i) && negb (i =? logfd) then None else tget t m).
      { destruct (dmem rs i); cbn; [now rewrite andb_false_r|].
        destruct (i =? logfd); cbn; [now rewrite andb_false_r|]. rewrite !andb_true_r.
        unfold os_close. destruct (tget t i) eqn:E; cbn.
        - apply tget_tset.
        - destruct (Nat.eqb_spec m i); congruence. }
      rewrite Hc. clear Hc. destruct (Nat.eqb_spec m i) as [Heq|Hne].
      + subst m. replace (S i <=? i) with false by (symmetry; apply Nat.leb_gt; lia).
        replace (i <=? i) with true by (symmetry; apply Nat.leb_le; lia).
        replace (i <? i + S n) with true by (symmetry; apply Nat.ltb_lt; lia).
        cbn. reflexivity.
      + rewrite !andb_false_l.
        replace (S i <=? m) with (i <=? m).
        2:{ destruct (Nat.leb_spec i m), (Nat.leb_spec (S i) m); try reflexivity; lia. }
        replace (m <? i + S n) with (m <? S i + n) by (f_equal; lia). reflexivity.
  Qed.

  Lemma ints_dvals rs : ints (dvals rs) = source_ints rs.
  Proof. reflexivity. Qed.

  Theorem perform_correct logfd maxfd rs t :
    performable L logfd rs t ->
    exists t',
      perform L logfd maxfd rs t = (t', None) /\
      (forall n r, dget rs n = Some r -> tget t' n = option_map (fun o => mkEnt o false) (wanted t r)) /\
      (forall n r, dget rs n = Some r -> wanted t r <> None) /\
      (forall n, dget rs n = None -> n <> logfd -> n < maxfd -> tget t' n = None) /\
      tget t' logfd = tget t logfd.
  Proof.
    intros [Hwf Hsrc Hdist Hroom Hlog Hspare]. set (F := find_free_fd rs) in *.
    destruct (find_free_fd_above rs) as [_ [HF1 HF2]]. fold F in HF1, HF2.
    assert (Hlen : List.length (dvals rs) = List.length rs) by apply map_length.
    assert (HfdF : forall r, In r (dvals rs) -> r_fd r < F).
    { intros r Hr. apply in_map_iff in Hr as [[k x] [E Hk]]. cbn in E. subst x. now apply HF1 in Hk. }
    assert (HsF : forall n, In n (ints (dvals rs)) -> n < F).
    { intros n Hn. apply in_ints in Hn as [r [Hr Hs]].
      apply in_map_iff in Hr as [[k x] [E Hk]]. cbn in E. subst x. eapply HF2; eauto. }
    assert (Hkeys : map r_fd (dvals rs) = dkeys rs).
    { destruct Hwf as [_ Hall]. unfold dvals, dkeys. rewrite map_map. apply map_ext_in.
      intros x Hx. rewrite Forall_forall in Hall. now apply Hall in Hx. }
    destruct (move_loop_spec (dvals rs) F t) as [t1 [Hm [Ha [Hc Hd]]]].
    - intros n Hn. split; [|now apply HsF]. apply in_ints in Hn as [r [Hr Hs]].
      destruct (Hsrc r Hr) as [[m [Hm Ho]]|[p [Hp _]]]; [|congruence].
      rewrite Hs in Hm. injection Hm as <-. exact Ho.
    - exact Hdist.
    - rewrite Hlen. exact Hroom.
    - destruct (perform_loop_spec (dvals rs) F t1) as [t2 [Hp [Hpa Hpc]]].
      + intros i r s Hi Hs. rewrite (Ha i r s Hi Hs).
        apply nth_error_In in Hi. destruct (Hsrc r Hi) as [[m [Hm' Ho]]|[p [Hp _]]]; [|congruence].
        rewrite Hs in Hm'. injection Hm' as <-. destruct (tget t s); [discriminate|congruence].
      + intros r Hr. destruct (Hsrc r Hr) as [[m [Hm' Ho]]|[p [Hp [Hco [Hto Hni]]]]].
        * exists m. now left.
        * exists 0. right. exists p. repeat split; auto. rewrite Hc; auto.
      + rewrite Hkeys. apply Hwf.
      + exact HfdF.
      + rewrite Hlen. exact Hroom.
      + intros Hex. destruct (Hspare Hex) as [j [Hj1 [Hj2 Hj3]]]. exists j.
        split; [exact Hj2|]. split; [|split].
        * rewrite Hc; [exact Hj3| |right; rewrite Hlen; exact Hj1].
          intros Hin. apply HsF in Hin. lia.
        * intros Hin. apply in_map_iff in Hin as [r [E Hr]]. apply HfdF in Hr. lia.
        * right. rewrite Hlen. exact Hj1.
      + exists (close_loop logfd rs 0 maxfd t2). split; [|split; [|split; [|split]]].
        * unfold perform, move_existing_fds. fold F. unfold tbind.
          rewrite Hm. rewrite Hp. reflexivity.
        * intros n r Hn. rewrite close_loop_get.
          assert (Hmem : dmem rs n = true) by (unfold dmem; now rewrite Hn).
          rewrite Hmem. cbn. rewrite andb_false_r. cbn.
          assert (Hin : In r (dvals rs)).
          { apply dget_In in Hn. apply in_map_iff. now exists (n, r). }
          assert (Hnr : r_fd r = n).
          { apply dget_In in Hn. destruct Hwf as [_ Hall]. rewrite Forall_forall in Hall.
            now apply Hall in Hn. }
          destruct (In_nth_error _ _ Hin) as [i Hi]. rewrite <- Hnr. rewrite (Hpa i r Hi).
          unfold wanted. destruct (Hsrc r Hin) as [[m [Hs Ho]]|[p [Hs _]]]; rewrite Hs; [|reflexivity].
          rewrite (Ha i r m Hi Hs). destruct (tget t m); reflexivity.
        * intros n r Hn. apply dget_In in Hn.
          assert (Hin : In r (dvals rs)) by (apply in_map_iff; now exists (n, r)).
          unfold wanted. destruct (Hsrc r Hin) as [[m [Hs Ho]]|[p [Hs _]]]; rewrite Hs; [|discriminate].
          destruct (tget t m); [discriminate|congruence].
        * intros n Hn Hl Hx. rewrite close_loop_get. unfold dmem. rewrite Hn.
          replace (0 <=? n) with true by reflexivity.
          replace (n <? 0 + maxfd) with true by (symmetry; apply Nat.ltb_lt; lia).
          replace (n =? logfd) with false by (symmetry; now apply Nat.eqb_neq). reflexivity.
        * rewrite close_loop_get, Nat.eqb_refl, andb_false_r.
          rewrite Hpc.
          -- apply Hc; [|right; rewrite Hlen; exact Hlog]. intros Hin. apply HsF in Hin. lia.
          -- intros Hin. apply in_map_iff in Hin as [r [E Hr]]. apply HfdF in Hr. lia.
          -- right. rewrite Hlen. exact Hlog.
  Qed.
End P.
