(** Proofs about starting pipelines, part 3: creating pipes and temporary
    files. *)
From Verif Require Import Py RedirModel RedirSpec RedirProofs Os PerformModel PerformSpec
  PerformProofs RunModel RunSpec RunProofs RunPre.
From Coq Require Import Permutation.

Ltac sp := repeat match goal with |- _ /\ _ => split end.

Section Make.
  Variable L : limits.

  Lemma os_pipe_hp s :
    hp (os_pipe L) s (fun s1 rw =>
      ext (s_tab s) (s_tab s1) [fst rw; snd rw] /\
      tget (s_tab s1) (fst rw) = Some (mkEnt (OPipeR (s_np s)) true) /\
      tget (s_tab s1) (snd rw) = Some (mkEnt (OPipeW (s_np s)) true) /\
      s_np s1 = S (s_np s) /\ s_nt s1 = s_nt s).
  Proof.
    unfold hp, os_pipe. set (r := lowest (s_tab s)).
    set (t1 := tset (s_tab s) r (Some (mkEnt (OPipeR (s_np s)) true))).
    set (w := lowest t1).
    destruct ((r <? lim L) && (w <? lim L)); [|left; reflexivity].
    cbn. assert (Hr : tget (s_tab s) r = None) by apply tget_lowest.
    assert (Hw : tget t1 w = None) by apply tget_lowest.
    assert (Hne : w <> r).
    { intros E. rewrite E in Hw. unfold t1 in Hw. rewrite tget_tset, Nat.eqb_refl in Hw. discriminate. }
    split; [|split; [|split; [|split; reflexivity]]].
    - change [r; w] with ([r] ++ [w]).
      apply (ext_trans (s_tab s) t1 _ [r] [w]); [now apply ext_alloc|now apply ext_alloc].
    - rewrite tget_tset. destruct (Nat.eqb_spec r w); [congruence|].
      unfold t1. rewrite tget_tset, Nat.eqb_refl. reflexivity.
    - rewrite tget_tset, Nat.eqb_refl. reflexivity.
  Qed.

  Lemma mkstemp_hp s :
    hp (mkstemp L) s (fun s1 nk =>
      ext (s_tab s) (s_tab s1) [fst nk] /\ snd nk = s_nt s /\
      tget (s_tab s1) (fst nk) = Some (mkEnt (OTmp (s_nt s)) true) /\
      s_np s1 = s_np s /\ s_nt s1 = S (s_nt s)).
  Proof.
    unfold hp, mkstemp. pose proof (tget_lowest (s_tab s)) as Hn. remember (lowest (s_tab s)) as n eqn:En. clear En.
    destruct (n <? lim L); [|left; reflexivity]. cbn.
    split; [now apply ext_alloc|]. repeat split. rewrite tget_tset, Nat.eqb_refl. reflexivity.
  Qed.

  Fixpoint pipekeys (e : wenv) : list nat :=
    match e with
    | [] => []
    | (k, (WPipe, _)) :: e' => k :: pipekeys e'
    | _ :: e' => pipekeys e'
    end.
  Lemma pipekeys_in e k : In k (pipekeys e) <-> exists f, In (k, (WPipe, f)) e.
  Proof.
    induction e as [|[k' [w f]] e IH]; cbn; [split; [tauto|intros [? []]]|].
    destruct w; cbn; rewrite IH; split; intros H.
    all: try (destruct H as [f0 H]; exists f0; now right).
    all: try (destruct H as [f0 [H|H]]; [discriminate|now exists f0]).
    - destruct H as [->|[f0 H]]; [exists f; now left|exists f0; now right].
    - destruct H as [f0 [H|H]]; [left; congruence|right; now exists f0].
  Qed.
  Lemma asked_none e k : forall np, ~ In k (pipekeys e) -> asked e np k = None.
  Proof.
    induction e as [|[k' [w f]] e IH]; intros np H; [reflexivity|]. cbn in *.
    destruct w; cbn in H; try (destruct (Nat.eqb k k'); [reflexivity|now apply IH]).
    destruct (Nat.eqb_spec k k'); [subst; tauto|]. apply IH. tauto.
  Qed.

  (** What is known of the pipe end kept for the caller for descriptor [k]. *)
  Definition end_ok (t : tab) (e : wenv) (np : nat) (l : list redirect) (kx : nat * nat) : Prop :=
    exists r j f, In r l /\ r_fd r = fst kx /\ r_pipe r = Some (PFd (snd kx)) /\
      asked e np (fst kx) = Some j /\ In (fst kx, (WPipe, f)) e /\
      tget t (snd kx) = Some (mkEnt (if is_write f then OPipeR j else OPipeW j) true).

  Definition made_post (rs : redirects) (e : wenv) (s s1 : st) (l' : list redirect) : Prop :=
    exists srcs ends m,
      make e (s_np s) (s_nt s) = (m, s_np s1, s_nt s1) /\
      ext (s_tab s) (s_tab s1) (srcs ++ map snd ends) /\
      map r_fd l' = dkeys rs /\
      Forall2 (absw (s_tab s1)) (map (fun r => (r_fd r, r)) l') m /\
      Permutation (ints l') (ints (dvals rs) ++ srcs) /\
      Permutation (nbs l') (nbs (dvals rs) ++ srcs) /\
      map fst ends = pipekeys e /\
      Forall (end_ok (s_tab s1) e (s_np s) l') ends /\
      Forall (fun r => (exists n, r_source r = SInt n) \/ In r (dvals rs) /\ exists p, r_source r = SPath p) l' /\
      Forall2 (fun r r' => match r_source r with SInt _ | SPath _ => r' = r | _ => exists n, In n srcs /\ r_source r' = SInt n end) (dvals rs) l'.

  Lemma make_pipe_list_hp i o rs : forall e s,
    Forall2 (absw (s_tab s)) rs e -> NoDup (dkeys rs) ->
    Forall (fun kr => r_fd (snd kr) = fst kr) rs ->
    (forall k r, In (k, r) rs -> entry_ok L i o k r) ->
    hp (make_pipe_list L (dvals rs)) s (made_post rs e s).
  Proof.
    induction rs as [|[k r] rs IH]; intros e s Ha Hnd Hfd He.
    { inversion Ha; subst. cbn. exists [], [], []. cbn.
      sp; auto using ext_refl; try constructor. }
    inversion Ha as [|? kw ? e' Ha1 Ha2]; subst. destruct kw as [k' [w f]].
    destruct Ha1 as [Hk [Hf Hsrc]]. cbn in Hk, Hf, Hsrc. subst k' f.
    cbn in Hnd. inversion Hnd as [|? ? Hnk Hnd']; subst.
    inversion Hfd as [|? ? Hfd1 Hfd2]; subst. cbn in Hfd1.
    pose proof (He k r (or_introl eq_refl)) as Hek.
    assert (He' : forall k0 r0, In (k0, r0) rs -> entry_ok L i o k0 r0) by (intros; apply He; now right).
    assert (Hke : ~ In k (dkeys e')) by (rewrite <- (abs_keys _ _ _ Ha2); exact Hnk).
    assert (Hpk : ~ In k (pipekeys e')).
    { intros X. apply pipekeys_in in X as [f0 X]. apply Hke. apply in_map_iff. now exists (k, (WPipe, f0)). }
    cbn [dvals map snd make_pipe_list].
    (* one step *)
    assert (STEP : hp (make_pipe L r) s (fun s1 r' =>
      exists src1 ends1 w1,
        (match w with
         | WPipe => (WOfd (if is_write (r_flag r) then OPipeW (s_np s) else OPipeR (s_np s)), S (s_np s), s_nt s)
         | WTmp => (WOfd (OTmp (s_nt s)), s_np s, S (s_nt s))
         | _ => (w, s_np s, s_nt s)
         end) = (w1, s_np s1, s_nt s1) /\
        ext (s_tab s) (s_tab s1) (src1 ++ map snd ends1) /\ r_fd r' = k /\
        absw (s_tab s1) (k, r') (k, (w1, r_flag r)) /\
        ints [r'] = ints [r] ++ src1 /\ nbs [r'] = nbs [r] ++ src1 /\
        map fst ends1 = match w with WPipe => [k] | _ => [] end /\
        Forall (fun kx => r_pipe r' = Some (PFd (snd kx)) /\
           tget (s_tab s1) (snd kx) = Some (mkEnt (if is_write (r_flag r) then OPipeR (s_np s) else OPipeW (s_np s)) true)) ends1 /\
        ((exists n, r_source r' = SInt n) \/ r' = r /\ exists p, r_source r = SPath p) /\
        match r_source r with SInt _ | SPath _ => r' = r | _ => exists n, In n src1 /\ r_source r' = SInt n end)).
    { unfold make_pipe. destruct (r_source r) as [|n|p| | | |] eqn:Es; destruct w as [o0|q| |]; try tauto.
      - apply hp_ret. exists [], [], (WOfd o0). cbn. unfold absw. cbn. rewrite !app_nil_r, Es.
        sp; auto using ext_refl; eauto.
      - apply hp_ret. exists [], [], (WPath q). cbn. unfold absw. cbn. rewrite !app_nil_r, Es.
        sp; auto using ext_refl; eauto.
      - apply hp_bind. eapply hp_mono; [apply os_pipe_hp|]. cbn.
        intros s1 [rfd wfd] [Hext [Hr [Hw [Hnp Hnt]]]]. cbn in Hext, Hr, Hw.
        unfold writes. fold (is_write (r_flag r)). destruct (is_write (r_flag r)); apply hp_ret.
        + exists [wfd], [(k, rfd)], (WOfd (OPipeW (s_np s))). cbn. unfold absw, ints, nbs, refers. cbn. rewrite Es, Hw, Hnp, Hnt.
          sp; try (eapply ext_perm; [|exact Hext]; apply perm_swap); auto; eauto.
        + exists [rfd], [(k, wfd)], (WOfd (OPipeR (s_np s))). cbn. unfold absw, ints, nbs, refers. cbn. rewrite Es, Hr, Hnp, Hnt.
          sp; try exact Hext; auto; eauto.
      - unfold writes. fold (is_write (r_flag r)). unfold entry_ok in Hek. rewrite Es in Hek. rewrite Hek.
        apply hp_bind. eapply hp_mono; [apply mkstemp_hp|]. cbn.
        intros s1 [n k0] [Hext [Hk0 [Hr [Hnp Hnt]]]]. cbn in Hext, Hr, Hk0. subst k0. apply hp_ret.
        exists [n], [], (WOfd (OTmp (s_nt s))). cbn. unfold absw, ints, nbs, refers. cbn. rewrite Es, Hr, Hnp, Hnt.
        sp; try exact Hext; auto; eauto.
      - unfold writes. fold (is_write (r_flag r)). unfold entry_ok in Hek. rewrite Es in Hek. rewrite Hek.
        apply hp_bind. eapply hp_mono; [apply mkstemp_hp|]. cbn.
        intros s1 [n k0] [Hext [Hk0 [Hr [Hnp Hnt]]]]. cbn in Hext, Hr, Hk0. subst k0. apply hp_ret.
        exists [n], [], (WOfd (OTmp (s_nt s))). cbn. unfold absw, ints, nbs, refers. cbn. rewrite Es, Hr, Hnp, Hnt.
        sp; try exact Hext; auto; eauto. }
    apply hp_bind. eapply hp_mono; [exact STEP|]. clear STEP.
    intros s1 r' [src1 [ends1 [w1 [Hmk [Hext1 [Hfd' [Hab1 [Hi1 [Hn1 [Hk1 [Hends1 [Hkind1 Hrel1]]]]]]]]]]]].
    apply hp_bind. eapply hp_mono.
    { apply (IH e' s1); auto. eapply abs_frame; [exact Ha2|].
      intros n Hn. eapply ext_keep; [exact Hext1|]. eapply abs_open; eauto. }
    cbn. intros s2 l' [srcs [ends [m [Hmk2 [Hext2 [Hfds [Hab2 [Hi2 [Hn2 [Hk2 [Hends2 [Hkind2 Hrel2]]]]]]]]]]]].
    apply hp_ret.
    exists (src1 ++ srcs), (ends1 ++ ends), ((k, (w1, r_flag r)) :: m).
    assert (Hpi : Permutation (ints (r' :: l')) (ints (r :: dvals rs) ++ src1 ++ srcs)).
    { change (ints (r' :: l')) with (ints ([r'] ++ l')). change (ints (r :: dvals rs)) with (ints ([r] ++ dvals rs)).
      unfold ints in *. rewrite !flat_map_app, Hi1, Hi2. rewrite <- !app_assoc.
      apply Permutation_app_head. rewrite !app_assoc. apply Permutation_app_tail. apply Permutation_app_comm. }
    assert (Hpn : Permutation (nbs (r' :: l')) (nbs (r :: dvals rs) ++ src1 ++ srcs)).
    { change (nbs (r' :: l')) with (nbs ([r'] ++ l')). change (nbs (r :: dvals rs)) with (nbs ([r] ++ dvals rs)).
      unfold nbs in *. rewrite !flat_map_app, Hn1, Hn2. rewrite <- !app_assoc.
      apply Permutation_app_head. rewrite !app_assoc. apply Permutation_app_tail. apply Permutation_app_comm. }
    split.
    { cbn [make]. rewrite Hmk, Hmk2. reflexivity. }
    split.
    { eapply ext_perm; [|eapply ext_trans; [exact Hext1|exact Hext2]].
      rewrite map_app. rewrite <- !app_assoc. apply Permutation_app_head.
      rewrite !app_assoc. apply Permutation_app_tail. apply Permutation_app_comm. }
    split; [cbn; now rewrite Hfd', Hfds|].
    split.
    { cbn. constructor; [|exact Hab2]. rewrite Hfd'.
      assert (X : Forall2 (absw (s_tab s2)) [(k, r')] [(k, (w1, r_flag r))]).
      { eapply abs_frame; [constructor; [exact Hab1|constructor]|].
        intros n Hn. eapply ext_keep; [exact Hext2|]. eapply abs_open; [constructor; [exact Hab1|constructor]|exact Hn]. }
      now inversion X. }
    split; [exact Hpi|]. split; [exact Hpn|].
    split.
    { rewrite map_app, Hk1, Hk2. cbn. destruct w; reflexivity. }
    split.
    { apply Forall_app. split.
      - destruct w; cbn in Hk1; try (destruct ends1; [constructor|discriminate]).
        destruct ends1 as [|[k0 x0] [|]]; try discriminate. cbn in Hk1. injection Hk1 as ->.
        inversion Hends1 as [|? ? [Hp1 Hp2] _]; subst. constructor; [|constructor].
        exists r', (s_np s), (r_flag r). cbn in *. sp; auto.
        + now rewrite Nat.eqb_refl.
        + rewrite <- Hp2. eapply ext_keep; [exact Hext2|]. rewrite Hp2. discriminate.
      - eapply Forall_impl; [|exact Hends2]. intros [k0 x0] [r0 [j [f0 [A [B [C [D [E F]]]]]]]].
        cbn in *. exists r0, j, f0. cbn. sp; auto.
        assert (k0 <> k).
        { intros ->. apply Hke. apply in_map_iff. now exists (k, (WPipe, f0)). }
        destruct w; destruct (Nat.eqb_spec k0 k); try congruence; injection Hmk as _ <- _ || idtac; auto.
        all: try exact D. }
    split.
    { constructor.
      - destruct Hkind1 as [X|[-> X]]; [now left|right]. split; [now left|exact X].
      - eapply Forall_impl; [|exact Hkind2]. intros x [X|[X Y]]; [now left|right]. split; [now right|exact Y]. }
    { constructor.
      - revert Hrel1. cbn [snd]. destruct (r_source r); intros Hrel1; auto; destruct Hrel1 as [n0 [X0 Y0]]; exists n0; (split; [apply in_app_iff; auto|exact Y0]).
      - eapply Forall2_impl; [|exact Hrel2]. intros x y X. cbn in X. revert X.
        destruct (r_source x); intros X; auto; destruct X as [n0 [X0 Y0]]; exists n0; (split; [apply in_app_iff; auto|exact Y0]). }
  Qed.
End Make.
