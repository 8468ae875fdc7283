(** Proofs about starting pipelines, part 4: make_pipes under [Pre], and python
    functions. *)
From Verif Require Import Py RedirModel RedirSpec RedirProofs Os PerformModel PerformSpec
  PerformProofs RunModel RunSpec RunProofs RunPre RunMake.
From Coq Require Import Permutation.

(** Pipe ends handed to the caller. *)
Definition pipefd (rs : redirects) (k : nat) : list nat :=
  match dget rs k with
  | Some r => match r_pipe r with Some (PFd n) => [n] | _ => [] end
  | None => []
  end.
Definition reqs (i : inkind) (o : bool) : list nat :=
  (match i with IReq => [0] | _ => [] end) ++ (if o then [1] else []).
Definition ret_fds (i : inkind) (o : bool) (rs : redirects) : list nat := flat_map (pipefd rs) (reqs i o).
Definition end_is (t : tab) (rs : redirects) (k : nat) (o : ofd) : Prop :=
  exists r x, dget rs k = Some r /\ r_pipe r = Some (PFd x) /\ tget t x = Some (mkEnt o true).
Definition ret_ok (i : inkind) (o : bool) (t : tab) (win wout : option nat) (rs : redirects) : Prop :=
  (match i with IReq => exists k, win = Some k /\ end_is t rs 0 (OPipeW k) | _ => win = None end) /\
  (if o then exists k, wout = Some k /\ end_is t rs 1 (OPipeR k) else wout = None).

Lemma ret_ok_keep i o t t' win wout rs :
  (forall n, In n (ret_fds i o rs) -> tget t n <> None -> tget t' n = tget t n) ->
  ret_ok i o t win wout rs -> ret_ok i o t' win wout rs.
Proof.
  intros H [A B].
  assert (X : forall k o0, In k (reqs i o) -> end_is t rs k o0 -> end_is t' rs k o0).
  { intros k o0 Hk [r [x [Hr [Hp Hx]]]]. exists r, x. repeat split; auto. rewrite H; [exact Hx| |rewrite Hx; discriminate].
    apply in_flat_map. exists k. split; [exact Hk|]. unfold pipefd. rewrite Hr, Hp. now left. }
  split.
  - destruct i; auto. destruct A as [k [A1 A2]]. exists k. split; [exact A1|]. apply X; [now left|exact A2].
  - destruct o; auto. destruct B as [k [B1 B2]]. exists k. split; [exact B1|]. apply X; [|exact B2].
    apply in_app_iff. right. now left.
Qed.

Section Make2.
  Variable L : limits.

  Lemma new_redirects_list l : NoDup (map r_fd l) -> Forall (fun r => r_source r <> SNone) l ->
    new_redirects (map IRedirect l) = Ok (map (fun r => (r_fd r, r)) l).
  Proof.
    intros Hnd Hs.
    assert (G : forall l acc, NoDup (map r_fd l) -> Forall (fun r => r_source r <> SNone) l ->
      (forall r, In r l -> ~ In (r_fd r) (dkeys acc)) ->
      new_redirects_from acc (map IRedirect l) = Ok (acc ++ map (fun r => (r_fd r, r)) l)).
    { clear. induction l as [|r l IH]; cbn; intros acc Hnd Hs Hfr; [now rewrite app_nil_r|].
      inversion Hnd as [|? ? Hn Hnd']; subst. inversion Hs as [|? ? Hs1 Hs2]; subst.
      rewrite register_ok by exact Hs1. cbn. rewrite dset_fresh.
      - rewrite IH; auto; [now rewrite <- app_assoc|].
        intros x Hx. unfold dkeys. rewrite map_app, in_app_iff. intros [H|[H|[]]].
        + apply (Hfr x); auto.
        + cbn in H. apply Hn. rewrite H. now apply in_map.
      - apply dget_None. apply Hfr. now left. }
    exact (G l [] Hnd Hs (fun _ _ H => H)).
  Qed.

  Lemma pairs_dvals l : dvals (map (fun r => (r_fd r, r)) l) = l.
  Proof. unfold dvals. rewrite map_map. cbn. apply map_id. Qed.
  Lemma pairs_dkeys l : dkeys (map (fun r => (r_fd r, r)) l) = map r_fd l.
  Proof. unfold dkeys. rewrite map_map. reflexivity. Qed.

  Lemma NoDup_pipekeys e : NoDup (dkeys e) -> NoDup (pipekeys e).
  Proof.
    induction e as [|[k [w f]] e IH]; cbn; intros H; [constructor|].
    inversion H as [|? ? Hn Hd]; subst. destruct w; auto. constructor; auto.
    intros X. apply Hn. apply pipekeys_in in X as [f0 X]. apply in_map_iff. now exists (k, (WPipe, f0)).
  Qed.

  Lemma Forall2_in_l {A B} (P : A -> B -> Prop) l m a : Forall2 P l m -> In a l -> exists b, In b m /\ P a b.
  Proof.
    intros H. induction H as [|x y l m Hxy Hl IH]; cbn; [tauto|].
    intros [->|Ha]; [exists y; auto|]. destruct (IH Ha) as [b [Hb Hp]]. eauto.
  Qed.
  Lemma Forall2_in_r {A B} (P : A -> B -> Prop) l m b : Forall2 P l m -> In b m -> exists a, In a l /\ P a b.
  Proof.
    intros H. induction H as [|x y l m Hxy Hl IH]; cbn; [tauto|].
    intros [->|Hb]; [exists x; auto|]. destruct (IH Hb) as [a [Ha Hp]]. eauto.
  Qed.

  Lemma pipekeys_reqs i o t rs e : Pre L i o t rs e -> Permutation (pipekeys e) (reqs i o).
  Proof.
    intros H. pose proof (pre_abs _ _ _ _ _ _ H) as Ha. pose proof (pre_wf _ _ _ _ _ _ H) as [Hnd _].
    apply NoDup_Permutation.
    - apply NoDup_pipekeys. rewrite <- (abs_keys _ _ _ Ha). exact Hnd.
    - unfold reqs. destruct i, o; cbn; repeat constructor; cbn; intuition congruence.
    - intros k. rewrite pipekeys_in. split.
      + intros [f Hf]. destruct (Forall2_in_r _ _ _ _ Ha Hf) as [[k' r] [Hin [E1 [E2 E3]]]]. cbn in *. subst k'.
        pose proof (pre_ent _ _ _ _ _ _ H k r Hin) as He. unfold entry_ok in He.
        destruct (r_source r); try tauto. unfold reqs.
        destruct He as [[-> [-> _]]|[-> [-> _]]]; apply in_app_iff; [left|right]; now left.
      + intros Hk. assert (X : exists r, dget rs k = Some r /\ r_source r = SPIPE).
        { unfold reqs in Hk. apply in_app_iff in Hk as [Hk|Hk].
          - destruct i; try (now destruct Hk). destruct Hk as [<-|[]]. now apply (pre_ask0 _ _ _ _ _ _ H).
          - destruct o; [|now destruct Hk]. destruct Hk as [<-|[]]. now apply (pre_ask1 _ _ _ _ _ _ H). }
        destruct X as [r [Hr Hs]]. apply dget_In in Hr.
        destruct (Forall2_in_l _ _ _ _ Ha Hr) as [[k' [w f]] [Hin [E1 [E2 E3]]]]. cbn in *. subst k'.
        rewrite Hs in E3. destruct w; try tauto. now exists f.
  Qed.

  (** Only descriptors and files, no requests. *)
  Definition concrete (rs : redirects) : Prop :=
    forall k r, dget rs k = Some r -> (exists n, r_source r = SInt n) \/ (exists p, r_source r = SPath p).

  Definition madeok (i : inkind) (o : bool) (rs : redirects) (e : wenv) (s s1 : st) (made : redirects) : Prop :=
    exists srcs m,
      make e (s_np s) (s_nt s) = (m, s_np s1, s_nt s1) /\
      ext (s_tab s) (s_tab s1) (srcs ++ ret_fds i o made) /\
      wf_redirects made /\ dkeys made = dkeys rs /\ NoDup (source_ints made) /\
      Forall2 (absw (s_tab s1)) made m /\
      Permutation (nbs (dvals made)) (nbs (dvals rs) ++ srcs) /\
      Pre L INone false (s_tab s1) (borrow made) m /\ concrete made /\
      ret_ok i o (s_tab s1) (asked e (s_np s) 0) (asked e (s_np s) 1) made.

  Lemma make_pipes_hp i o s rs e : Pre L i o (s_tab s) rs e ->
    hp (make_pipes L rs) s (madeok i o rs e s).
  Proof.
    intros H. pose proof H as Hpre.
    pose proof (pipekeys_reqs _ _ _ _ _ H) as Hpk.
    destruct H as [Hwf Ha Hn H0 H1 He Ha1 Ha0 Hs]. destruct Hwf as [Hnd Hall].
    assert (Hfd : Forall (fun kr => r_fd (snd kr) = fst kr) rs).
    { eapply Forall_impl; [|exact Hall]. intros a [X _]. exact X. }
    unfold make_pipes. apply hp_bind.
    eapply hp_mono; [apply (make_pipe_list_hp L i o rs e s Ha Hnd Hfd He)|]. cbn.
    intros s1 l' [srcs [ends [m [Hmk [Hext [Hfds [Hab [Hpi [Hpn [Hk [Hends [Hkind Hrel]]]]]]]]]]]].
    assert (Hnd' : NoDup (map r_fd l')) by (rewrite Hfds; exact Hnd).
    assert (Hsn : Forall (fun r => r_source r <> SNone) l').
    { eapply Forall_impl; [|exact Hkind]. intros r [[n ->]|[_ [p ->]]]; discriminate. }
    apply (hp_rlift _ (map (fun r => (r_fd r, r)) l')); [now apply new_redirects_list|].
    set (made := map (fun r => (r_fd r, r)) l') in *.
    assert (Hdk : dkeys made = dkeys rs) by (unfold made; now rewrite pairs_dkeys).
    assert (Hwm : wf_redirects made).
    { split; [rewrite Hdk; exact Hnd|]. apply Forall_forall. intros x Hx.
      apply in_map_iff in Hx as [r [<- Hr]]. cbn. split; [reflexivity|]. rewrite Forall_forall in Hsn. now apply Hsn. }
    assert (Hget : forall r, In r l' -> dget made (r_fd r) = Some r).
    { intros r Hr. apply In_dget; [apply Hwm|]. unfold made. apply in_map_iff. now exists r. }
    assert (Hsrcs : forall n, In n srcs -> tget (s_tab s) n = None).
    { intros n Hx. apply (proj1 (proj2 Hext)). apply in_app_iff. auto. }
    assert (Hnm : NoDup (source_ints made)).
    { change (NoDup (ints (dvals made))). unfold made. rewrite pairs_dvals.
      eapply Permutation_NoDup; [symmetry; exact Hpi|]. apply NoDup_app_intro; auto.
      - apply (NoDup_app_inv srcs (map snd ends)). apply Hext.
      - intros x Hx Hy. apply Hsrcs in Hy. revert Hy. now apply (abs_open _ _ _ Ha). }
    assert (Hrf : Permutation (map snd ends) (ret_fds i o made)).
    { unfold ret_fds. rewrite <- Hpk, <- Hk.
      replace (map snd ends) with (flat_map (pipefd made) (map fst ends)); [reflexivity|].
      clear -Hends Hget. induction ends as [|[k x] ends IH]; [reflexivity|].
      inversion Hends as [|? ? Hx Hl]; subst. cbn. rewrite IH by exact Hl.
      destruct Hx as [r [j [f [A [B [C _]]]]]]. cbn in *. unfold pipefd.
      rewrite <- B, (Hget r A), C. reflexivity. }
    assert (Hret : ret_ok i o (s_tab s1) (asked e (s_np s) 0) (asked e (s_np s) 1) made).
    { assert (X : forall k, In k (pipekeys e) -> exists j, asked e (s_np s) k = Some j /\ exists f,
          In (k, (WPipe, f)) e /\ end_is (s_tab s1) made k (if is_write f then OPipeR j else OPipeW j)).
      { intros k Hin. rewrite <- Hk in Hin. apply in_map_iff in Hin as [[k0 x] [E Hin]]. cbn in E. subst k0.
        rewrite Forall_forall in Hends. destruct (Hends _ Hin) as [r [j [f [A [B [C [D [E F]]]]]]]]. cbn in *.
        exists j. split; [exact D|]. exists f. split; [exact E|]. exists r, x. split; [|auto].
        rewrite <- B. now apply Hget. }
      assert (Y : forall k f, In (k, (WPipe, f)) e ->
          (k = 0 /\ is_write f = false) \/ (k = 1 /\ is_write f = true)).
      { intros k f Hin. destruct (Forall2_in_r _ _ _ _ Ha Hin) as [[k' r] [Hr [E1 [E2 E3]]]]. cbn in *. subst k'.
        specialize (He k r Hr). unfold entry_ok in He. destruct (r_source r); try tauto. rewrite <- E2.
        destruct He as [[A [_ B]]|[A [_ B]]]; auto. }
      split.
      - destruct i.
        1,2: apply asked_none; intros Z; apply (Permutation_in _ Hpk) in Z; unfold reqs in Z; cbn in Z;
             destruct o; cbn in Z; intuition congruence.
        destruct (X 0) as [j [A [f [B C]]]]; [apply (Permutation_in _ (Permutation_sym Hpk)); now left|].
        exists j. split; [exact A|]. destruct (Y _ _ B) as [[_ Z]|[Z _]]; [|discriminate]. now rewrite Z in C.
      - destruct o.
        + destruct (X 1) as [j [A [f [B C]]]].
          { apply (Permutation_in _ (Permutation_sym Hpk)). apply in_app_iff. right. now left. }
          exists j. split; [exact A|]. destruct (Y _ _ B) as [[Z _]|[_ Z]]; [discriminate|]. now rewrite Z in C.
        + apply asked_none; intros Z; apply (Permutation_in _ Hpk) in Z; unfold reqs in Z; cbn in Z;
             destruct i; cbn in Z; intuition congruence. }
    exists srcs, m. sp; auto.
    - eapply ext_perm; [|exact Hext]. now apply Permutation_app_head.
    - unfold made. rewrite pairs_dvals. exact Hpn.
    - assert (Hdg : forall k, dget rs k <> None -> dget (borrow made) k <> None).
      { intros k Hx. rewrite borrow_in_force. destruct (dget made k) eqn:E; [discriminate|].
        exfalso. apply dget_None in E. rewrite Hdk in E. apply dget_None in E. contradiction. }
      constructor; auto; try discriminate.
      + now apply wf_borrow.
      + clear -Hab. induction Hab as [|kr kw x y A Hl IH]; constructor; [|exact IH]. destruct kr; exact A.
      + now rewrite borrow_ints.
      + intros k r Hin. apply in_map_iff in Hin as [[k' r'] [E Hin]]. cbn in E. injection E as <- <-.
        assert (Hl : In r' l' /\ k' = r_fd r').
        { unfold made in Hin. apply in_map_iff in Hin as [z [E Hz]]. injection E as <- <-. auto. }
        destruct Hl as [Hl ->]. destruct (Forall2_in_r _ _ _ _ Hrel Hl) as [r0 [Hr0 Hr]].
        apply in_map_iff in Hr0 as [[k0 x0] [E Hr0]]. cbn in E. subst x0.
        rewrite Forall_forall in Hfd. pose proof (Hfd _ Hr0) as Hf0. cbn in Hf0.
        pose proof (He _ _ Hr0) as Hek. unfold entry_ok in *. cbn.
        destruct (r_source r0) eqn:E0; try (destruct Hr as [n1 [Hn1 ->]]; split; [|discriminate];
          intros Hle; exfalso; apply (Hs n1 Hle); now apply Hsrcs).
        * subst r'. rewrite E0. rewrite Hf0. destruct Hek as [A B]. split; [|discriminate].
          intros Hle. split; [now apply A|reflexivity].
        * subst r'. rewrite E0. rewrite Hf0. exact Hek.
      + intros n Hle. rewrite (ext_keep _ _ _ _ Hext); auto.
    - intros k r Hr. apply dget_In in Hr. apply in_map_iff in Hr as [z [E Hz]]. injection E as <- <-.
      rewrite Forall_forall in Hkind. destruct (Hkind _ Hz) as [X|[_ X]]; auto.
  Qed.
End Make2.
