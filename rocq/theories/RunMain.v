(** Proofs about starting pipelines, part 5: the wiring theorem. *)
From Verif Require Import Py RedirModel RedirSpec RedirProofs Os PerformModel PerformSpec
  PerformProofs RunModel RunSpec RunTopSpec RunProofs RunPre RunMake RunMake2.
From Coq Require Import Permutation.
#[local] Arguments hp : simpl never.
#[local] Arguments rbind : simpl never.
#[local] Arguments rret : simpl never.

(** Descriptors of the shell owned by a started item. *)
Definition item_fds (it : item) : list nat :=
  match it with
  | IProc _ _ _ => []
  | IFun (Some a) b _ => [a; b]
  | IFun None b _ => [b]
  end.
Definition items_fds (its : list item) : list nat := flat_map item_fds its.

Definition arg_fds (argv : list aword) : list nat :=
  flat_map (fun a => match a with DevFd n => [n] | Word _ => [] end) argv.
Definition arg_ok (w : warg) (a : aword) : Prop :=
  match w, a with
  | WWord x, Word y => x = y
  | WArg _, DevFd _ => True
  | _, _ => False
  end.
Definition seen (rs : redirects) (t : tab) (n : nat) : option ofd :=
  match dget rs n with Some r => wanted t r | None => None end.

Section Main.
  Variable L : limits.
  Variable pollable_file : ofd -> bool.

  (** A forked process agrees with the specification: the descriptors it asks
      for are the wired ones plus one fresh descriptor per argument pipe, and
      nothing stands in the way of performing them. *)
  Definition proc_ok (io : nat -> option ofd) (ws : list warg) (rs : redirects) (t : tab) (argv : list aword) : Prop :=
    wf_redirects rs /\ NoDup (source_ints rs) /\
    Forall2 arg_ok ws argv /\ NoDup (arg_fds argv) /\
    (forall n, In n (arg_fds argv) -> 2 < n /\ io n = None) /\
    (forall n, seen rs t n =
       match dget (combine (arg_fds argv) (arg_ofds ws)) n with Some o => Some o | None => io n end) /\
    (forall r, In r (dvals rs) ->
      (exists n, r_source r = SInt n /\ tget t n <> None) \/
      (exists p, r_source r = SPath p /\ can_open L p (r_flag r) = true /\
                 tget t (r_fd r) <> None /\ ~ In (r_fd r) (source_ints rs))).

  Definition item_ok (t : tab) (lf : leaf) (it : item) : Prop :=
    match lf, it with
    | LFun inp out, IFun infd outfd _ =>
        match inp, infd with
        | Some o, Some fd => tget t fd = Some (mkEnt o true)
        | None, None => True
        | _, _ => False
        end /\
        exists o, out = Some o /\ tget t outfd = Some (mkEnt o true)
    | LProc io ws, IProc rs tc argv => proc_ok io ws rs tc argv
    | _, _ => False
    end.

  Definition Post (i : inkind) (o : bool) (rs : redirects) (W : wired) (s s' : st) (x : rresult) : Prop :=
    exists rs', fst x = Some rs' /\ wf_redirects rs' /\ dget rs' 0 <> None /\ dget rs' 1 <> None /\
      s_np s' = w_np W /\ s_nt s' = w_nt W /\
      Forall2 (item_ok (s_tab s')) (w_leaves W) (snd x) /\
      ret_ok i o (s_tab s') (w_in W) (w_out W) rs' /\
      postt (s_tab s) (s_tab s') (ret_fds i o rs' ++ items_fds (snd x)) (nbs (dvals rs)).

  Lemma item_ok_keep t t' lf it :
    (forall n, In n (item_fds it) -> tget t n <> None -> tget t' n = tget t n) -> item_ok t lf it -> item_ok t' lf it.
  Proof.
    intros H. destruct lf as [io ws|inp out], it as [rs tc argv|infd outfd rs]; cbn; auto.
    intros [A [o [-> B]]]. split.
    - destruct inp as [o1|], infd as [fd|]; auto. rewrite H; [exact A|cbn; auto|rewrite A; discriminate].
    - exists o. split; [reflexivity|]. rewrite H; [exact B| |rewrite B; discriminate]. destruct infd; cbn; auto.
  Qed.
  Lemma items_ok_keep t t' lfs its :
    (forall n, In n (items_fds its) -> tget t n <> None -> tget t' n = tget t n) ->
    Forall2 (item_ok t) lfs its -> Forall2 (item_ok t') lfs its.
  Proof.
    intros H F. induction F as [|lf it lfs its Hi Hl IH]; constructor.
    - eapply item_ok_keep; [|exact Hi]. intros n Hn. apply H. cbn. apply in_app_iff. auto.
    - apply IH. intros n Hn. apply H. cbn. apply in_app_iff. auto.
  Qed.

  (** ** Table lemmas *)
  Lemma postt_ext t t1 own gone : (forall n, ~ In n gone) -> postt t t1 own gone -> ext t t1 own.
  Proof.
    intros H [A [B C]]. split; [exact A|]. split; [exact B|]. intros n Hn. rewrite C by exact Hn.
    destruct (in_dec Nat.eq_dec n gone); [exfalso; eapply H; eauto|reflexivity].
  Qed.
  Lemma postt_perm t t1 own own' gone : Permutation own own' -> postt t t1 own gone -> postt t t1 own' gone.
  Proof.
    intros HP [A [B C]]. split; [eapply Permutation_NoDup; eauto|]. split.
    - intros n Hn. apply B. eapply Permutation_in; [symmetry; exact HP|exact Hn].
    - intros n Hn. apply C. intros X. apply Hn. eapply Permutation_in; eauto.
  Qed.
  Lemma postt_gone t t1 own gone gone' : (forall n, In n gone <-> In n gone') -> postt t t1 own gone -> postt t t1 own gone'.
  Proof.
    intros H [A [B C]]. split; [exact A|]. split; [exact B|]. intros n Hn. rewrite C by exact Hn.
    destruct (in_dec Nat.eq_dec n gone) as [X|X], (in_dec Nat.eq_dec n gone') as [Y|Y]; try reflexivity;
      [exfalso; apply Y, H, X|exfalso; apply X, H, Y].
  Qed.
  (** Run, then run something that consumes [x]. *)
  Lemma ext_postt_consume t t1 t2 x A B :
    ext t t1 (x :: A) -> postt t1 t2 B [x] -> ext t t2 (A ++ B) /\ (forall n, In n A -> tget t2 n = tget t1 n).
  Proof.
    intros [N1 [A1 B1]] [N2 [A2 B2]]. inversion N1 as [|? ? Hx N1']; subst.
    assert (D : forall n, In n A -> ~ In n B).
    { intros n HA HB. apply A2 in HB. destruct (A1 n (or_intror HA)). tauto. }
    assert (K : forall n, In n A -> tget t2 n = tget t1 n).
    { intros n Hn. rewrite B2 by now apply D. destruct (in_dec Nat.eq_dec n [x]) as [[->|[]]|]; [contradiction|reflexivity]. }
    split; [|exact K]. split; [now apply NoDup_app_intro|]. split.
    - intros n Hn. apply in_app_iff in Hn as [Hn|Hn].
      + rewrite K by exact Hn. apply A1. now right.
      + destruct (A2 n Hn) as [X Y]. split; [|exact Y].
        destruct (in_dec Nat.eq_dec n (x :: A)) as [Z|Z]; [now apply A1|]. now rewrite <- B1.
    - intros n Hn. rewrite in_app_iff in Hn. rewrite B2 by tauto.
      destruct (in_dec Nat.eq_dec n [x]) as [[->|[]]|Z].
      + symmetry. apply A1. now left.
      + apply B1. intros [<-|Y]; [apply Z; now left|tauto].
  Qed.
  Lemma postt_keep t t1 own gone n : postt t t1 own gone -> tget t n <> None -> ~ In n gone -> tget t1 n = tget t n.
  Proof.
    intros [A [B C]] H Hg. rewrite C; [|intros X; apply B in X; tauto].
    destruct (in_dec Nat.eq_dec n gone); tauto.
  Qed.

  Lemma abs_get t rs m k r : Forall2 (absw t) rs m -> dget rs k = Some r ->
    exists w, dget m k = Some w /\ absw t (k, r) (k, w).
  Proof.
    intros H. induction H as [|[k1 r1] [k2 w2] rs m Ha Hl IH]; cbn; [discriminate|].
    assert (k1 = k2) by apply Ha. subst k2. destruct (Nat.eqb_spec k k1) as [->|]; [|exact IH].
    intros E. injection E as <-. exists w2. auto.
  Qed.
  Lemma abs_get_none t rs m k : Forall2 (absw t) rs m -> dget rs k = None -> dget m k = None.
  Proof.
    intros H. rewrite !dget_None, (abs_keys _ _ _ H). auto.
  Qed.

  (** ** Opening a redirect for a python function *)
  Lemma open_hp s rs m k r :
    Forall2 (absw (s_tab s)) rs m -> Pre L INone false (s_tab s) (borrow rs) m -> concrete rs ->
    dget rs k = Some r ->
    hp (lift (redirect_open L r false)) s (fun s1 fd =>
      exists o, io_of m k = Some o /\ ext (s_tab s) (s_tab s1) [fd] /\
        tget (s_tab s1) fd = Some (mkEnt o true) /\ s_np s1 = s_np s /\ s_nt s1 = s_nt s).
  Proof.
    intros Ha HP Hcon Hr. pose proof (Hcon _ _ Hr) as Hc. destruct (abs_get _ _ _ _ _ Ha Hr) as [[w f] [Hw [_ [Hf Hs]]]]. cbn in Hf, Hs.
    pose proof (pre_ent _ _ _ _ _ _ HP k (borrow1 r)) as He.
    assert (Hin : In (k, borrow1 r) (borrow rs)).
    { apply dget_In. rewrite borrow_in_force, Hr. reflexivity. }
    specialize (He Hin). unfold entry_ok in He. cbn in He.
    apply hp_lift. unfold redirect_open. unfold io_of. rewrite Hw.
    pose proof (tget_lowest (s_tab s)) as Hfree. unfold os_dup, os_open, traise.
    revert Hs He Hc. destruct (r_source r) as [|m0|p| | | |]; destruct w as [o|q| |]; intros Hs He Hc; try tauto.
    - cbn in Hs. unfold refers in Hs. destruct (tget (s_tab s) m0) as [e|]; [|discriminate].
      cbn in Hs. injection Hs as <-. unfold os_alloc. cbv beta zeta.
      generalize dependent (lowest (s_tab s)). intros n Hfree. destruct (n <? lim L); [|left; reflexivity].
      exists (e_ofd e). cbn. sp; auto; [now apply ext_alloc|]. now rewrite tget_tset, Nat.eqb_refl.
    - subst q. destruct He as [_ ->]. unfold os_alloc. cbv beta zeta.
      generalize dependent (lowest (s_tab s)). intros n Hfree. destruct (n <? lim L); [|left; reflexivity].
      exists (OFile p f). cbn. rewrite <- Hf. sp; auto; [now apply ext_alloc|]. now rewrite tget_tset, Nat.eqb_refl.
    - exfalso; destruct Hc as [[? X]|[? X]]; discriminate X.
    - exfalso; destruct Hc as [[? X]|[? X]]; discriminate X.
    - exfalso; destruct Hc as [[? X]|[? X]]; discriminate X.
  Qed.
  Lemma enable_hp s fd e : tget (s_tab s) fd = Some e ->
    hp (lift (enable pollable_file fd)) s (fun s1 _ => s1 = s).
  Proof.
    intros H. apply hp_lift. unfold enable. rewrite H.
    destruct (pollable pollable_file (e_ofd e)); [|right; reflexivity]. now destruct s.
  Qed.

  Lemma std_hp rs (name : string) k r s (Q : st -> redirect -> Prop) :
    dget fd_names name = Some k -> dget rs k = Some r -> Q s r -> hp (std rs name) s Q.
  Proof.
    intros Hn Hr H. unfold std. apply (hp_rlift _ r); [|exact H]. unfold get_std. now rewrite Hn, Hr.
  Qed.

  Lemma close_hp s rs : NoDup (source_ints rs) ->
    (forall n, In n (nbs (dvals rs)) -> tget (s_tab s) n <> None) ->
    hp (lift (close_source_fds rs)) s (fun s1 _ =>
      removed (s_tab s) (s_tab s1) (nbs (dvals rs)) /\ s_np s1 = s_np s /\ s_nt s1 = s_nt s).
  Proof.
    intros Hn Ho. apply hp_lift. unfold close_source_fds.
    destruct (close_source_list_ok (dvals rs) (s_tab s)) as [t' [E R]]; [|exact Ho|].
    - apply nbs_NoDup. exact Hn.
    - rewrite E. auto.
  Qed.

  Lemma dkeys_dget {V W} (a : dict nat V) (b : dict nat W) k : dkeys a = dkeys b -> dget a k <> None -> dget b k <> None.
  Proof.
    intros E H X. apply dget_None in X. rewrite <- E in X. apply dget_None in X. contradiction.
  Qed.

  Lemma run_function_hp i o inp s rs e : Pre L i o (s_tab s) rs e ->
    hp (run_function L pollable_file inp rs) s (fun s' x =>
      Post i o rs (wire_function inp e (s_np s) (s_nt s)) s s' (Some (fst x), snd x)).
  Proof.
    intros H. unfold run_function. apply hp_bind.
    eapply hp_mono; [apply make_pipes_hp; exact H|]. cbn.
    intros s1 made [srcs [m [Hmk [Hext [Hwf [Hdk [Hnd [Hab [Hnb [HP [Hcon Hret]]]]]]]]]]].
    assert (H0 : dget made 0 <> None) by (eapply dkeys_dget; [symmetry; exact Hdk|apply H]).
    assert (H1 : dget made 1 <> None) by (eapply dkeys_dget; [symmetry; exact Hdk|apply H]).
    destruct (dget made 0) as [r0|] eqn:E0; [|congruence]. destruct (dget made 1) as [r1|] eqn:E1; [|congruence].
    apply hp_bind.
    assert (IN : hp (if inp then rdo r <- std made "stdin"; rdo fd <- lift (redirect_open L r false);
                       rdo _ <- lift (enable pollable_file fd); rret (Some fd) else rret None) s1
      (fun s2 infd => exists F, ext (s_tab s1) (s_tab s2) F /\ s_np s2 = s_np s1 /\ s_nt s2 = s_nt s1 /\
         match infd with
         | Some fd => F = [fd] /\ inp = true /\ exists o0, io_of m 0 = Some o0 /\ tget (s_tab s2) fd = Some (mkEnt o0 true)
         | None => F = [] /\ inp = false
         end)).
    { destruct inp.
      - apply hp_bind. eapply std_hp; [reflexivity|exact E0|]. apply hp_bind.
        eapply hp_mono; [eapply open_hp; eauto|]. cbn. intros s2 fd [o0 [Hio [He2 [Hg [Hp2 Ht2]]]]].
        apply hp_bind. eapply hp_mono; [eapply enable_hp; exact Hg|]. cbn. intros s3 [] E3; subst s3. apply hp_ret.
        exists [fd]. split; [exact He2|]. split; [exact Hp2|]. split; [exact Ht2|].
        split; [reflexivity|]. split; [reflexivity|]. exists o0. split; [exact Hio|exact Hg].
      - apply hp_ret. exists []. sp; auto using ext_refl. }
    eapply hp_mono; [exact IN|]. clear IN. cbn. intros s2 infd [F [He2 [Hp2 [Ht2 Hin]]]].
    assert (K12 : forall n, tget (s_tab s1) n <> None -> tget (s_tab s2) n = tget (s_tab s1) n).
    { intros n. eapply ext_keep; eauto. }
    assert (Hab2 : Forall2 (absw (s_tab s2)) made m).
    { eapply abs_frame; [exact Hab|]. intros n Hn. apply K12. eapply abs_open; eauto. }
    apply hp_bind. eapply std_hp; [reflexivity|exact E1|]. apply hp_bind.
    eapply hp_mono.
    { eapply open_hp; [exact Hab2| |exact Hcon|exact E1]. eapply Pre_frame; [exact HP|exact K12]. }
    cbn. intros s3 outfd [o1 [Hio1 [He3 [Hg3 [Hp3 Ht3]]]]].
    apply hp_bind. eapply hp_mono; [eapply enable_hp; exact Hg3|]. cbn. intros s4 [] E4; subst s4.
    assert (E13 : ext (s_tab s1) (s_tab s3) (F ++ [outfd])) by (eapply ext_trans; eauto).
    assert (E03 : ext (s_tab s) (s_tab s3) (srcs ++ (ret_fds i o made ++ F ++ [outfd]))).
    { rewrite app_assoc. eapply ext_trans; eauto. }
    apply hp_bind. eapply hp_mono.
    { apply close_hp; [exact Hnd|]. intros n Hn. apply nbs_ints in Hn.
      rewrite (ext_keep _ _ _ n E13); eapply abs_open; eauto. }
    cbn. intros s5 _ [R [Hp5 Ht5]]. apply hp_ret. cbn.
    assert (Hgone : forall n, In n (nbs (dvals rs)) -> tget (s_tab s) n <> None).
    { intros n Hn. eapply abs_open; [apply H|]. now apply nbs_ints. }
    assert (PT : postt (s_tab s) (s_tab s5) (ret_fds i o made ++ F ++ [outfd]) (nbs (dvals rs))).
    { eapply ext_removed_post; [exact E03|exact R| |exact Hgone].
      intros n. split; intros X.
      - apply (Permutation_in _ Hnb) in X. now apply in_app_iff.
      - apply (Permutation_in _ (Permutation_sym Hnb)). now apply in_app_iff. }
    assert (HF : F ++ [outfd] = item_fds (IFun infd outfd made)).
    { destruct infd; destruct Hin as [-> _]; reflexivity. }
    assert (K35 : forall n, In n (ret_fds i o made ++ F ++ [outfd]) -> tget (s_tab s5) n = tget (s_tab s3) n).
    { intros n Hn. rewrite R. destruct (in_dec Nat.eq_dec n (nbs (dvals made))) as [X|]; [|reflexivity].
      exfalso. apply PT in Hn. destruct Hn as [Hn1 Hn2]. rewrite R in Hn2.
      destruct (in_dec Nat.eq_dec n (nbs (dvals made))); [congruence|contradiction]. }
    exists made. unfold wire_function. rewrite Hmk.
    split; [reflexivity|]. split; [exact Hwf|]. split; [rewrite E0; discriminate|]. split; [rewrite E1; discriminate|].
    split; [cbn; congruence|]. split; [cbn; congruence|]. split; [|split].
    - cbn. constructor; [|constructor]. split.
      + destruct infd as [fd|].
        * destruct Hin as [-> [-> [o0 [Hio Hg]]]]. rewrite Hio. rewrite K35.
          -- rewrite <- Hg. eapply ext_keep; [exact He3|]. rewrite Hg. discriminate.
          -- apply in_app_iff. right. now left.
        * destruct Hin as [_ ->]. exact I.
      + exists o1. split; [exact Hio1|]. rewrite K35; [exact Hg3|].
        apply in_app_iff. right. apply in_app_iff. right. now left.
    - cbn. eapply ret_ok_keep; [|exact Hret]. intros n Hn Ho. rewrite K35; [|apply in_app_iff; auto].
      eapply ext_keep; [exact E13|exact Ho].
    - cbn [fst snd items_fds flat_map]. rewrite app_nil_r, <- HF. exact PT.
  Qed.
End Main.
