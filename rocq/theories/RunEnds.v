(** No started item holds both ends of a pipe. *)
From Verif Require Import Py RedirModel RedirSpec RedirProofs Os PerformModel PerformSpec
  PerformProofs PerformSound RunModel RunSpec RunTopSpec RunProofs RunPre RunMake RunMake2 RunMain
  RunArgs RunTop RunFinal RunMore.

Definition is_end (o : ofd) : Prop := match o with OPipeR _ | OPipeW _ => True | _ => False end.
Lemma endR k : is_end (OPipeR k). Proof. exact I. Qed.
Lemma endW k : is_end (OPipeW k). Proof. exact I. Qed.
Definition env_has (e : wenv) (o : ofd) : Prop := exists n f, In (n, (WOfd o, f)) e.
Definition ends_ok (e : wenv) (np : nat) : Prop :=
  (forall o, is_end o -> env_has e o -> pipe_no o < np) /\
  (forall k, ~ (env_has e (OPipeR k) /\ env_has e (OPipeW k))).

Lemma env_has_cons n w f e o : env_has ((n, (w, f)) :: e) o <-> w = WOfd o \/ env_has e o.
Proof.
  unfold env_has. split.
  - intros [n0 [f0 [E|H]]]; [injection E as _ -> _; auto|]. right. eauto.
  - intros [->|[n0 [f0 H]]]; [exists n, f; now left|exists n0, f0; now right].
Qed.
Lemma env_has_dset e n v o : env_has (dset e n v) o -> env_has e o \/ fst v = WOfd o.
Proof.
  induction e as [|[k0 [w0 f0]] e IH]; cbn.
  - intros [n0 [f0 [E|[]]]]. injection E as _ ->. right. reflexivity.
  - destruct (Nat.eqb n k0).
    + destruct v as [w f]. rewrite !env_has_cons. cbn. tauto.
    + rewrite !env_has_cons. tauto.
Qed.
Lemma env_has_override e l o : env_has (override e l) o -> env_has e o.
Proof.
  revert e. induction l as [|r l IH]; intros e; cbn; [auto|]. intros H. apply IH in H.
  apply env_has_dset in H as [H|H]; [exact H|]. unfold wish in H. cbn in H. destruct (r_source r); discriminate.
Qed.
Lemma io_has e n o : io_of e n = Some o -> is_end o -> env_has e o.
Proof.
  unfold io_of. destruct (dget e n) as [[w f]|] eqn:E; [|discriminate]. destruct w; cbn; intros X He; try discriminate.
  - injection X as ->. exists n, f. now apply dget_In.
  - injection X as <-. destruct He.
Qed.
Lemma ends_ok_le e a b : a <= b -> ends_ok e a -> ends_ok e b.
Proof. intros H [A B]. split; [|exact B]. intros o X Y. specialize (A o X Y). lia. Qed.
Lemma ends_ok_ask e np n f : ends_ok e np -> ends_ok (dset e n (WPipe, f)) np.
Proof.
  intros [A B].
  assert (H : forall o, env_has (dset e n (WPipe, f)) o -> env_has e o).
  { intros o X. apply env_has_dset in X as [X|X]; [exact X|discriminate]. }
  split; [auto|]. intros k [X Y]. exact (B k (conj (H _ X) (H _ Y))).
Qed.

Lemma make_has e : forall np nt m np1 nt1, make e np nt = (m, np1, nt1) -> np <= np1 /\
  (forall o, is_end o -> env_has m o -> env_has e o \/ np <= pipe_no o < np1).
Proof.
  induction e as [|[k0 [w f0]] e IH]; intros np nt m np1 nt1; cbn.
  - intros E. injection E as <- <- <-. split; [lia|]. intros o _ [n [f []]].
  - destruct w as [o0|p| |]; cbn.
    + destruct (make e np nt) as [[r np2] nt2] eqn:E. intros X. injection X as <- <- <-.
      destruct (IH _ _ _ _ _ E) as [A B]. split; [exact A|]. intros o Ho. rewrite !env_has_cons. intros [X|X]; [auto|].
      destruct (B o Ho X); auto.
    + destruct (make e np nt) as [[r np2] nt2] eqn:E. intros X. injection X as <- <- <-.
      destruct (IH _ _ _ _ _ E) as [A B]. split; [exact A|]. intros o Ho. rewrite !env_has_cons. intros [X|X]; [discriminate|].
      destruct (B o Ho X); auto.
    + destruct (make e (S np) nt) as [[r np2] nt2] eqn:E. intros X. injection X as <- <- <-.
      destruct (IH _ _ _ _ _ E) as [A B]. split; [lia|]. intros o Ho. rewrite !env_has_cons. intros [X|X].
      * right. destruct (is_write f0); injection X as <-; cbn; lia.
      * destruct (B o Ho X); [auto|right; lia].
    + destruct (make e np (S nt)) as [[r np2] nt2] eqn:E. intros X. injection X as <- <- <-.
      destruct (IH _ _ _ _ _ E) as [A B]. split; [lia|]. intros o Ho. rewrite !env_has_cons. intros [X|X].
      * injection X as <-. destruct Ho.
      * destruct (B o Ho X); auto.
Qed.
Lemma make_new e : forall np nt m np1 nt1, make e np nt = (m, np1, nt1) ->
  (forall o, is_end o -> env_has e o -> pipe_no o < np) ->
  forall k, np <= k -> ~ (env_has m (OPipeR k) /\ env_has m (OPipeW k)).
Proof.
  induction e as [|[k0 [w f0]] e IH]; intros np nt m np1 nt1; cbn.
  - intros E. injection E as <- <- <-. intros _ k _ [[n [f []]] _].
  - intros Hm He.
    assert (He' : forall o, is_end o -> env_has e o -> pipe_no o < np).
    { intros o Ho X. apply He; [exact Ho|]. apply env_has_cons. now right. }
    destruct w as [o0|p| |]; cbn in Hm.
    + destruct (make e np nt) as [[r np2] nt2] eqn:E. injection Hm as <- <- <-.
      intros k Hk. rewrite !env_has_cons. intros [X Y]. apply (IH _ _ _ _ _ E He' k Hk).
      split.
      * destruct X as [X|X]; [exfalso|exact X]. injection X as ->.
        assert (k < np); [|lia]. apply (He (OPipeR k) I). apply env_has_cons. now left.
      * destruct Y as [Y|Y]; [exfalso|exact Y]. injection Y as ->.
        assert (k < np); [|lia]. apply (He (OPipeW k) I). apply env_has_cons. now left.
    + destruct (make e np nt) as [[r np2] nt2] eqn:E. injection Hm as <- <- <-.
      intros k Hk. rewrite !env_has_cons. intros [[X|X] [Y|Y]]; try discriminate. exact (IH _ _ _ _ _ E He' k Hk (conj X Y)).
    + destruct (make e (S np) nt) as [[r np2] nt2] eqn:E. injection Hm as <- <- <-.
      assert (He2 : forall o, is_end o -> env_has e o -> pipe_no o < S np) by (intros o A B; specialize (He' o A B); lia).
      intros k Hk. rewrite !env_has_cons. intros [X Y].
      destruct (Nat.eq_dec k np) as [->|Hne].
      * destruct (make_has e _ _ _ _ _ E) as [_ B].
        assert (Q : forall o, is_end o -> pipe_no o = np -> ~ env_has r o).
        { intros o Ho Hn H. destruct (B o Ho H) as [H1|H1]; [specialize (He' o Ho H1)|]; lia. }
        destruct X as [X|X]; [|exact (Q (OPipeR np) I eq_refl X)].
        destruct Y as [Y|Y]; [|exact (Q (OPipeW np) I eq_refl Y)].
        destruct (is_write f0); discriminate.
      * apply (IH _ _ _ _ _ E He2 k); [lia|]. split.
        -- destruct X as [X|X]; [|exact X]. destruct (is_write f0); injection X; congruence.
        -- destruct Y as [X'|X']; [|exact X']. destruct (is_write f0); injection X'; congruence.
    + destruct (make e np (S nt)) as [[r np2] nt2] eqn:E. injection Hm as <- <- <-.
      intros k Hk. rewrite !env_has_cons. intros [[X|X] [Y|Y]]; try discriminate. exact (IH _ _ _ _ _ E He' k Hk (conj X Y)).
Qed.
Lemma make_ends e np nt m np1 nt1 : make e np nt = (m, np1, nt1) -> ends_ok e np -> ends_ok m np1.
Proof.
  intros E [A B]. destruct (make_has e _ _ _ _ _ E) as [Hle H]. split.
  - intros o Ho X. destruct (H o Ho X) as [Y|Y]; [specialize (A o Ho Y)|]; lia.
  - intros k [X Y]. destruct (le_lt_dec np k) as [Hk|Hk].
    + exact (make_new e _ _ _ _ _ E A k Hk (conj X Y)).
    + apply (B k). split; [destruct (H _ (endR k) X) as [Z|Z]|destruct (H _ (endW k) Y) as [Z|Z]]; try exact Z; cbn in Z; lia.
Qed.

(** The conclusion for one started item. *)
Definition leaf_ok (e : wenv) (np np' : nat) (l : leaf) : Prop :=
  (forall o, is_end o -> holds l o -> env_has e o \/ np <= pipe_no o < np') /\
  (forall k, ~ (holds l (OPipeR k) /\ holds l (OPipeW k))).

Lemma leaf_ok_weaken e e' a a' b b' l :
  (forall o, is_end o -> env_has e o -> env_has e' o \/ a' <= pipe_no o < b') -> a' <= a -> b <= b' ->
  leaf_ok e a b l -> leaf_ok e' a' b' l.
Proof.
  intros He Ha Hb [A B]. split; [|exact B]. intros o Ho H. destruct (A o Ho H) as [X|X]; [auto|right; lia].
Qed.

Lemma asked_range e k : forall np nt j, asked e np k = Some j -> np <= j < snd (fst (make e np nt)).
Proof.
  induction e as [|[k0 [w f]] e IH]; intros np nt j; cbn; [discriminate|].
  assert (M : forall np nt, np <= snd (fst (make e np nt))).
  { intros a b. destruct (make e a b) as [[m x] y] eqn:E. cbn. eapply make_mono; eauto. }
  destruct w; cbn.
  - pose proof (M np nt) as M1. pose proof (IH np nt j) as H. destruct (make e np nt) as [[? ?] ?]. cbn in *.
    destruct (Nat.eqb k k0); [discriminate|exact H].
  - pose proof (M np nt) as M1. pose proof (IH np nt j) as H. destruct (make e np nt) as [[? ?] ?]. cbn in *.
    destruct (Nat.eqb k k0); [discriminate|exact H].
  - pose proof (M (S np) nt) as M1. pose proof (IH (S np) nt j) as H. destruct (make e (S np) nt) as [[? ?] ?]. cbn in *.
    destruct (Nat.eqb k k0); intros E; [injection E as <-; lia|]. specialize (H E). lia.
  - pose proof (M np (S nt)) as M1. pose proof (IH np (S nt) j) as H. destruct (make e np (S nt)) as [[? ?] ?]. cbn in *.
    destruct (Nat.eqb k k0); [discriminate|exact H].
Qed.

Lemma wire_function_out inp e np nt k : w_out (wire_function inp e np nt) = Some k -> np <= k < w_np (wire_function inp e np nt).
Proof.
  unfold wire_function. pose proof (asked_range e 1 np nt k) as H. destruct (make e np nt) as [[m a] b]. exact H.
Qed.
Lemma wire_function_in inp e np nt k : w_in (wire_function inp e np nt) = Some k -> np <= k < w_np (wire_function inp e np nt).
Proof.
  unfold wire_function. pose proof (asked_range e 0 np nt k) as H. destruct (make e np nt) as [[m a] b]. exact H.
Qed.
Lemma all_mono l : Forall (fun a => match a with APipeline q => wire_mono_at q | _ => True end) l.
Proof. apply Forall_forall. intros x _. destruct x; auto. apply wire_mono. Qed.
Lemma wire_out p : forall e np nt k, w_out (wire p e np nt) = Some k -> np <= k < w_np (wire p e np nt).
Proof.
  induction p as [args HF|b|a b IHa IHb|a b IHa IHb|q crs IH|] using pl_ind'; intros e np nt k.
  - rewrite wire_PCmd. pose proof (asked_range e 1 np nt k) as H. destruct (make e np nt) as [[m a] b].
    destruct (wire_args m args a b) as [[[ls ws] np2] nt2] eqn:E2. cbn.
    apply (wire_args_mono m args (all_mono args)) in E2. intros X. specialize (H X). cbn in H. lia.
  - apply wire_function_out.
  - rewrite wire_PPipe. cbv zeta. destruct (w_out (wire a (ask_stdout e) np nt)) eqn:E; [|apply IHa].
    cbn. intros X. apply IHb in X. pose proof (wire_mono a (ask_stdout e) np nt). lia.
  - cbn [wire w_out]. discriminate.
  - cbn [wire]. apply IH.
  - discriminate.
Qed.

Lemma wire_function_ends inp e np nt : ends_ok e np ->
  Forall (leaf_ok e np (w_np (wire_function inp e np nt))) (w_leaves (wire_function inp e np nt)).
Proof.
  intros H. unfold wire_function. destruct (make e np nt) as [[m a] b] eqn:E. cbn. constructor; [|constructor].
  destruct (make_has e _ _ _ _ _ E) as [_ Hh]. destruct (make_ends _ _ _ _ _ _ E H) as [_ Hb].
  assert (I1 : forall o, is_end o -> holds (LFun (if inp then io_of m 0 else None) (io_of m 1)) o -> env_has m o).
  { intros o Ho [X|X]; [|now apply io_has in X]. destruct inp; [now apply io_has in X|discriminate]. }
  split; [intros o Ho X; apply Hh; auto|]. intros k [X Y]. apply (Hb k). split; apply I1; auto; exact I.
Qed.

Definition ends_at (p : pl) : Prop := forall e np nt, ends_ok e np ->
  Forall (leaf_ok e np (w_np (wire p e np nt))) (w_leaves (wire p e np nt)).

Lemma wire_args_ends m np0 l :
  Forall (fun a => match a with APipeline q => ends_at q | _ => True end) l -> ends_ok m np0 ->
  forall np nt ls ws np' nt', np0 <= np -> wire_args m l np nt = (ls, ws, np', nt') ->
  np <= np' /\ Forall (leaf_ok m np np') ls /\
  (forall o, In (WArg o) ws -> is_end o /\ np <= pipe_no o < np') /\
  (forall k, ~ (In (WArg (OPipeR k)) ws /\ In (WArg (OPipeW k)) ws)).
Proof.
  intros HF Hm. 
  assert (Step : forall np n1 np' ls1 l1 w1 w,
    np <= n1 -> n1 <= np' -> Forall (leaf_ok m np n1) ls1 -> Forall (leaf_ok m n1 np') l1 ->
    (forall o, In (WArg o) w1 -> is_end o /\ n1 <= pipe_no o < np') ->
    (forall k, ~ (In (WArg (OPipeR k)) w1 /\ In (WArg (OPipeW k)) w1)) ->
    (forall o, w = WArg o -> is_end o /\ np <= pipe_no o < n1) ->
    np <= np' /\ Forall (leaf_ok m np np') (ls1 ++ l1) /\
    (forall o, In (WArg o) (w :: w1) -> is_end o /\ np <= pipe_no o < np') /\
    (forall k, ~ (In (WArg (OPipeR k)) (w :: w1) /\ In (WArg (OPipeW k)) (w :: w1)))).
  { intros np n1 np' ls1 l1 w1 w A B F1 F2 C D E. split; [lia|]. split; [|split].
    - apply Forall_app. split; (eapply Forall_impl; [|eassumption]); intros x; apply leaf_ok_weaken; auto; lia.
    - intros o [X|X]; [destruct (E o X)|destruct (C o X)]; split; auto; lia.
    - intros k [[X|X] [Y|Y]].
      + congruence.
      + destruct (E _ X), (C _ Y). cbn in *. lia.
      + destruct (E _ Y), (C _ X). cbn in *. lia.
      + exact (D k (conj X Y)). }
  induction HF as [|a l Ha HF IH]; intros np nt ls ws np' nt' Hle; cbn [wire_args]; fold (wire_args m).
  - intros E. injection E as <- <- <- _. split; [lia|]. split; [constructor|]. split; [intros o []|intros k [[] _]].
  - destruct a as [w|q| |]; cbv zeta.
    + destruct (wire_args m l np nt) as [[[l1 w1] n1] t1] eqn:E1. intros E. injection E as <- <- <- _.
      destruct (IH _ _ _ _ _ _ Hle E1) as [A [B [C D]]]. split; [exact A|]. split; [exact B|]. split.
      * intros o [X|X]; [discriminate|auto].
      * intros k [[X|X] [Y|Y]]; try discriminate. exact (D k (conj X Y)).
    + pose proof (wire_mono q (ask_stdout m) np nt) as M.
      pose proof (Ha (ask_stdout m) np nt (ends_ok_ask _ _ _ _ (ends_ok_le _ _ _ Hle Hm))) as F1.
      pose proof (wire_out q (ask_stdout m) np nt) as O.
      destruct (wire_args m l (w_np (wire q (ask_stdout m) np nt)) (w_nt (wire q (ask_stdout m) np nt))) as [[[l1 w1] n1] t1] eqn:E1.
      intros E. injection E as <- <- <- _.
      destruct (IH _ _ _ _ _ _ (Nat.le_trans _ _ _ Hle M) E1) as [A [B [C D]]].
      apply (Step np _ n1 _ _ _ _ M A); auto.
      * eapply Forall_impl; [|exact F1]. intros x. apply leaf_ok_weaken; auto; try lia.
        intros o Ho X. apply env_has_dset in X as [X|X]; [auto|discriminate].
      * intros o X. destruct (w_out (wire q (ask_stdout m) np nt)) as [k|]; [|discriminate]. injection X as <-.
        split; [exact I|]. apply O. reflexivity.
    + pose proof (wire_function_mono true (ask_stdin m) np nt) as M.
      pose proof (wire_function_ends true (ask_stdin m) np nt (ends_ok_ask _ _ _ _ (ends_ok_le _ _ _ Hle Hm))) as F1.
      pose proof (wire_function_in true (ask_stdin m) np nt) as O.
      destruct (wire_args m l (w_np (wire_function true (ask_stdin m) np nt)) (w_nt (wire_function true (ask_stdin m) np nt))) as [[[l1 w1] n1] t1] eqn:E1.
      intros E. injection E as <- <- <- _.
      destruct (IH _ _ _ _ _ _ (Nat.le_trans _ _ _ Hle M) E1) as [A [B [C D]]].
      apply (Step np _ n1 _ _ _ _ M A); auto.
      * eapply Forall_impl; [|exact F1]. intros x. apply leaf_ok_weaken; auto; try lia.
        intros o Ho X. apply env_has_dset in X as [X|X]; [auto|discriminate].
      * intros o X. destruct (w_in (wire_function true (ask_stdin m) np nt)) as [k|]; [|discriminate]. injection X as <-.
        split; [exact I|]. apply O. reflexivity.
    + pose proof (wire_function_mono false (ask_stdout m) np nt) as M.
      pose proof (wire_function_ends false (ask_stdout m) np nt (ends_ok_ask _ _ _ _ (ends_ok_le _ _ _ Hle Hm))) as F1.
      pose proof (wire_function_out false (ask_stdout m) np nt) as O.
      destruct (wire_args m l (w_np (wire_function false (ask_stdout m) np nt)) (w_nt (wire_function false (ask_stdout m) np nt))) as [[[l1 w1] n1] t1] eqn:E1.
      intros E. injection E as <- <- <- _.
      destruct (IH _ _ _ _ _ _ (Nat.le_trans _ _ _ Hle M) E1) as [A [B [C D]]].
      apply (Step np _ n1 _ _ _ _ M A); auto.
      * eapply Forall_impl; [|exact F1]. intros x. apply leaf_ok_weaken; auto; try lia.
        intros o Ho X. apply env_has_dset in X as [X|X]; [auto|discriminate].
      * intros o X. destruct (w_out (wire_function false (ask_stdout m) np nt)) as [k|]; [|discriminate]. injection X as <-.
        split; [exact I|]. apply O. reflexivity.
Qed.

Lemma wire_ends p : ends_at p.
Proof.
  induction p as [args HF|b|a b IHa IHb|a b IHa IHb|q crs IH|] using pl_ind'; intros e np nt He.
  - rewrite wire_PCmd. destruct (make e np nt) as [[m np1] nt1] eqn:E.
    pose proof (make_ends _ _ _ _ _ _ E He) as Hm. destruct (make_has e _ _ _ _ _ E) as [Hle Hh].
    destruct (wire_args m args np1 nt1) as [[[ls ws] np2] nt2] eqn:E2. cbn.
    assert (HF' : Forall (fun a => match a with APipeline q => ends_at q | _ => True end) args).
    { eapply Forall_impl; [|exact HF]. intros x. destruct x; auto. }
    destruct (wire_args_ends m np1 args HF' Hm _ _ _ _ _ _ (le_n _) E2) as [A [B [C D]]].
    apply Forall_app. split.
    + eapply Forall_impl; [|exact B]. intros x. apply leaf_ok_weaken; try lia.
      intros o Ho X. destruct (Hh o Ho X); [auto|right; lia].
    + constructor; [|constructor]. destruct Hm as [M1 M2].
      assert (I1 : forall n o, io_of m n = Some o -> is_end o -> env_has m o) by apply io_has. split.
      * intros o Ho [[n X]|X].
        -- apply io_has in X; [|exact Ho]. destruct (Hh o Ho X); [auto|right; lia].
        -- destruct (C o X). right. lia.
      * intros k [[[n X]|X] [[n' Y]|Y]].
        -- apply (M2 k). split; eapply I1; eauto; exact I.
        -- apply io_has in X; [|exact I]. specialize (M1 _ (endR k) X). destruct (C _ Y). cbn in *. lia.
        -- apply io_has in Y; [|exact I]. specialize (M1 _ (endW k) Y). destruct (C _ X). cbn in *. lia.
        -- exact (D k (conj X Y)).
  - apply wire_function_ends. exact He.
  - rewrite wire_PPipe. cbv zeta.
    pose proof (IHa (ask_stdout e) np nt (ends_ok_ask _ _ _ _ He)) as Fa.
    pose proof (wire_mono a (ask_stdout e) np nt) as Ma.
    assert (Fa' : forall n', w_np (wire a (ask_stdout e) np nt) <= n' -> Forall (leaf_ok e np n') (w_leaves (wire a (ask_stdout e) np nt))).
    { intros n' Hn. eapply Forall_impl; [|exact Fa]. intros x. apply leaf_ok_weaken; auto.
      intros o Ho X. apply env_has_dset in X as [X|X]; [auto|discriminate]. }
    destruct (w_out (wire a (ask_stdout e) np nt)) as [k|] eqn:Eo; [|apply Fa'; lia].
    apply wire_out in Eo.
    set (na := w_np (wire a (ask_stdout e) np nt)) in *. set (ta := w_nt (wire a (ask_stdout e) np nt)) in *.
    assert (Hf : ends_ok (feed_stdin e k) na).
    { destruct He as [A B].
      assert (X : forall o, is_end o -> env_has (feed_stdin e k) o -> env_has e o \/ o = OPipeR k).
      { intros o Ho H. apply env_has_dset in H as [H|H]; [auto|]. cbn in H. injection H as ->. auto. }
      split.
      - intros o Ho H. destruct (X o Ho H) as [Y| ->]; [specialize (A o Ho Y); lia|cbn; lia].
      - intros j [H1 H2]. destruct (X _ (endW j) H2) as [Y2|]; [|discriminate].
        destruct (X _ (endR j) H1) as [Y1|Y1].
        + exact (B j (conj Y1 Y2)).
        + injection Y1 as ->. specialize (A _ (endW _) Y2). cbn in A. lia. }
    pose proof (IHb (feed_stdin e k) na ta Hf) as Fb. pose proof (wire_mono b (feed_stdin e k) na ta) as Mb.
    cbn. apply Forall_app. split; [apply Fa'; exact Mb|].
    eapply Forall_impl; [|exact Fb]. intros x. apply leaf_ok_weaken; try lia.
    intros o Ho H. apply env_has_dset in H as [H|H]; [auto|]. cbn in H. injection H as <-. right. cbn. lia.
  - cbn [wire w_leaves w_np].
    pose proof (IHa e np nt He) as Fa. pose proof (wire_mono a e np nt) as Ma.
    set (na := w_np (wire a e np nt)) in *. set (ta := w_nt (wire a e np nt)) in *.
    pose proof (IHb e na ta (ends_ok_le _ _ _ Ma He)) as Fb. pose proof (wire_mono b e na ta) as Mb.
    apply Forall_app. split; (eapply Forall_impl; [|eassumption]); intros x; apply leaf_ok_weaken; auto; lia.
  - cbn [wire].
    assert (Ho : ends_ok (override e (dvals crs)) np).
    { destruct He as [A B]. split.
      - intros o Ho X. apply env_has_override in X. auto.
      - intros k [X Y]. apply env_has_override in X, Y. exact (B k (conj X Y)). }
    eapply Forall_impl; [|apply (IH _ np nt Ho)]. intros x. apply leaf_ok_weaken; auto.
    intros o _ X. left. eapply env_has_override. exact X.
  - constructor.
Qed.

(** In an environment whose stdin and stdout are not ends of a pipe made here. *)
Theorem no_both_ends p o0 o1 piped np nt l k :
  (forall o, o = o0 \/ o = o1 -> is_end o -> pipe_no o < np) ->
  (forall j, ~ (In (OPipeR j) [o0; o1] /\ In (OPipeW j) [o0; o1])) ->
  In l (w_leaves (wire p (top_env o0 o1 piped) np nt)) ->
  ~ (holds l (OPipeR k) /\ holds l (OPipeW k)).
Proof.
  intros H1 H2 Hl.
  assert (He : ends_ok (top_env o0 o1 false) np).
  { assert (X : forall o, env_has (top_env o0 o1 false) o -> o = o0 \/ o = o1).
    { intros o [n [f [E|[E|[E|[]]]]]]; try discriminate E; inversion E; auto. }
    split; [intros o Ho Hh; auto|]. intros j [A B].
    apply (H2 j). cbn. destruct (X _ A), (X _ B); auto. }
  assert (He' : ends_ok (top_env o0 o1 piped) np).
  { destruct piped; [|exact He]. apply (ends_ok_ask _ _ 1 out_flags He). }
  pose proof (wire_ends p _ np nt He') as F. rewrite Forall_forall in F. apply (F l Hl).
Qed.
