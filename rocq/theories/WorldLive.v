(** Waiters get what they wait for: exclusive waiters own the future, the event
    loop comes to rest, and at rest nothing that could go on is waiting. *)
From Verif Require Import Py WorldModel WorldSpec WorldProofs WorldWait WorldStep.

(** ** The future belongs to the waiter *)
Definition XF (w : world) : Prop :=
  forall t, t < w_nw w -> wt_phase (w_wt w t) = WWait -> p_future (w_pl w (wt_pl (w_wt w t))) = Some t.

Lemma XF_eq w w' : w_wt w' = w_wt w -> w_nw w' = w_nw w -> (forall p, p_future (w_pl w' p) = p_future (w_pl w p)) -> XF w -> XF w'.
Proof. intros A B C X t. rewrite A, B. intros Ht Hp. rewrite C. auto. Qed.
Lemma XF_wake_gen w p x t : XF w -> p_future (w_pl w p) = Some t -> 
  XF (set_wt (set_pl w p x) t (mkW (wt_pl (w_wt w t)) WReady (wt_owner (w_wt w t)))).
Proof.
  intros X Hf t' Ht. cbn in *. unfold upd at 1. unfold upd at 2. destruct (Nat.eqb_spec t t') as [<-|Hn]; [discriminate|].
  intros Hp. specialize (X t' Ht Hp). unfold upd. destruct (Nat.eqb_spec p (wt_pl (w_wt w t'))) as [E|]; [|exact X]. congruence.
Qed.
Lemma XF_wake w p : XF w -> XF (wake w p).
Proof.
  intros X. unfold wake. destruct (p_future (w_pl w p)) as [t|] eqn:E; [|exact X]. now apply XF_wake_gen.
Qed.
Lemma XF_set_pl w p x : XF w -> p_future x = p_future (w_pl w p) -> XF (set_pl w p x).
Proof. intros X E. eapply XF_eq; [..|exact X]; auto. intros q. cbn. unfold upd. destruct (Nat.eqb_spec p q) as [<-|]; auto. Qed.
Lemma XF_hf w p : XF w -> XF (handle_finish w p).
Proof.
  intros X. unfold handle_finish. destruct (_ && _); [|now apply XF_wake].
  destruct (p_bad (w_pl w p)); [now apply XF_set_pl|]. apply XF_wake.
  eapply XF_eq; [..|apply (XF_set_pl w p)]; cbn; auto.
Qed.
Lemma XF_signals w s p b : XF w -> XF (fold_left (signal_item s) (p_items (w_pl w p)) (set_susp w p b)).
Proof.
  intros X. destruct (signals_same s (p_items (w_pl w p)) (set_susp w p b)) as [A [B [C _]]].
  eapply XF_eq; [exact A|exact B| |apply (XF_set_pl w p); [exact X|]]; [|reflexivity]. intros q. rewrite C. reflexivity.
Qed.
Lemma XF_item w i x : XF w -> XF (set_item w i x). Proof. intros X. exact X. Qed.
Lemma XF_done w t pl r o : XF w -> XF (set_wt w t (mkW pl (WDone r) o)).
Proof. intros X t' Ht. cbn in *. unfold upd. destruct (Nat.eqb_spec t t') as [<-|Hn]; [discriminate|]. auto. Qed.
Lemma XF_wait_loop w t : XF w -> t < w_nw w -> exclusive (wait_loop w t) -> XF (wait_loop w t).
Proof.
  intros X Ht. unfold wait_loop.
  destruct (negb (p_susp (w_pl w (wt_pl (w_wt w t)))) && pl_running w (wt_pl (w_wt w t))) eqn:E.
  - intros Ex t' Ht' Hp. cbn in Ht'.
    assert (D : t' = t \/ wt_pl (w_wt w t') <> wt_pl (w_wt w t)).
    { destruct (Nat.eq_dec t' t); [now left|right]. intros Y. apply n. apply Ex.
      - split; [exact Ht'|]. now rewrite Hp.
      - split; [exact Ht|]. cbn. now rewrite upd_same.
      - cbn. rewrite upd_same, upd_other by exact n. exact Y. }
    cbn in *. destruct D as [->|D]; [now rewrite !upd_same|]. assert (Hn : t' <> t) by congruence.
    rewrite (upd_other _ t) in * by exact Hn. rewrite upd_other by exact D. now apply X.
  - intros _. set (rr := if p_susp _ then _ else _). assert (G : XF (fst rr)).
    { unfold rr. destruct (p_susp _); [|destruct (pl_failed _ _); exact X]. now apply XF_signals. }
    destruct rr as [w1 r]. cbn [fst] in G.
    assert (G2 : XF (set_wt (set_current w1 None) t (mkW (wt_pl (w_wt w t)) (WDone r) (wt_owner (w_wt w t))))).
    { apply XF_done. exact G. }
    destruct (wt_owner (w_wt w t)); [|exact G2]. destruct r; try exact G2. apply XF_hf. exact G2.
Qed.
Lemma XF_wait_begin w p o : XF w -> exclusive (wait_begin w p o) -> XF (wait_begin w p o).
Proof.
  intros X. unfold wait_begin. set (w1 := set_wts _ _ _).
  assert (X1 : XF w1).
  { intros t Ht. cbn in *. unfold upd. destruct (Nat.eqb_spec (w_nw w) t); [discriminate|]. intros Hp. apply X; [lia|exact Hp]. }
  set (w2 := if p_inter (w_pl w1 p) then set_current w1 (Some p) else w1). assert (X2 : XF w2 /\ w_nw w2 = S (w_nw w)) by (unfold w2; destruct (p_inter _); split; auto).
  destruct X2 as [X2 N2]. assert (X3 : XF (pl_restart w2 p)) by now apply XF_signals.
  apply XF_wait_loop; [exact X3|]. unfold pl_restart. destruct (signals_same SIGCONT (p_items (w_pl w2 p)) (set_susp w2 p false)) as [_ [-> _]]. cbn. lia.
Qed.
Lemma XF_stop_event w : XF w -> XF (stop_event w).
Proof.
  intros X. unfold stop_event. destruct (w_current w) as [p|]; [|exact X].
  destruct (p_future (w_pl w p)) as [t|] eqn:E; [now apply (XF_wake_gen w p)|].
  eapply XF_set_pl; [exact X|]. cbn. congruence.
Qed.
Lemma proc_event_same w i e : w_wt (proc_event w i e) = w_wt w /\ w_nw (proc_event w i e) = w_nw w /\ w_pl (proc_event w i e) = w_pl w.
Proof. unfold proc_event. destruct (N.eqb _ _); [destruct (i_kind (w_item w i))|]; auto. Qed.
Lemma XF_proc_event w i e : XF w -> XF (proc_event w i e).
Proof. destruct (proc_event_same w i e) as [A [B C]]. intros X. eapply XF_eq; [exact A|exact B| |exact X]. intros p. now rewrite C. Qed.
Lemma XF_step mgr w l w' : AI w -> XF w -> step mgr w l = Some w' -> exclusive w' -> XF w'.
Proof.
  intros A X H Ex. destruct l as [pid e| |pid| |sender|i fl|i|t|ss inter bad|p|p|p]; cbn [step] in H.
  - destruct (w_kern w pid); try discriminate. destruct (valid_event e); [|discriminate]. injection H as <-. exact X.
  - destruct (_ && _); [|discriminate]. injection H as <-. exact X.
  - destruct (w_reaping w); [|discriminate].
    destruct (w_kern w pid) as [|i [e|]|i e] eqn:Ek; try discriminate; injection H as <-;
      (rewrite dispatch_chld by (try apply (a_k _ A); reflexivity)); destruct (rfind _ _) as [j|];
      try exact X; apply XF_proc_event; exact X.
  - destruct (_ && _); [|discriminate]. injection H as <-. exact X.
  - destruct (w_reaping w); [discriminate|]. destruct mgr; injection H as <-; [|exact X].
    rewrite dispatch_tstp by (try apply (a_k _ A); reflexivity). pose proof (XF_stop_event w X) as X1. set (w1 := stop_event w) in *.
    destruct (rfind _ _) as [j|]; [|exact X1]. destruct (proc_event_same w1 j (mkSI SIGTSTP sender 0 0)) as [Y1 [Y2 Y3]].
    eapply XF_eq; [exact Y1|exact Y2| |exact X1]. intros p. now rewrite Y3.
  - destruct (w_reaping w); [discriminate|]. destruct (i_kind (w_item w i)); try discriminate.
    destruct (i_done (w_item w i)); [discriminate|]. destruct (i <? w_ni w); [|discriminate]. injection H as <-. exact X.
  - destruct (w_reaping w); [discriminate|]. destruct (i <? w_ni w); [|discriminate].
    destruct (i_task (w_item w i)); destruct (i_kind (w_item w i)); try discriminate; try (destruct (i_done (w_item w i)) as [[|]|]; try discriminate);
      injection H as <-; try exact X; try (apply XF_hf; exact X); (apply XF_wait_begin; [exact X|exact Ex]).
  - destruct (w_reaping w); [discriminate|]. destruct (Nat.ltb_spec t (w_nw w)) as [Ht|]; [|discriminate].
    destruct (wt_phase (w_wt w t)); try discriminate. injection H as <-. now apply XF_wait_loop.
  - destruct (w_reaping w); [discriminate|]. destruct (startable w [] ss) eqn:Es; [|discriminate]. injection H as <-.
    pose proof (start_started w ss inter bad (a_b _ A)) as S. intros t. rewrite (s_nw _ _ _ _ S), (s_wt _ _ _ _ S). intros Ht Hp.
    specialize (X t Ht Hp). rewrite (s_pl _ _ _ _ S); [exact X|]. pose proof (b_wt _ (a_b _ A) t Ht). lia.
  - destruct (w_reaping w); [discriminate|]. destruct (p <? w_np w); [|discriminate]. injection H as <-. now apply XF_wait_begin.
  - destruct (w_reaping w); [discriminate|]. destruct (p <? w_np w); [|discriminate]. injection H as <-. now apply XF_signals.
  - destruct (w_reaping w); [discriminate|]. destruct (p <? w_np w); [|discriminate]. injection H as <-. now apply XF_signals.
Qed.
Lemma XF_xreach mgr w : xreach mgr w -> XF w.
Proof.
  intros H. induction H; [intros t Ht; cbn in Ht; lia|]. eapply XF_step; eauto. apply (AI_reach mgr). now apply xreach_reachable.
Qed.

(** ** At rest *)
Lemma quiescent_facts mgr w : AI w -> quiescent mgr w ->
  w_reaping w = false /\ w_chld w = false /\ (forall pid, collectable (w_kern w pid) = false) /\
  (forall t, t < w_nw w -> wt_phase (w_wt w t) <> WReady) /\
  (forall i, i < w_ni w -> match i_kind (w_item w i) with
     | KFg _ => i_task (w_item w i) <> TNew
     | _ => i_task (w_item w i) = TWait -> i_done (w_item w i) = None end).
Proof.
  intros [K B J] Q.
  assert (R : w_reaping w = false).
  { destruct (w_reaping w) eqn:E; [|reflexivity]. exfalso.
    destruct (nothing_pending w) eqn:En.
    - specialize (Q LReapEnd Logic.I). cbn in Q. rewrite E, En in Q. discriminate.
    - assert (X : exists i pid, i < w_ni w /\ i_kind (w_item w i) = KProc pid /\ collectable (w_kern w pid) = true).
      { unfold nothing_pending in En. rewrite <- Bool.not_true_iff_false, forallb_forall in En.
        destruct (existsb (fun i => match i_kind (w_item w i) with KProc pid => collectable (w_kern w pid) | _ => false end) (seq 0 (w_ni w))) eqn:Ex.
        - apply existsb_exists in Ex. destruct Ex as [i [Hi Hc]]. apply in_seq in Hi. destruct (i_kind (w_item w i)) as [pid| |] eqn:Ek; try discriminate.
          exists i, pid. repeat split; auto. lia.
        - exfalso. apply En. intros i Hi. rewrite existsb_false in Ex. specialize (Ex i Hi). destruct (i_kind (w_item w i)); auto. now rewrite Ex. }
      destruct X as [i [pid [Hi [Hk Hc]]]]. specialize (Q (LReap pid) Logic.I). cbn in Q. rewrite E in Q.
      destruct (w_kern w pid) as [|j [e|]|j e]; discriminate. }
  assert (C : w_chld w = false).
  { destruct (w_chld w) eqn:E; [|reflexivity]. specialize (Q LSigchld Logic.I). cbn in Q. rewrite E, R in Q. discriminate. }
  split; [exact R|]. split; [exact C|]. split; [|split].
  - intros pid. destruct (collectable (w_kern w pid)) eqn:E; [|reflexivity]. destruct (k_pend _ K pid E); congruence.
  - intros t Ht X. specialize (Q (LResume t) Logic.I). cbn -[Nat.ltb] in Q. rewrite R, X in Q. destruct (Nat.ltb_spec t (w_nw w)); [discriminate|lia].
  - intros i Hi. specialize (Q (LTask i) Logic.I). cbn -[Nat.ltb] in Q. rewrite R in Q. destruct (Nat.ltb_spec i (w_ni w)); [|lia].
    destruct (i_kind (w_item w i)) eqn:Ek.
    + intros X. rewrite X in Q. destruct (i_done (w_item w i)) as [[|]|]; congruence.
    + intros X. rewrite X in Q. destruct (i_done (w_item w i)) as [[|]|]; congruence.
    + intros X. rewrite X in Q. discriminate.
Qed.

(** the item that a waiter at rest is waiting for *)
Lemma waiting_for mgr w t : xreach mgr w -> quiescent mgr w -> t < w_nw w ->
  let p := wt_pl (w_wt w t) in plain w p -> p_bad (w_pl w p) = false ->
  (exists r, wt_phase (w_wt w t) = WDone r) \/
  exists i, In i (p_items (w_pl w p)) /\
    match i_kind (w_item w i) with
    | KProc pid => (exists pend, w_kern w pid = KAlive i pend) \/ (exists h s c, w_hist w i = h ++ [CKill s c])
    | _ => i_done (w_item w i) <> Some false
    end.
Proof.
  intros X Q Ht p Pl Hb. pose proof (AI_reach _ _ (xreach_reachable _ _ X)) as A. pose proof (XF_xreach _ _ X) as F.
  destruct (quiescent_facts _ _ A Q) as [R [C [Nc [Nr T]]]]. destruct A as [K B J].
  destruct (wt_phase (w_wt w t)) as [| |r] eqn:Eph; [|now apply Nr in Eph|eauto]. right.
  pose proof (F t Ht Eph) as Hf. fold p in Hf. pose proof (b_wait _ B t Ht Eph) as Hne. fold p in Hne.
  assert (N : ~ all_ended w p).
  { intros E. destruct (J p Hne Pl Hb E) as [Y _]. congruence. }
  assert (G : exists i, In i (p_items (w_pl w p)) /\ i_task (w_item w i) <> TEnded).
  { clear -N. unfold all_ended in N. revert N. generalize (p_items (w_pl w p)) as l. induction l as [|i l IH]; intros N.
    - exfalso. apply N. intros i [].
    - destruct (i_task (w_item w i)) eqn:E; try (exists i; split; [now left|congruence]).
      destruct IH as [j [Hj Y]]; [|exists j; split; [now right|exact Y]]. intros Z. apply N. intros j [<-|Hj]; auto. }
  destruct G as [i [Hi Hne']]. exists i. split; [exact Hi|]. destruct (b_items _ B _ _ Hi) as [Li _].
  specialize (T i Li). specialize (Pl i Hi). pose proof (b_task _ B i Li) as Tk.
  destruct (i_kind (w_item w i)) as [pid| |q] eqn:Ek; [| |contradiction].
  - specialize (Tk ltac:(discriminate)). destruct (k_fate _ K i pid Li Ek) as [Ho|[h [e [H1 [H2 [H3 [H4 H5]]]]]]].
    + left. specialize (Nc pid). destruct (w_kern w pid) as [|j pend|j e]; cbn in *; try discriminate. injection Ho as ->. eauto.
    + right. destruct e as [c|s k| |]; try discriminate; [|eauto]. exfalso. destruct H5 as [H5 _].
      destruct (i_task (w_item w i)); try contradiction; try congruence. specialize (T eq_refl). congruence.
  - specialize (Tk ltac:(discriminate)). destruct (i_task (w_item w i)); try contradiction; try congruence. specialize (T eq_refl). congruence.
Qed.

(** ** The loop comes to rest *)
Fixpoint sum (f : nat -> nat) (n : nat) : nat := match n with 0 => 0 | S n' => f n' + sum f n' end.
Lemma sum_ext f g n : (forall i, i < n -> f i = g i) -> sum f n = sum g n.
Proof. induction n as [|n IH]; intros H; cbn; [reflexivity|]. rewrite H, IH; auto. Qed.
Lemma sum_upd f g n i : i < n -> (forall j, j <> i -> g j = f j) -> sum g n + f i = sum f n + g i.
Proof.
  intros Hi Hj. induction n as [|n IH]; [lia|]. cbn. destruct (Nat.eq_dec n i) as [->|Hn].
  - rewrite (sum_ext g f i) by (intros j H; apply Hj; lia). lia.
  - rewrite (Hj n Hn). specialize (IH ltac:(lia)). lia.
Qed.
Definition wtask (x : item) : nat := match i_task x with TNew => 4 | TWait => 2 | _ => 0 end.
Definition wready (x : waiter) : nat := match wt_phase x with WReady => 1 | _ => 0 end.
Definition wpend (w : world) (i : nat) : nat :=
  match i_kind (w_item w i) with KProc pid => match owner (w_kern w pid) with Some j => if Nat.eqb j i then if collectable (w_kern w pid) then 1 else 0 else 0 | None => 0 end | _ => 0 end.
Definition mtask w := sum (fun i => wtask (w_item w i)) (w_ni w).
Definition mready w := sum (fun t => wready (w_wt w t)) (w_nw w).
Definition mpend w := sum (wpend w) (w_ni w).
Definition mb (b : bool) (n : nat) := if b then n else 0.
Definition measure w := mtask w + mready w + mpend w + mb (w_chld w) 2 + mb (w_reaping w) 1.

Definition sameK (w w' : world) : Prop := w_kern w' = w_kern w /\ w_chld w' = w_chld w /\ w_reaping w' = w_reaping w /\ w_ni w' = w_ni w /\
  forall i, i_kind (w_item w' i) = i_kind (w_item w i).
Lemma sameK_frame w w' : frame w w' -> sameK w w'.
Proof. intros F. repeat split; try apply F. Qed.
Lemma sameK_measure w w' : sameK w w' -> mpend w' = mpend w /\ w_chld w' = w_chld w /\ w_reaping w' = w_reaping w.
Proof.
  intros [A [B [C [D E]]]]. split; [|auto]. unfold mpend. rewrite D. apply sum_ext. intros i _. unfold wpend. rewrite E, A. reflexivity.
Qed.
Lemma mready_set w t x : t < w_nw w -> mready (set_wt w t x) + wready (w_wt w t) = mready w + wready x.
Proof.
  intros Ht. unfold mready. cbn [w_wt w_nw set_wt set_wts].
  pose proof (sum_upd (fun t => wready (w_wt w t)) (fun t' => wready (upd (w_wt w) t x t')) (w_nw w) t Ht) as H. cbn beta in H.
  rewrite upd_same in H. apply H. intros j Hj. now rewrite upd_other.
Qed.
Lemma mtask_set w i x : i < w_ni w -> mtask (set_item w i x) + wtask (w_item w i) = mtask w + wtask x.
Proof.
  intros Hi. unfold mtask. cbn [w_item w_ni set_item set_items].
  pose proof (sum_upd (fun i => wtask (w_item w i)) (fun j => wtask (upd (w_item w) i x j)) (w_ni w) i Hi) as H. cbn beta in H.
  rewrite upd_same in H. apply H. intros j Hj. now rewrite upd_other.
Qed.
Lemma wready_le x : wready x <= 1. Proof. unfold wready. destruct (wt_phase x); lia. Qed.
Lemma wake_measure w p : BI w -> mtask (wake w p) = mtask w /\ mready (wake w p) <= S (mready w).
Proof.
  intros B. unfold wake. destruct (p_future (w_pl w p)) as [t|] eqn:E; [|split; [reflexivity|lia]].
  destruct (b_fut _ B _ _ E) as [Ht [_ Hp]]. split; [reflexivity|].
  assert (Wr : wready (w_wt w t) = 0) by (unfold wready; now rewrite Hp).
  match goal with |- mready (set_wt ?w1 t ?x) <= _ => pose proof (mready_set w1 t x Ht) as H; change (mready w1) with (mready w) in H; change (w_wt w1) with (w_wt w) in H; change (wready x) with 1 in H end.
  rewrite Wr in H. lia.
Qed.
Lemma hf_measure w p : BI w -> p < w_np w -> mtask (handle_finish w p) = mtask w /\ mready (handle_finish w p) <= S (mready w).
Proof.
  intros B Hp. unfold handle_finish. destruct (negb (pl_running w p) && negb (p_finished (w_pl w p))) eqn:E; [|now apply wake_measure].
  apply andb_true_iff in E. destruct E as [E1 E2]. apply negb_true_iff in E1, E2.
  destruct (p_bad (w_pl w p)) eqn:Eb; [split; [reflexivity|unfold mready; cbn; lia]|].
  pose proof (BI_finish w p (remove_first (w_running w) p) B Hp E2 E1) as X. rewrite Eb in X. specialize (X eq_refl).
  destruct (wake_measure _ p X) as [Y1 Y2]. split; [exact Y1|]. exact Y2.
Qed.
Lemma wait_loop_measure w t : KI w -> BI w -> t < w_nw w -> wt_phase (w_wt w t) = WReady ->
  mtask (wait_loop w t) + mready (wait_loop w t) < mtask w + mready w.
Proof.
  intros K B Ht Hph. assert (Wr : wready (w_wt w t) = 1) by (unfold wready; now rewrite Hph).
  pose proof (b_wt _ B t Ht) as Hp.
  assert (NF : forall p, p_future (w_pl w p) <> Some t).
  { intros p X. destruct (b_fut _ B _ _ X) as [_ [_ Y]]. congruence. }
  unfold wait_loop. destruct (negb (p_susp (w_pl w (wt_pl (w_wt w t)))) && pl_running w (wt_pl (w_wt w t))) eqn:E.
  - match goal with |- mtask (set_wt ?w1 t ?x) + _ < _ => pose proof (mready_set w1 t x Ht) as H; change (mtask (set_wt w1 t x)) with (mtask w); change (mready w1) with (mready w) in H; change (w_wt w1) with (w_wt w) in H end.
    rewrite Wr in H. cbn in *. lia.
  - set (rr := if p_susp _ then _ else _).
    assert (G : BI (fst rr) /\ KI (fst rr) /\ frame w (fst rr) /\ w_wt (fst rr) = w_wt w /\ w_nw (fst rr) = w_nw w /\ w_item (fst rr) = w_item w /\
      (forall p, p_future (w_pl (fst rr) p) <> Some t) /\ result_ok (fst rr) (wt_pl (w_wt w t)) (snd rr)).
    { unfold rr. destruct (p_susp (w_pl w (wt_pl (w_wt w t)))) eqn:Es; cbn [fst snd].
      - split; [now apply BI_suspend|]. split; [eapply KI_frame; [apply frame_suspend|exact K]|]. split; [apply frame_suspend|].
        pose proof (suspend_stops w (wt_pl (w_wt w t))) as St.
        unfold pl_suspend in *. destruct (signals_same SIGSTOP (p_items (w_pl w (wt_pl (w_wt w t)))) (set_susp w (wt_pl (w_wt w t)) true)) as [E1 [E2 [E3 [E4 _]]]].
        split; [exact E1|]. split; [exact E2|]. split; [exact E4|]. split; [|exact St].
        intros p. rewrite E3. cbn. unfold upd. destruct (Nat.eqb_spec (wt_pl (w_wt w t)) p) as [<-|]; cbn; apply NF.
      - cbn in E. destruct (pl_failed w (wt_pl (w_wt w t))) eqn:Ef; cbn [fst snd];
          (split; [exact B|]; split; [exact K|]; split; [apply frame_refl|]; split; [reflexivity|]; split; [reflexivity|]; split; [reflexivity|]; split; [exact NF|]);
          apply result_now; auto; discriminate. }
    destruct rr as [w1 r]. cbn [fst snd] in G. destruct G as [B1 [K1 [F1 [W1 [N1 [I1 [NF1 R1]]]]]]].
    assert (B2 : BI (set_wt (set_current w1 None) t (mkW (wt_pl (w_wt w t)) (WDone r) (wt_owner (w_wt w t))))).
    { rewrite <- W1. apply (BI_wt_done (set_current w1 None) t r); cbn; auto.
      - apply BI_current; [exact B1|discriminate].
      - lia.
      - rewrite W1. eapply (result_frame w1); [exact B1|apply frame_set_current| |exact R1]. rewrite (f_np _ _ F1). exact Hp. }
    pose proof (mready_set (set_current w1 None) t (mkW (wt_pl (w_wt w t)) (WDone r) (wt_owner (w_wt w t))) ltac:(cbn; lia)) as H.
    set (w2 := set_wt _ _ _) in *. change (mready (set_current w1 None)) with (mready w1) in H. change (w_wt (set_current w1 None)) with (w_wt w1) in H.
    rewrite W1, Wr in H. cbn [wready wt_phase] in H.
    assert (M1 : mready w1 = mready w) by (unfold mready; now rewrite W1, N1).
    assert (T1 : mtask w2 = mtask w) by (unfold mtask, w2; cbn; rewrite I1, (f_ni _ _ F1); reflexivity).
    rewrite M1 in H.
    destruct (wt_owner (w_wt w t)) as [i|] eqn:Eo; [|cbn in *; lia].
    destruct (b_own _ B t i Ht Eo) as [Hi [Hk Htk]]. rewrite Hph in Htk.
    assert (Tk2 : wtask (w_item w2 i) = 2) by (unfold w2; cbn; rewrite I1; unfold wtask; now rewrite Htk).
    assert (Hi2 : i < w_ni w2) by (unfold w2; cbn; rewrite (f_ni _ _ F1); exact Hi).
    assert (Hk2 : i_kind (w_item w2 i) = KFg (wt_pl (w_wt w t))) by (unfold w2; cbn; rewrite I1; exact Hk).
    assert (Ow : forall t', t' < w_nw w2 -> wt_owner (w_wt w2 t') = Some i -> t' = t).
    { intros t' A C. eapply (b_own1 _ B2); eauto. { unfold w2; cbn; lia. } unfold w2; cbn. now rewrite upd_same. }
    destruct r.
    + set (x := mkI (i_kind (w_item w2 i)) (i_pl (w_item w2 i)) (i_last (w_item w2 i)) (i_done (w_item w2 i)) TEnded (i_seen (w_item w2 i))).
      assert (B3 : BI (set_item w2 i x)).
      { eapply BI_fg_item; eauto; [discriminate|]. intros t' A C. rewrite (Ow t' A C). unfold w2. cbn. now rewrite upd_same. }
      pose proof (mtask_set w2 i x Hi2) as H3. change (wtask x) with 0 in H3.
      destruct (hf_measure (set_item w2 i x) (i_pl (w_item w2 i)) B3) as [H4 H5]; [apply (b_ipl _ B2 i Hi2)|].
      change (mready (set_item w2 i x)) with (mready w2) in H5. cbn in *. lia.
    + match goal with |- mtask (set_item w2 i ?x) + _ < _ => pose proof (mtask_set w2 i x Hi2) as H3; change (wtask x) with 0 in H3; change (mready (set_item w2 i x)) with (mready w2) end. cbn in *. lia.
    + match goal with |- mtask (set_item w2 i ?x) + _ < _ => pose proof (mtask_set w2 i x Hi2) as H3; change (wtask x) with 0 in H3; change (mready (set_item w2 i x)) with (mready w2) end. cbn in *. lia.
Qed.
Lemma frame_measure w w' : frame w w' -> measure w' = mtask w' + mready w' + mpend w + mb (w_chld w) 2 + mb (w_reaping w) 1.
Proof. intros F. destruct (sameK_measure w w' (sameK_frame _ _ F)) as [A [B C]]. unfold measure. now rewrite A, B, C. Qed.
Lemma proc_event_tasks w i e : mtask (proc_event w i e) = mtask w.
Proof.
  assert (G : forall dn, mtask (set_item w i (mkI (i_kind (w_item w i)) (i_pl (w_item w i)) (Some e) dn (i_task (w_item w i)) (i_seen (w_item w i) ++ [e]))) = mtask w).
  { intros dn. unfold mtask. cbn. apply sum_ext. intros j _. unfold upd. destruct (Nat.eqb_spec i j) as [<-|]; reflexivity. }
  unfold proc_event. destruct (N.eqb _ _); [|apply G]. destruct (i_kind (w_item w i)); exact (G (Some false)).
Qed.
Lemma proc_event_sameK w i e : sameK w (proc_event w i e).
Proof.
  assert (G : forall dn, sameK w (set_item w i (mkI (i_kind (w_item w i)) (i_pl (w_item w i)) (Some e) dn (i_task (w_item w i)) (i_seen (w_item w i) ++ [e])))).
  { intros dn. repeat split; cbn; auto. intros j. unfold upd. destruct (Nat.eqb_spec i j) as [<-|]; reflexivity. }
  unfold proc_event. destruct (N.eqb _ _); [|apply G]. destruct (i_kind (w_item w i)); exact (G (Some false)).
Qed.
Lemma proc_event_measure w i e : measure (proc_event w i e) = measure w.
Proof.
  destruct (sameK_measure _ _ (proc_event_sameK w i e)) as [A [B C]]. unfold measure. rewrite A, B, C, proc_event_tasks.
  unfold mready. destruct (proc_event_same w i e) as [-> [-> _]]. reflexivity.
Qed.
Lemma reap_measure w pid i e c' h : KI w -> owner (w_kern w pid) = Some i -> collectable (w_kern w pid) = true -> collectable c' = false ->
  measure (dispatch (set_hist (set_kern w (updN (w_kern w) pid c')) h) (sigchld_info pid (status_word e))) < measure w.
Proof.
  intros K Ho Hc Hc'. destruct (k_kern _ K _ _ Ho) as [Hin Hnt]. destruct (k_regitem _ K _ _ Hin) as [Hi [Hk Hd]].
  rewrite dispatch_chld; [|apply K|reflexivity]. cbn [w_reg set_hist set_kern ssi_pid sigchld_info].
  rewrite (In_rfind _ _ _ (regok_NoDup _ (k_reg _ K)) Hin). rewrite proc_event_measure.
  set (w1 := set_hist _ _).
  assert (P : mpend w1 < mpend w).
  { unfold mpend. change (w_ni w1) with (w_ni w).
    pose proof (sum_upd (wpend w) (wpend w1) (w_ni w) i Hi) as H.
    assert (W : wpend w i = 1) by (unfold wpend; rewrite Hk, Ho, Nat.eqb_refl, Hc; reflexivity).
    assert (W1 : wpend w1 i = 0).
    { unfold wpend, w1. cbn [w_item w_kern set_hist set_kern]. rewrite Hk, updN_same, Hc'. destruct (owner c'); [destruct (Nat.eqb _ _)|]; reflexivity. }
    rewrite W, W1 in H. assert (X : forall j, j <> i -> wpend w1 j = wpend w j); [|specialize (H X); lia].
    intros j Hj. unfold wpend, w1. cbn [w_item w_kern set_hist set_kern]. destruct (i_kind (w_item w j)) as [q| |] eqn:Ek; auto.
    unfold updN. destruct (N.eqb_spec pid q) as [<-|]; [|reflexivity].
    rewrite Ho, Hc'. destruct (Nat.eqb_spec i j); [congruence|]. destruct (owner c'); [destruct (Nat.eqb _ _)|]; reflexivity. }
  unfold measure. change (mtask w1) with (mtask w). change (mready w1) with (mready w). change (w_chld w1) with (w_chld w). change (w_reaping w1) with (w_reaping w). lia.
Qed.
Lemma wait_begin_measure w p o : KI w -> BI w -> p < w_np w ->
  (forall i, o = Some i -> i < w_ni w /\ i_kind (w_item w i) = KFg p /\ i_task (w_item w i) = TWait /\ forall t, t < w_nw w -> wt_owner (w_wt w t) <> Some i) ->
  mtask (wait_begin w p o) + mready (wait_begin w p o) <= mtask w + mready w.
Proof.
  intros K B Hp Ho. destruct (wait_begin_pre w p o K B Hp Ho) as [K3 [B3 [W3 [N3 [F3 J3]]]]].
  unfold wait_begin. set (w1 := set_wts _ _ _) in *. set (w2 := if p_inter (w_pl w1 p) then _ else _) in *. set (w3 := pl_restart w2 p) in *.
  assert (I3 : w_item w3 = w_item w).
  { unfold w3, pl_restart. destruct (signals_same SIGCONT (p_items (w_pl w2 p)) (set_susp w2 p false)) as [_ [_ [_ [-> _]]]].
    unfold w2. destruct (p_inter _); reflexivity. }
  assert (E : w_wt w3 (w_nw w) = mkW p WReady o) by (rewrite W3; cbn; now rewrite upd_same).
  pose proof (wait_loop_measure w3 (w_nw w) K3 B3 ltac:(lia) ltac:(now rewrite E)) as H.
  assert (M : mready w3 = S (mready w)).
  { unfold mready. rewrite N3, W3. cbn. rewrite upd_same. cbn. f_equal. apply sum_ext. intros t Ht. rewrite upd_other by lia. reflexivity. }
  assert (T : mtask w3 = mtask w) by (unfold mtask; now rewrite I3, (f_ni _ _ F3)). lia.
Qed.
Lemma loop_measure mgr w l w' : AI w -> loop_label l -> step mgr w l = Some w' -> measure w' < measure w.
Proof.
  intros [K B J] L H. destruct l as [pid e| |pid| |sender|i fl|i|t|ss inter bad|p|p|p]; cbn [loop_label] in L; try contradiction; cbn [step] in H.
  - destruct (w_chld w) eqn:Ec; [|discriminate]. destruct (w_reaping w) eqn:Er; [discriminate|]. injection H as <-.
    unfold measure. rewrite Ec, Er. cbn [w_chld w_reaping set_reaping set_chld mb].
    match goal with |- mtask ?a + mready ?a + mpend ?a + _ + _ < _ => change (mtask a) with (mtask w); change (mready a) with (mready w); change (mpend a) with (mpend w) end. lia.
  - destruct (w_reaping w) eqn:Er; [|discriminate].
    destruct (w_kern w pid) as [|i [e|]|i e] eqn:Ek; try discriminate; injection H as <-; (eapply reap_measure; [exact K|rewrite Ek; reflexivity|rewrite Ek; reflexivity|reflexivity]).
  - destruct (w_reaping w) eqn:Er; [|discriminate]. destruct (nothing_pending w); [|discriminate]. injection H as <-.
    unfold measure. rewrite Er. cbn [w_chld w_reaping set_reaping mb].
    match goal with |- mtask ?a + mready ?a + mpend ?a + _ + _ < _ => change (mtask a) with (mtask w); change (mready a) with (mready w); change (mpend a) with (mpend w) end. lia.
  - destruct (w_reaping w) eqn:Er; [discriminate|]. destruct (Nat.ltb_spec i (w_ni w)) as [Hi|]; [|discriminate].
    assert (G : forall x, core x (w_item w i) -> mtask (set_item w i x) + wtask (w_item w i) = mtask w + wtask x) by (intros x _; now apply mtask_set).
    destruct (i_task (w_item w i)) eqn:Et; destruct (i_kind (w_item w i)) as [pid| |q] eqn:Ekd; try discriminate.
    + injection H as <-. rewrite <- Ekd.
      set (x := mkI (i_kind (w_item w i)) (i_pl (w_item w i)) (i_last (w_item w i)) (i_done (w_item w i)) TWait (i_seen (w_item w i))).
      set (w1 := set_item w i x).
      assert (B1 : BI w1).
      { eapply BI_fg_item; eauto; [discriminate|]. intros t Ht Ho. destruct (wt_phase (w_wt w t)); auto. }
      assert (F1 : frame w w1) by (apply frame_set_item; repeat split).
      assert (K1 : KI w1) by (eapply KI_frame; eauto).
      assert (Hq : q < w_np w1).
      { pose proof (b_fg _ B i q Hi Ekd). pose proof (b_ipl _ B i Hi) as [X _]. rewrite (f_np _ _ F1). lia. }
      assert (Ho : forall j, Some i = Some j -> j < w_ni w1 /\ i_kind (w_item w1 j) = KFg q /\ i_task (w_item w1 j) = TWait /\ forall t, t < w_nw w1 -> wt_owner (w_wt w1 t) <> Some j).
      { intros j X. injection X as <-. unfold w1. cbn. rewrite upd_same. cbn. split; [exact Hi|]. split; [exact Ekd|]. split; [reflexivity|].
        intros t Ht. now apply (b_new _ B). }
      pose proof (wait_begin_measure w1 q (Some i) K1 B1 Hq Ho) as M.
      rewrite (frame_measure w1 _ (frame_wait_begin w1 q (Some i))). unfold measure.
      pose proof (mtask_set w i x Hi) as T. fold w1 in T. assert (T0 : wtask (w_item w i) = 4) by (unfold wtask; now rewrite Et). assert (T1 : wtask x = 2) by reflexivity. rewrite T0, T1 in T.
      change (mready w1) with (mready w) in M. 
      destruct (sameK_measure w w1 (sameK_frame _ _ F1)) as [P1 [P2 P3]]. rewrite P1, P2, P3. lia.
    + destruct (i_done (w_item w i)) as [[|]|] eqn:Ed; [| |discriminate]; injection H as <-.
      * set (x := mkI _ _ _ _ _ _). pose proof (mtask_set w i x Hi) as T. assert (T0 : wtask (w_item w i) = 2) by (unfold wtask; now rewrite Et). assert (T1 : wtask x = 0) by reflexivity. rewrite T0, T1 in T.
        rewrite (frame_measure w _ (frame_set_item w i x ltac:(repeat split; cbn; congruence))). unfold measure.
        change (mready (set_item w i x)) with (mready w). lia.
      * rewrite <- Ekd, <- Ed. set (x := mkI _ _ _ _ _ _). pose proof (mtask_set w i x Hi) as T. assert (T0 : wtask (w_item w i) = 2) by (unfold wtask; now rewrite Et). assert (T1 : wtask x = 0) by reflexivity. rewrite T0, T1 in T.
        assert (B1 : BI (set_item w i x)) by (apply BI_task; auto; intros q; congruence).
        destruct (hf_measure (set_item w i x) (i_pl (w_item w i)) B1) as [H1 H2]; [apply (b_ipl _ B i Hi)|].
        assert (F : frame w (handle_finish (set_item w i x) (i_pl (w_item w i)))).
        { eapply frame_trans; [|apply frame_hf]. apply frame_set_item. repeat split; cbn; congruence. }
        rewrite (frame_measure w _ F). unfold measure. change (mready (set_item w i x)) with (mready w) in H2. lia.
    + destruct (i_done (w_item w i)) as [[|]|] eqn:Ed; [| |discriminate]; injection H as <-.
      * set (x := mkI _ _ _ _ _ _). pose proof (mtask_set w i x Hi) as T. assert (T0 : wtask (w_item w i) = 2) by (unfold wtask; now rewrite Et). assert (T1 : wtask x = 0) by reflexivity. rewrite T0, T1 in T.
        rewrite (frame_measure w _ (frame_set_item w i x ltac:(repeat split; cbn; congruence))). unfold measure.
        change (mready (set_item w i x)) with (mready w). lia.
      * rewrite <- Ekd, <- Ed. set (x := mkI _ _ _ _ _ _). pose proof (mtask_set w i x Hi) as T. assert (T0 : wtask (w_item w i) = 2) by (unfold wtask; now rewrite Et). assert (T1 : wtask x = 0) by reflexivity. rewrite T0, T1 in T.
        assert (B1 : BI (set_item w i x)) by (apply BI_task; auto; intros q; congruence).
        destruct (hf_measure (set_item w i x) (i_pl (w_item w i)) B1) as [H1 H2]; [apply (b_ipl _ B i Hi)|].
        assert (F : frame w (handle_finish (set_item w i x) (i_pl (w_item w i)))).
        { eapply frame_trans; [|apply frame_hf]. apply frame_set_item. repeat split; cbn; congruence. }
        rewrite (frame_measure w _ F). unfold measure. change (mready (set_item w i x)) with (mready w) in H2. lia.
  - destruct (w_reaping w) eqn:Er; [discriminate|]. destruct (Nat.ltb_spec t (w_nw w)) as [Ht|]; [|discriminate].
    destruct (wt_phase (w_wt w t)) eqn:Eph; try discriminate. injection H as <-.
    pose proof (wait_loop_measure w t K B Ht Eph) as M. rewrite (frame_measure w _ (frame_wait_loop w t)). unfold measure. lia.
Qed.
(** Every run of the event loop on its own is finite. *)
Theorem loop_rests mgr w : reachable mgr w -> forall ls w', Forall loop_label ls -> steps mgr w ls = Some w' -> List.length ls <= measure w.
Proof.
  intros R ls. revert w R. induction ls as [|l ls IH]; intros w R w' Hf H; cbn; [lia|]. inversion Hf; subst. cbn in H.
  destruct (step mgr w l) as [w1|] eqn:E; [|discriminate].
  pose proof (loop_measure mgr w l w1 (AI_reach _ _ R) H2 E). specialize (IH w1 (reachable_step _ _ _ _ R E) w' H3 H). lia.
Qed.
