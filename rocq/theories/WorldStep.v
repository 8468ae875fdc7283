(** Every step keeps the invariants of pipelines and waiters. *)
From Verif Require Import Py WorldModel WorldSpec WorldProofs WorldWait.

Lemma kch_refl w : kch w w.
Proof. constructor; auto. Qed.
Lemma kch_trans a b c : kch a b -> kch b c -> kch a c.
Proof.
  intros A B. constructor; try (destruct A, B; congruence).
  - intros i. destruct (kc_item _ _ A i) as [A1 [A2 A3]], (kc_item _ _ B i) as [B1 [B2 B3]]. repeat split; congruence.
  - intros i x H. apply (kc_done _ _ B). now apply (kc_done _ _ A).
  - intros i h e H T. rewrite (kc_hist _ _ B i h e); [|rewrite (kc_hist _ _ A i h e); auto|exact T]. eapply (kc_hist _ _ A); eauto.
Qed.
Lemma kch_proc_event w i e : i_done (w_item w i) = None -> kch w (proc_event w i e).
Proof.
  intros H. unfold proc_event.
  assert (G : forall dn, kch w (set_item w i (mkI (i_kind (w_item w i)) (i_pl (w_item w i)) (Some e) dn (i_task (w_item w i)) (i_seen (w_item w i) ++ [e])))).
  { intros dn. constructor; cbn; auto.
    - intros j. unfold upd. destruct (Nat.eqb_spec i j) as [<-|]; auto.
    - intros j b X. unfold upd. destruct (Nat.eqb_spec i j) as [<-|]; [congruence|exact X]. }
  destruct (N.eqb (ssi_code e) CLD_EXITED); [|apply G]. specialize (G (Some false)). revert G. generalize (set_item w i (mkI (i_kind (w_item w i)) (i_pl (w_item w i)) (Some e) (Some false) (i_task (w_item w i)) (i_seen (w_item w i) ++ [e]))).
  intros w1 G. destruct (i_kind (w_item w i)); auto. eapply kch_trans; [exact G|]. constructor; cbn; auto.
Qed.
Lemma kch_reap w pid i e c' : KI w -> owner (w_kern w pid) = Some i ->
  kch w (dispatch (set_hist (set_kern w (updN (w_kern w) pid c')) (upd (w_hist w) i (w_hist w i ++ [e]))) (sigchld_info pid (status_word e))).
Proof.
  intros K Ho. destruct (k_kern _ K _ _ Ho) as [Hin Hnt]. destruct (k_regitem _ K _ _ Hin) as [Hi [Hk Hd]].
  rewrite dispatch_chld; [|apply K|reflexivity]. cbn [w_reg set_hist set_kern ssi_pid sigchld_info].
  rewrite (In_rfind _ _ _ (regok_NoDup _ (k_reg _ K)) Hin).
  eapply kch_trans; [|apply kch_proc_event; exact Hd].
  constructor; cbn; auto.
  intros j h x X T. unfold upd. destruct (Nat.eqb_spec i j) as [<-|]; [|reflexivity]. exfalso. eapply nonterm_snoc_eq; eauto.
Qed.

Record AI (w : world) : Prop := { a_k : KI w; a_b : BI w; a_j : JI w }.
Lemma AI_init : AI w_init.
Proof. constructor; [apply KI_init|apply BI_init|]. intros p H. now destruct H. Qed.
Lemma AI_kch w w' : KI w' -> kch w w' -> AI w -> AI w'.
Proof. intros K C []. constructor; [exact K|eapply BI_kch; eauto|eapply JI_kch; eauto]. Qed.
Lemma AI_jrel w w' : KI w' -> BI w' -> jrel w w' -> AI w -> AI w'.
Proof. intros K B C []. constructor; [exact K|exact B|eapply JI_jrel; eauto]. Qed.

Lemma AI_fg_start w i q x : AI w -> i < w_ni w -> i_kind (w_item w i) = KFg q -> i_task (w_item w i) = TNew ->
  x = mkI (i_kind (w_item w i)) (i_pl (w_item w i)) (i_last (w_item w i)) (i_done (w_item w i)) TWait (i_seen (w_item w i)) ->
  AI (wait_begin (set_item w i x) q (Some i)).
Proof.
  intros [K B J] Hi Ekd Et ->. set (w1 := set_item w i _).
  assert (B1 : BI w1).
  { eapply BI_fg_item; eauto; [discriminate|]. intros t Ht Ho. destruct (wt_phase (w_wt w t)); auto. }
  assert (F1 : frame w w1) by (apply frame_set_item; repeat split).
  assert (J1 : jrel w w1) by (eapply jrel_fg_item; eauto).
  assert (K1 : KI w1) by (eapply KI_frame; eauto).
  assert (Hq : q < w_np w1).
  { pose proof (b_fg _ B i q Hi Ekd). pose proof (b_ipl _ B i Hi) as [X _]. rewrite (f_np _ _ F1). lia. }
  assert (Ho : forall j, Some i = Some j -> j < w_ni w1 /\ i_kind (w_item w1 j) = KFg q /\ i_task (w_item w1 j) = TWait /\ forall t, t < w_nw w1 -> wt_owner (w_wt w1 t) <> Some j).
  { intros j X. injection X as <-. unfold w1. cbn. rewrite upd_same. cbn. split; [exact Hi|]. split; [exact Ekd|]. split; [reflexivity|].
    intros t Ht. now apply (b_new _ B). }
  destruct (BI_wait_begin w1 q (Some i) K1 B1 Hq Ho) as [B2 J2].
  constructor; [|exact B2|eapply JI_jrel; [exact B|exact J|eapply jrel_trans; eauto]].
  eapply KI_frame; [apply frame_wait_begin|exact K1].
Qed.
Lemma AI_step mgr w l w' : AI w -> step mgr w l = Some w' -> AI w'.
Proof.
  intros A H. pose proof (KI_step _ _ _ _ (a_k _ A) H) as K'. destruct l as [pid e| |pid| |sender|i fl|i|t|ss inter bad|p|p|p]; cbn [step] in H.
  - destruct (w_kern w pid) as [|i pend|] eqn:Ek; try discriminate. destruct (valid_event e); [|discriminate]. injection H as <-.
    eapply AI_kch; eauto. constructor; cbn; auto.
  - destruct (w_chld w && negb (w_reaping w)); [|discriminate]. injection H as <-. eapply AI_kch; eauto. constructor; cbn; auto.
  - destruct (w_reaping w); [|discriminate]. destruct (w_kern w pid) as [|i [e|]|i e] eqn:Ek; try discriminate; injection H as <-;
      (eapply AI_kch; [exact K'| |exact A]); apply kch_reap; try apply A; now rewrite Ek.
  - destruct (w_reaping w && nothing_pending w); [|discriminate]. injection H as <-. eapply AI_kch; eauto. constructor; cbn; auto.
  - destruct (w_reaping w); [discriminate|]. destruct mgr; injection H as <-.
    + rewrite dispatch_tstp in * by (try apply A; reflexivity). cbn [ssi_pid] in *.
      assert (A1 : AI (stop_event w)).
      { eapply AI_jrel; [|apply BI_stop_event|apply jrel_stop_event|exact A]; try apply A. eapply KI_frame; [apply frame_stop_event|apply A]. }
      destruct (rfind (w_reg w) (HPid sender)) as [i|] eqn:Er; [|exact A1].
      eapply AI_kch; [exact K'| |exact A1]. apply kch_proc_event.
      destruct (f_item _ _ (frame_stop_event w) i) as [_ [_ [_ [-> _]]]]. apply rfind_In in Er. now apply (k_regitem _ (a_k _ A)) in Er.
    + eapply AI_kch; eauto. constructor; cbn; auto.
  - destruct (w_reaping w); [discriminate|]. destruct (i_kind (w_item w i)) eqn:Ekd; try discriminate.
    destruct (i_done (w_item w i)) eqn:Ed; [discriminate|]. destruct (i <? w_ni w); [|discriminate]. injection H as <-.
    eapply AI_kch; eauto. constructor; cbn; auto.
    + intros j. unfold upd. destruct (Nat.eqb_spec i j) as [<-|]; auto.
    + intros j b X. unfold upd. destruct (Nat.eqb_spec i j) as [<-|]; [congruence|exact X].
  - destruct (w_reaping w); [discriminate|]. destruct (Nat.ltb_spec i (w_ni w)) as [Hi|]; [|discriminate].
    destruct A as [K B J].
    destruct (i_task (w_item w i)) eqn:Et; destruct (i_kind (w_item w i)) as [pid| |q] eqn:Ekd; try discriminate;
      try (destruct (i_done (w_item w i)) as [[|]|] eqn:Ed; try discriminate).
    all: try (assert (Hn : forall q, i_kind (w_item w i) <> KFg q) by (intros q; congruence)).
    1-3: injection H as <-; apply AI_fg_start; auto; [constructor; auto|]; cbn; congruence.
    (* ended with an exception / normally *)
    all: injection H as <-.
    all: rewrite <- Ekd, <- Ed.
    all: try (pose proof (BI_task w i TDead B Hi Hn Ed) as B1; constructor; [rewrite Ekd, Ed; exact K'|exact B1|apply JI_dead; auto; congruence]).
    all: pose proof (BI_task w i TEnded B Hi Hn Ed) as B1; constructor; [rewrite Ekd, Ed; exact K'|apply BI_hf; [exact B1|cbn; apply (b_ipl _ B i Hi)]|now apply JI_ended].
  - destruct (w_reaping w); [discriminate|]. destruct (Nat.ltb_spec t (w_nw w)) as [Ht|]; [|discriminate].
    destruct (wt_phase (w_wt w t)) eqn:Eph; try discriminate. injection H as <-.
    eapply AI_jrel; [exact K'|apply BI_wait_loop; auto; apply A| |exact A]. apply jrel_wait_loop.
    intros i Ho. destruct (b_own _ (a_b _ A) t i Ht Ho) as [_ [X _]]. eauto.
  - destruct (w_reaping w); [discriminate|]. destruct (startable w [] ss) eqn:Es; [|discriminate]. injection H as <-.
    pose proof (start_started w ss inter bad (a_b _ A)) as S. constructor; [exact K'| |].
    + eapply BI_started; eauto; [apply A|]. intros q. eapply startable_fg; eauto.
    + eapply JI_started; eauto; apply A.
  - destruct (w_reaping w); [discriminate|]. destruct (Nat.ltb_spec p (w_np w)) as [Hp|]; [|discriminate]. injection H as <-.
    destruct (BI_wait_begin w p None (a_k _ A) (a_b _ A) Hp) as [X Y]; [discriminate|]. eapply AI_jrel; eauto.
  - destruct (w_reaping w); [discriminate|]. destruct (Nat.ltb_spec p (w_np w)) as [Hp|]; [|discriminate]. injection H as <-.
    eapply AI_jrel; [exact K'|apply BI_suspend; auto; apply A|apply jrel_suspend|exact A].
  - destruct (w_reaping w); [discriminate|]. destruct (Nat.ltb_spec p (w_np w)) as [Hp|]; [|discriminate]. injection H as <-.
    eapply AI_jrel; [exact K'|apply BI_restart; auto; apply A|apply jrel_restart|exact A].
Qed.
Lemma AI_steps mgr ls : forall w w', AI w -> steps mgr w ls = Some w' -> AI w'.
Proof.
  induction ls as [|l ls IH]; intros w w' K; cbn.
  - intros X. injection X as <-. exact K.
  - destruct (step mgr w l) as [w1|] eqn:E; [|discriminate]. apply IH. eapply AI_step; eauto.
Qed.
Lemma AI_reach mgr w : reachable mgr w -> AI w.
Proof. intros [ls H]. eapply AI_steps; [apply AI_init|exact H]. Qed.
Lemma steps_app mgr ls1 : forall w ls2, steps mgr w (ls1 ++ ls2) = match steps mgr w ls1 with Some w1 => steps mgr w1 ls2 | None => None end.
Proof. induction ls1 as [|l ls1 IH]; intros w ls2; cbn; [reflexivity|]. destruct (step mgr w l); auto. Qed.
Lemma reachable_steps mgr w ls w' : reachable mgr w -> steps mgr w ls = Some w' -> reachable mgr w'.
Proof. intros [ls0 H] H'. exists (ls0 ++ ls). now rewrite steps_app, H. Qed.
Lemma reachable_step mgr w l w' : reachable mgr w -> step mgr w l = Some w' -> reachable mgr w'.
Proof. intros H X. apply (reachable_steps mgr w [l] w' H). cbn. now rewrite X. Qed.
Lemma xreach_reachable mgr w : xreach mgr w -> reachable mgr w.
Proof. intros H. induction H; [now exists []|]. eapply reachable_step; eauto. Qed.
