(** Waiters that are never woken, pipelines that stay listed, suspension. *)
From Verif Require Import Py WorldModel WorldSpec WorldProofs WorldWait WorldStep WorldLive.


(** [calm t e w w']: waiter [t] was not woken, and [e] stayed in the list of
    running pipelines. *)
Record calm (t e : nat) (w w' : world) : Prop := {
  c_wt : w_wt w' t = w_wt w t;
  c_nw : w_nw w <= w_nw w';
  c_fut : forall p, p_future (w_pl w' p) = Some t -> p_future (w_pl w p) = Some t;
  c_over : forall i, i < w_ni w -> over (w_item w i) -> over (w_item w' i);
  c_ni : w_ni w <= w_ni w';
  c_run : In e (w_running w) -> In e (w_running w') }.
Lemma calm_refl t e w : calm t e w w. Proof. constructor; auto. Qed.
Lemma calm_trans t e a b c : calm t e a b -> calm t e b c -> calm t e a c.
Proof.
  intros A B. constructor.
  - rewrite (c_wt _ _ _ _ B). apply A.
  - destruct A, B. lia.
  - intros p H. apply A. now apply B.
  - intros i Hi H. apply B; [pose proof (c_ni _ _ _ _ A); lia|]. now apply A.
  - destruct A, B. lia.
  - intros H. apply B. now apply A.
Qed.
Lemma calm_same t e w w' : w_wt w' = w_wt w -> w_nw w' = w_nw w -> w_pl w' = w_pl w -> w_ni w' = w_ni w -> w_running w' = w_running w ->
  (forall i, i_task (w_item w' i) = i_task (w_item w i)) -> calm t e w w'.
Proof.
  intros A B C D E F. constructor; rewrite ?A, ?B, ?C, ?D, ?E; auto. intros i _. unfold over. now rewrite F.
Qed.
Lemma calm_kch t e w w' : kch w w' -> calm t e w w'.
Proof. intros K. apply calm_same; try apply K. Qed.
Lemma calm_set_pl t e w p x : (p_future x = Some t -> p_future (w_pl w p) = Some t) -> calm t e w (set_pl w p x).
Proof.
  intros H. constructor; cbn; auto. intros q. unfold upd. destruct (Nat.eqb_spec p q) as [<-|]; auto.
Qed.
Lemma calm_set_wt t e w t' x : t' <> t -> calm t e w (set_wt w t' x).
Proof. intros H. constructor; cbn; auto. now rewrite upd_other by congruence. Qed.
Lemma calm_set_item t e w i x : (over (w_item w i) -> over x) -> calm t e w (set_item w i x).
Proof. intros H. constructor; cbn; auto. intros j _. unfold upd. destruct (Nat.eqb_spec i j) as [<-|]; auto. Qed.
Lemma calm_wake t e w p : p_future (w_pl w p) <> Some t -> calm t e w (wake w p).
Proof.
  intros H. unfold wake. destruct (p_future (w_pl w p)) as [t'|] eqn:E; [|apply calm_refl].
  eapply calm_trans; [|apply calm_set_wt; congruence]. apply calm_set_pl. discriminate.
Qed.
Lemma calm_hf t e w p : NoDup (w_running w) -> p_future (w_pl w p) <> Some t -> p <> e -> calm t e w (handle_finish w p).
Proof.
  intros Hn H He. unfold handle_finish. destruct (_ && _); [|now apply calm_wake].
  destruct (p_bad (w_pl w p)); [apply calm_set_pl; auto|].
  set (w1 := set_pl w p _). assert (C1 : calm t e w w1) by (apply calm_set_pl; auto).
  assert (C2 : calm t e w1 (set_running w1 (remove_first (w_running w1) p))).
  { constructor; cbn; auto. intros X. apply remove_first_In; auto. }
  eapply calm_trans; [exact C1|]. eapply calm_trans; [exact C2|]. apply calm_wake. cbn. rewrite upd_same. exact H.
Qed.
Lemma signals_running s l : forall w, w_running (fold_left (signal_item s) l w) = w_running w.
Proof.
  induction l as [|i l IH]; intros w0; cbn; [reflexivity|]. rewrite IH. unfold signal_item. destruct (i_kind (w_item w0 i)); reflexivity.
Qed.
Lemma calm_signals t e w s p b : calm t e w (fold_left (signal_item s) (p_items (w_pl w p)) (set_susp w p b)).
Proof.
  assert (C0 : calm t e w (set_susp w p b)) by (apply calm_set_pl; auto). eapply calm_trans; [exact C0|].
  destruct (signals_same s (p_items (w_pl w p)) (set_susp w p b)) as [A [B [C [D E]]]].
  pose proof (frame_signals s (p_items (w_pl w p)) (set_susp w p b)) as F.
  apply calm_same; auto; [apply F| |intros i; now rewrite D].
  apply signals_running.
Qed.
Lemma calm_stop_event t e w : (forall p, w_current w = Some p -> p_future (w_pl w p) <> Some t) -> calm t e w (stop_event w).
Proof.
  intros H. unfold stop_event. destruct (w_current w) as [p|]; [|apply calm_refl]. specialize (H p eq_refl).
  assert (G : calm t e w (set_pl w p (mkP (p_items (w_pl w p)) None true (p_finished (w_pl w p)) (p_inter (w_pl w p)) (p_bad (w_pl w p)) (p_cleaned (w_pl w p)))))
    by (apply calm_set_pl; discriminate).
  destruct (p_future (w_pl w p)) as [t'|]; [|exact G]. eapply calm_trans; [exact G|]. apply calm_set_wt. congruence.
Qed.
Definition hf_free (t e : nat) (w : world) : Prop :=
  forall i, i < w_ni w -> i_task (w_item w i) = TNew \/ i_task (w_item w i) = TWait -> p_future (w_pl w (i_pl (w_item w i))) <> Some t /\ i_pl (w_item w i) <> e.
Lemma calm_wait_loop t e w t' : BI w -> t' <> t -> t' < w_nw w -> wt_phase (w_wt w t') = WReady -> hf_free t e w -> calm t e w (wait_loop w t').
Proof.
  intros B Hn Ht Hph HF. unfold wait_loop.
  destruct (negb _ && _).
  - eapply calm_trans; [apply (calm_set_pl t e w (wt_pl (w_wt w t')))|apply calm_set_wt; exact Hn]. cbn. congruence.
  - set (rr := if p_susp _ then _ else _).
    assert (G : calm t e w (fst rr) /\ w_item (fst rr) = w_item w /\ (forall p, p_future (w_pl (fst rr) p) = p_future (w_pl w p)) /\ w_running (fst rr) = w_running w).
    { unfold rr. destruct (p_susp _); [|destruct (pl_failed _ _); cbn; repeat split; auto; apply calm_refl]. cbn [fst].
      split; [apply calm_signals|]. unfold pl_suspend. destruct (signals_same SIGSTOP (p_items (w_pl w (wt_pl (w_wt w t')))) (set_susp w (wt_pl (w_wt w t')) true)) as [E1 [E2 [E3 [E4 E5]]]].
      split; [exact E4|]. split; [|].
      - intros p. rewrite E3. cbn. unfold upd. destruct (Nat.eqb_spec (wt_pl (w_wt w t')) p) as [<-|]; reflexivity.
      - now rewrite signals_running. }
    destruct rr as [w1 r]. cbn [fst] in G. destruct G as [G1 [G2 [G3 G4]]].
    set (w2 := set_wt (set_current w1 None) t' _).
    assert (C2 : calm t e w w2).
    { eapply calm_trans; [exact G1|]. eapply calm_trans; [|apply calm_set_wt; exact Hn]. apply calm_same; auto. }
    destruct (wt_owner (w_wt w t')) as [i|] eqn:Eo; [|exact C2].
    destruct (b_own _ B t' i Ht Eo) as [Hi [Hk Htk]]. rewrite Hph in Htk.
    assert (I2 : w_item w2 i = w_item w i) by (unfold w2; cbn; now rewrite G2).
    assert (X : forall tk, calm t e w2 (set_item w2 i (mkI (i_kind (w_item w2 i)) (i_pl (w_item w2 i)) (i_last (w_item w2 i)) (i_done (w_item w2 i)) tk (i_seen (w_item w2 i))))).
    { intros tk. apply calm_set_item. rewrite I2. unfold over. intros [Y|Y]; congruence. }
    destruct (HF i Hi (or_intror Htk)) as [Y1 Y2].
    destruct r; [|eapply calm_trans; [exact C2|apply X]..].
    eapply calm_trans; [exact C2|]. eapply calm_trans; [apply X|]. apply calm_hf.
    + cbn. rewrite G4. apply (b_rnd _ B).
    + cbn -[w2]. rewrite I2. change (w_pl w2) with (w_pl w1). now rewrite G3.
    + now rewrite I2.
Qed.
Lemma calm_wait_begin t e w p o : KI w -> BI w -> t <> w_nw w -> p < w_np w ->
  (forall i, o = Some i -> i < w_ni w /\ i_kind (w_item w i) = KFg p /\ i_task (w_item w i) = TWait /\ forall t, t < w_nw w -> wt_owner (w_wt w t) <> Some i) ->
  hf_free t e w -> calm t e w (wait_begin w p o).
Proof.
  intros K B Ht Hp Ho HF. destruct (wait_begin_pre w p o K B Hp Ho) as [K3 [B3 [W3 [N3 [F3 J3]]]]].
  unfold wait_begin. set (w1 := set_wts _ _ _) in *. set (w2 := if p_inter (w_pl w1 p) then _ else _) in *. set (w3 := pl_restart w2 p) in *.
  assert (C1 : calm t e w w1).
  { constructor; cbn; auto; try lia. now rewrite upd_other by congruence. }
  assert (C2 : calm t e w1 w2) by (unfold w2; destruct (p_inter _); [apply calm_same; auto|apply calm_refl]).
  assert (C3 : calm t e w2 w3) by apply calm_signals.
  assert (C : calm t e w w3) by (eapply calm_trans; [exact C1|eapply calm_trans; [exact C2|exact C3]]).
  assert (I3 : w_item w3 = w_item w).
  { unfold w3, pl_restart. destruct (signals_same SIGCONT (p_items (w_pl w2 p)) (set_susp w2 p false)) as [_ [_ [_ [-> _]]]].
    unfold w2. destruct (p_inter _); reflexivity. }
  assert (E : w_wt w3 (w_nw w) = mkW p WReady o) by (rewrite W3; cbn; now rewrite upd_same).
  eapply calm_trans; [exact C|]. apply calm_wait_loop; auto; try lia; [now rewrite E|].
  intros i Hi. rewrite (f_ni _ _ F3) in Hi. rewrite I3. intros X. destruct (HF i Hi X) as [Y1 Y2]. split; [|exact Y2].
  intros Z. apply Y1. now apply (c_fut _ _ _ _ C).
Qed.
Lemma calm_step_gen mgr t e w l w' : AI w -> (t < w_nw w /\ wt_phase (w_wt w t) <> WReady) \/ w_nw w < t -> hf_free t e w ->
  no_tstp mgr l \/ (forall p, w_current w = Some p -> p_future (w_pl w p) <> Some t) ->
  step mgr w l = Some w' -> calm t e w w'.
Proof.
  intros [K B J] Hph HF NT H. assert (Hne : t <> w_nw w) by (destruct Hph as [[? _]|?]; lia). destruct l as [pid ev| |pid| |sender|i fl|i|t'|ss inter bad|p|p|p]; cbn [step] in H.
  - destruct (w_kern w pid); try discriminate. destruct (valid_event ev); [|discriminate]. injection H as <-. now apply calm_same.
  - destruct (_ && _); [|discriminate]. injection H as <-. now apply calm_same.
  - destruct (w_reaping w); [|discriminate].
    destruct (w_kern w pid) as [|i [ev|]|i ev] eqn:Ek; try discriminate; injection H as <-; apply calm_kch; apply kch_reap; auto; now rewrite Ek.
  - destruct (_ && _); [|discriminate]. injection H as <-. now apply calm_same.
  - destruct (w_reaping w); [discriminate|]. destruct mgr; injection H as <-; [|now apply calm_same].
    destruct NT as [NT|NT]; [discriminate NT|]. rewrite dispatch_tstp by (try apply K; reflexivity). cbn [ssi_pid].
    pose proof (calm_stop_event t e w NT) as C. destruct (rfind (w_reg w) (HPid sender)) as [i|] eqn:Er; [|exact C].
    eapply calm_trans; [exact C|]. apply calm_kch, kch_proc_event.
    destruct (f_item _ _ (frame_stop_event w) i) as [_ [_ [_ [-> _]]]]. apply rfind_In in Er. now apply (k_regitem _ K) in Er.
  - destruct (w_reaping w); [discriminate|]. destruct (i_kind (w_item w i)) eqn:Ekd; try discriminate.
    destruct (i_done (w_item w i)) eqn:Ed; [discriminate|]. destruct (i <? w_ni w); [|discriminate]. injection H as <-.
    apply calm_set_item. unfold over. auto.
  - destruct (w_reaping w); [discriminate|]. destruct (Nat.ltb_spec i (w_ni w)) as [Hi|]; [|discriminate].
    assert (G : forall x, i_task (w_item w i) = TWait \/ i_task (w_item w i) = TNew -> calm t e w (set_item w i x)).
    { intros x Y. apply calm_set_item. unfold over. intros [Z|Z]; destruct Y; congruence. }
    destruct (i_task (w_item w i)) eqn:Et; destruct (i_kind (w_item w i)) as [pid| |q] eqn:Ekd; try discriminate;
      try (destruct (i_done (w_item w i)) as [[|]|] eqn:Ed; try discriminate); injection H as <-; auto.
    1-3: rewrite <- Ekd; set (x := mkI _ _ _ _ _ _); set (w1 := set_item w i x);
      assert (B1 : BI w1) by (unfold w1, x; rewrite <- Ed; eapply BI_fg_item; eauto; [discriminate|]; intros t0 Ht0 Ho0; destruct (wt_phase (w_wt w t0)); auto);
      assert (F1 : frame w w1) by (apply frame_set_item; repeat split; cbn; congruence);
      assert (K1 : KI w1) by (eapply KI_frame; eauto);
      assert (Hq : q < w_np w1) by (pose proof (b_fg _ B i q Hi Ekd); pose proof (b_ipl _ B i Hi) as [Y _]; rewrite (f_np _ _ F1); lia);
      eapply calm_trans; [apply (G x); auto|]; apply calm_wait_begin; auto;
      [intros j Y; injection Y as <-; unfold w1; cbn; rewrite upd_same; cbn; split; [exact Hi|]; split; [exact Ekd|]; split; [reflexivity|]; intros t0 Ht0; now apply (b_new _ B)
      |intros j Hj; unfold w1; cbn; unfold upd; destruct (Nat.eqb_spec i j) as [Eij|]; [intros _; cbn; subst j; apply HF; [exact Hi|]; rewrite Et; auto|apply HF; exact Hj]].
    all: eapply calm_trans; [apply G; auto|]; destruct (HF i Hi ltac:(rewrite Et; auto)) as [Y1 Y2]; apply calm_hf; [apply (b_rnd _ B)|exact Y1|exact Y2].
  - destruct (w_reaping w); [discriminate|]. destruct (Nat.ltb_spec t' (w_nw w)) as [Ht'|]; [|discriminate].
    destruct (wt_phase (w_wt w t')) eqn:Eph; try discriminate. injection H as <-. apply calm_wait_loop; auto. destruct Hph as [[_ Hph]|Hph]; [congruence|lia].
  - destruct (w_reaping w); [discriminate|]. destruct (startable w [] ss) eqn:Es; [|discriminate]. injection H as <-.
    pose proof (start_started w ss inter bad B) as S. constructor.
    + now rewrite (s_wt _ _ _ _ S).
    + rewrite (s_nw _ _ _ _ S). lia.
    + intros p Y. destruct (Nat.eq_dec p (w_np w)) as [->|Hn]; [|now rewrite (s_pl _ _ _ _ S) in Y by exact Hn].
      destruct (s_this _ _ _ _ S) as [fin [it [E _]]]. rewrite E in Y. discriminate.
    + intros i Hi. now rewrite (s_old _ _ _ _ S).
    + rewrite (s_ni _ _ _ _ S). lia.
    + rewrite (s_run _ _ _ _ S). intros Y. apply in_or_app. auto.
  - destruct (w_reaping w); [discriminate|]. destruct (Nat.ltb_spec p (w_np w)) as [Hp|]; [|discriminate]. injection H as <-.
    apply calm_wait_begin; auto. discriminate.
  - destruct (w_reaping w); [discriminate|]. destruct (p <? w_np w); [|discriminate]. injection H as <-. apply calm_signals.
  - destruct (w_reaping w); [discriminate|]. destruct (p <? w_np w); [|discriminate]. injection H as <-. apply calm_signals.
Qed.

Lemma calm_step mgr t e w l w' : AI w -> (t < w_nw w /\ wt_phase (w_wt w t) = WWait) \/ w_nw w < t -> hf_free t e w ->
  no_tstp mgr l \/ (forall p, w_current w = Some p -> p_future (w_pl w p) <> Some t) ->
  step mgr w l = Some w' -> calm t e w w'.
Proof. intros A H. eapply calm_step_gen; [exact A|]. destruct H as [[H1 H2]|H]; [left; split; [exact H1|congruence]|now right]. Qed.

(** ** Forever *)
Lemma hf_free_np t w : BI w -> (forall p, p_future (w_pl w p) <> Some t) -> hf_free t (w_np w) w.
Proof. intros B H i Hi _. split; [apply H|]. pose proof (b_ipl _ B i Hi). lia. Qed.
Theorem stuck_forever mgr : forall ls w w' t, AI w -> t < w_nw w -> wt_phase (w_wt w t) = WWait ->
  (forall p, p_future (w_pl w p) <> Some t) -> steps mgr w ls = Some w' -> wt_phase (w_wt w' t) = WWait.
Proof.
  induction ls as [|l ls IH]; intros w w' t A Ht Hp Hf H; cbn in H; [injection H as <-; exact Hp|].
  destruct (step mgr w l) as [w1|] eqn:E; [|discriminate].
  assert (C : calm t (w_np w) w w1).
  { eapply calm_step; eauto. apply hf_free_np; [apply A|exact Hf]. }
  apply (IH w1 w' t); auto.
  - eapply AI_step; eauto.
  - pose proof (c_nw _ _ _ _ C). lia.
  - now rewrite (c_wt _ _ _ _ C).
  - intros p X. apply (Hf p). now apply (c_fut _ _ _ _ C).
Qed.
Lemma hf_free_over t w : BI w -> tasks_over w (wt_pl (w_wt w t)) -> hf_free t (w_np w) w.
Proof.
  intros B H i Hi X. pose proof (b_ipl _ B i Hi) as [Y1 Y2]. split; [|lia].
  intros Z. destruct (b_fut _ B _ _ Z) as [_ [W _]]. rewrite W in H. specialize (H i Y2). destruct H, X; congruence.
Qed.
Lemma step_mono mgr w l w' : AI w -> step mgr w l = Some w' -> mono w w' /\ w_ni w <= w_ni w' /\ w_np w <= w_np w' /\ w_nw w <= w_nw w'.
Proof.
  intros [K B J] H.
  assert (GF : forall w', frame w w' -> mono w w' /\ w_ni w <= w_ni w' /\ w_np w <= w_np w' /\ w_nw w <= w_nw w').
  { intros w0 F. split; [now apply mono_frame|]. rewrite (f_ni _ _ F), (f_np _ _ F). pose proof (f_nw _ _ F). lia. }
  assert (GK : forall w', kch w w' -> mono w w' /\ w_ni w <= w_ni w' /\ w_np w <= w_np w' /\ w_nw w <= w_nw w').
  { intros w0 F. split; [now apply mono_kch|]. rewrite (kc_ni _ _ F), (kc_np _ _ F), (kc_nw _ _ F). lia. }
  destruct l as [pid ev| |pid| |sender|i fl|i|t'|ss inter bad|q|q|q]; cbn [step] in H.
  - destruct (w_kern w pid); try discriminate. destruct (valid_event ev); [|discriminate]. injection H as <-. apply GK. constructor; cbn; auto.
  - destruct (_ && _); [|discriminate]. injection H as <-. apply GK. constructor; cbn; auto.
  - destruct (w_reaping w); [|discriminate].
    destruct (w_kern w pid) as [|i [ev|]|i ev] eqn:Ek; try discriminate; injection H as <-; apply GK; apply kch_reap; auto; now rewrite Ek.
  - destruct (_ && _); [|discriminate]. injection H as <-. apply GK. constructor; cbn; auto.
  - destruct (w_reaping w); [discriminate|]. destruct mgr; injection H as <-; [|apply GK; constructor; cbn; auto].
    rewrite dispatch_tstp by (try apply K; reflexivity). pose proof (frame_stop_event w) as F. cbn [ssi_pid].
    destruct (rfind (w_reg w) (HPid sender)) as [i|] eqn:Er; [|now apply GF].
    assert (C : kch (stop_event w) (proc_event (stop_event w) i (mkSI SIGTSTP sender 0 0))).
    { apply kch_proc_event. destruct (f_item _ _ F i) as [_ [_ [_ [-> _]]]]. apply rfind_In in Er. now apply (k_regitem _ K) in Er. }
    destruct (GF _ F) as [M [L1 [L2 L3]]]. split; [eapply mono_trans; [exact M|apply mono_kch; exact C|lia|lia]|].
    rewrite (kc_ni _ _ C), (kc_np _ _ C), (kc_nw _ _ C). lia.
  - destruct (w_reaping w); [discriminate|]. destruct (i_kind (w_item w i)) eqn:Ekd; try discriminate.
    destruct (i_done (w_item w i)) eqn:Ed; [discriminate|]. destruct (i <? w_ni w); [|discriminate]. injection H as <-.
    apply GK. constructor; cbn; auto.
    + intros j. unfold upd. destruct (Nat.eqb_spec i j) as [<-|]; auto.
    + intros j b X. unfold upd. destruct (Nat.eqb_spec i j) as [<-|]; [congruence|exact X].
  - destruct (w_reaping w); [discriminate|]. destruct (i <? w_ni w); [|discriminate].
    destruct (i_task (w_item w i)); destruct (i_kind (w_item w i)) eqn:Ekd; try discriminate; try (destruct (i_done (w_item w i)) as [[|]|] eqn:Ed; try discriminate);
      injection H as <-; apply GF; try (eapply frame_trans; [|apply frame_hf || apply frame_wait_begin]); apply frame_set_item; repeat split; cbn; congruence.
  - destruct (w_reaping w); [discriminate|]. destruct (t' <? w_nw w); [|discriminate].
    destruct (wt_phase (w_wt w t')); try discriminate. injection H as <-. apply GF, frame_wait_loop.
  - destruct (w_reaping w); [discriminate|]. destruct (startable w [] ss) eqn:Es; [|discriminate]. injection H as <-.
    pose proof (start_started w ss inter bad B) as S. split; [eapply started_mono; eauto|].
    rewrite (s_ni _ _ _ _ S), (s_np _ _ _ _ S), (s_nw _ _ _ _ S). lia.
  - destruct (w_reaping w); [discriminate|]. destruct (q <? w_np w); [|discriminate]. injection H as <-. apply GF, frame_wait_begin.
  - destruct (w_reaping w); [discriminate|]. destruct (q <? w_np w); [|discriminate]. injection H as <-. apply GF, frame_suspend.
  - destruct (w_reaping w); [discriminate|]. destruct (q <? w_np w); [|discriminate]. injection H as <-. apply GF, frame_restart.
Qed.
Lemma steps_mono mgr : forall ls w w', AI w -> steps mgr w ls = Some w' -> mono w w' /\ w_ni w <= w_ni w' /\ w_np w <= w_np w' /\ w_nw w <= w_nw w'.
Proof.
  induction ls as [|l ls IH]; intros w w' A H; cbn in H.
  - injection H as <-. split; [apply mono_frame, frame_refl|lia].
  - destruct (step mgr w l) as [w1|] eqn:E; [|discriminate]. destruct (step_mono _ _ _ _ A E) as [M1 L1].
    destruct (IH w1 w' (AI_step _ _ _ _ A E) H) as [M2 L2]. split; [eapply mono_trans; eauto; lia|lia].
Qed.
Lemma tasks_over_step mgr t e w l w' p : AI w -> p < w_np w -> step mgr w l = Some w' -> calm t e w w' -> tasks_over w p -> tasks_over w' p.
Proof.
  intros A Hp H C X i Hi. destruct (step_mono _ _ _ _ A H) as [M _]. rewrite (m_items _ _ M p Hp) in Hi.
  apply (c_over _ _ _ _ C); [now apply (b_items _ (a_b _ A)) in Hi|now apply X].
Qed.
Theorem over_forever mgr : forall ls w w' t, AI w -> t < w_nw w -> wt_phase (w_wt w t) = WWait ->
  tasks_over w (wt_pl (w_wt w t)) -> Forall (no_tstp mgr) ls -> steps mgr w ls = Some w' -> wt_phase (w_wt w' t) = WWait.
Proof.
  induction ls as [|l ls IH]; intros w w' t A Ht Hp Ho Hn H; cbn in H; [injection H as <-; exact Hp|].
  destruct (step mgr w l) as [w1|] eqn:E; [|discriminate]. inversion Hn; subst.
  assert (C : calm t (w_np w) w w1).
  { eapply calm_step; eauto. apply hf_free_over; [apply A|exact Ho]. }
  apply (IH w1 w' t); auto.
  - eapply AI_step; eauto.
  - pose proof (c_nw _ _ _ _ C). lia.
  - now rewrite (c_wt _ _ _ _ C).
  - rewrite (c_wt _ _ _ _ C). eapply tasks_over_step; eauto. apply (b_wt _ (a_b _ A) t Ht).
Qed.
Theorem empty_forever mgr : forall ls w w' p, AI w -> p < w_np w -> p_items (w_pl w p) = [] -> In p (w_running w) ->
  steps mgr w ls = Some w' -> In p (w_running w').
Proof.
  induction ls as [|l ls IH]; intros w w' p A Hp Hi Hr H; cbn in H; [now injection H as <-|].
  destruct (step mgr w l) as [w1|] eqn:E; [|discriminate].
  assert (C : calm (S (w_nw w)) p w w1).
  { eapply calm_step; eauto.
    - intros i Li X. split; [|intros Y].
      + intros Z. destruct (b_fut _ (a_b _ A) _ _ Z) as [W _]. lia.
      + pose proof (b_ipl _ (a_b _ A) i Li) as [_ Z]. rewrite Y, Hi in Z. destruct Z.
    - right. intros q _ Z. destruct (b_fut _ (a_b _ A) _ _ Z) as [W _]. lia. }
  destruct (step_mono _ _ _ _ A E) as [M L]. apply (IH w1 w' p); auto.
  - eapply AI_step; eauto.
  - lia.
  - now rewrite (m_items _ _ M p Hp).
  - now apply (c_run _ _ _ _ C).
Qed.

(** ** The shell alone: nobody starts or waits for anything *)
Lemma wake_cur w p : w_current (wake w p) = w_current w /\ w_item (wake w p) = w_item w.
Proof. unfold wake. destruct (p_future _); auto. Qed.
Lemma hf_cur w p : w_current (handle_finish w p) = w_current w /\ w_item (handle_finish w p) = w_item w.
Proof.
  unfold handle_finish. destruct (_ && _); [|apply wake_cur]. destruct (p_bad _); [auto|].
  match goal with |- w_current (wake ?w1 p) = _ /\ _ => destruct (wake_cur w1 p) as [-> ->] end. auto.
Qed.
Lemma idle_set w i x : w_current w = None -> no_new w -> i_task x <> TNew -> w_current (set_item w i x) = None /\ no_new (set_item w i x).
Proof. intros A B C. split; [exact A|]. intros j Hj. cbn. unfold upd. destruct (Nat.eqb_spec i j) as [<-|]; [exact C|]. now apply B. Qed.
Lemma idle_same w w' : w_current w = None -> no_new w -> w_current w' = w_current w -> w_ni w' = w_ni w -> w_item w' = w_item w -> w_current w' = None /\ no_new w'.
Proof. intros A B C D E. split; [congruence|]. intros i. rewrite D, E. apply B. Qed.
Lemma idle_step mgr w l w' : AI w -> w_current w = None -> no_new w -> ~ user_label l -> step mgr w l = Some w' -> w_current w' = None /\ no_new w'.
Proof.
  intros [K B J] Hc Hn Hu H. destruct l as [pid ev| |pid| |sender|i fl|i|t'|ss inter bad|q|q|q]; cbn [step] in H; try (exfalso; apply Hu; exact Logic.I).
  - destruct (w_kern w pid); try discriminate. destruct (valid_event ev); [|discriminate]. injection H as <-. now apply (idle_same w).
  - destruct (_ && _); [|discriminate]. injection H as <-. now apply (idle_same w).
  - destruct (w_reaping w); [|discriminate].
    destruct (w_kern w pid) as [|i [ev|]|i ev] eqn:Ek; try discriminate; injection H as <-.
    + assert (C : kch w (dispatch (set_hist (set_kern w (updN (w_kern w) pid (KAlive i None))) (upd (w_hist w) i (w_hist w i ++ [ev]))) (sigchld_info pid (status_word ev)))) by (apply kch_reap; auto; now rewrite Ek).
      split; [rewrite (kc_current _ _ C); exact Hc|]. intros j. rewrite (kc_ni _ _ C). destruct (kc_item _ _ C j) as [_ [_ ->]]. apply Hn.
    + assert (C : kch w (dispatch (set_hist (set_kern w (updN (w_kern w) pid KFree)) (upd (w_hist w) i (w_hist w i ++ [ev]))) (sigchld_info pid (status_word ev)))) by (apply kch_reap; auto; now rewrite Ek).
      split; [rewrite (kc_current _ _ C); exact Hc|]. intros j. rewrite (kc_ni _ _ C). destruct (kc_item _ _ C j) as [_ [_ ->]]. apply Hn.
  - destruct (_ && _); [|discriminate]. injection H as <-. now apply (idle_same w).
  - destruct (w_reaping w); [discriminate|]. destruct mgr; injection H as <-; [|now apply (idle_same w)].
    rewrite dispatch_tstp by (try apply K; reflexivity). assert (E : stop_event w = w) by (unfold stop_event; now rewrite Hc). rewrite E.
    cbn [ssi_pid]. destruct (rfind (w_reg w) (HPid sender)) as [i|] eqn:Er; [|auto].
    assert (C : kch w (proc_event w i (mkSI SIGTSTP sender 0 0))).
    { apply kch_proc_event. apply rfind_In in Er. now apply (k_regitem _ K) in Er. }
    split; [rewrite (kc_current _ _ C); exact Hc|]. intros j. rewrite (kc_ni _ _ C). destruct (kc_item _ _ C j) as [_ [_ ->]]. apply Hn.
  - destruct (w_reaping w); [discriminate|]. destruct (i_kind (w_item w i)) eqn:Ekd; try discriminate.
    destruct (i_done (w_item w i)) eqn:Ed; [discriminate|]. destruct (Nat.ltb_spec i (w_ni w)) as [Hi|]; [|discriminate]. injection H as <-.
    apply idle_set; auto; cbn. now apply Hn.
  - destruct (w_reaping w); [discriminate|]. destruct (Nat.ltb_spec i (w_ni w)) as [Hi|]; [|discriminate].
    specialize (Hn i Hi) as Hni.
    destruct (i_task (w_item w i)); destruct (i_kind (w_item w i)) eqn:Ekd; try discriminate; try congruence; try (destruct (i_done (w_item w i)) as [[|]|] eqn:Ed; try discriminate);
      injection H as <-; try (apply idle_set; auto; discriminate).
    all: match goal with |- w_current (handle_finish ?w1 ?q) = None /\ _ => destruct (hf_cur w1 q) as [E1 E2]; pose proof (f_ni _ _ (frame_hf w1 q)) as E3; apply (idle_same w1); auto end.
    all: apply idle_set; auto; discriminate.
  - destruct (w_reaping w); [discriminate|]. destruct (t' <? w_nw w); [|discriminate].
    destruct (wt_phase (w_wt w t')); try discriminate. injection H as <-. unfold wait_loop. destruct (negb _ && _); [now apply (idle_same w)|].
    set (rr := if p_susp _ then _ else _).
    assert (G : w_item (fst rr) = w_item w /\ w_ni (fst rr) = w_ni w).
    { unfold rr. destruct (p_susp _); [|destruct (pl_failed _ _); auto]. cbn [fst]. split; [|apply frame_suspend].
      unfold pl_suspend. now destruct (signals_same SIGSTOP (p_items (w_pl w (wt_pl (w_wt w t')))) (set_susp w (wt_pl (w_wt w t')) true)) as [_ [_ [_ [-> _]]]]. }
    destruct rr as [w1 r]. cbn [fst] in G. destruct G as [G1 G2]. set (w2 := set_wt (set_current w1 None) t' _).
    assert (I2 : w_current w2 = None /\ no_new w2).
    { split; [reflexivity|]. intros j. unfold w2. cbn. rewrite G1, G2. apply Hn. }
    destruct I2 as [I2 N2]. destruct (wt_owner (w_wt w t')) as [i|]; [|auto].
    destruct r; try (apply idle_set; auto; discriminate).
    match goal with |- w_current (handle_finish ?w1 ?q) = None /\ _ => destruct (hf_cur w1 q) as [E1 E2]; pose proof (f_ni _ _ (frame_hf w1 q)) as E3; apply (idle_same w1); auto end.
    all: apply idle_set; auto; discriminate.
Qed.
Theorem alone_forever mgr : forall ls w w' t, AI w -> w_current w = None -> no_new w -> t < w_nw w -> wt_phase (w_wt w t) = WWait ->
  tasks_over w (wt_pl (w_wt w t)) -> Forall (fun l => ~ user_label l) ls -> steps mgr w ls = Some w' -> wt_phase (w_wt w' t) = WWait.
Proof.
  induction ls as [|l ls IH]; intros w w' t A Hc Hnn Ht Hp Ho Hn H; cbn in H; [injection H as <-; exact Hp|].
  destruct (step mgr w l) as [w1|] eqn:E; [|discriminate]. inversion Hn; subst.
  assert (C : calm t (w_np w) w w1).
  { eapply calm_step; eauto; [apply hf_free_over; [apply A|exact Ho]|]. right. intros p X. congruence. }
  destruct (idle_step mgr w l w1 A Hc Hnn H2 E) as [I1 I2].
  apply (IH w1 w' t); auto.
  - eapply AI_step; eauto.
  - pose proof (c_nw _ _ _ _ C). lia.
  - now rewrite (c_wt _ _ _ _ C).
  - rewrite (c_wt _ _ _ _ C). eapply tasks_over_step; eauto. apply (b_wt _ (a_b _ A) t Ht).
Qed.

(** ** Suspension comes from CTRL-Z or suspend() only *)
Record nosusp (w w' : world) : Prop := {
  n_susp : forall p, p_susp (w_pl w p) = false -> p_susp (w_pl w' p) = false;
  n_wt : forall t, t < w_nw w -> wt_pl (w_wt w' t) = wt_pl (w_wt w t) /\
     (wt_phase (w_wt w' t) = WDone RSuspended -> wt_phase (w_wt w t) = WDone RSuspended \/ p_susp (w_pl w (wt_pl (w_wt w t))) = true);
  n_nw : w_nw w <= w_nw w' }.
Lemma nosusp_refl w : nosusp w w. Proof. constructor; auto. Qed.
Lemma nosusp_trans a b c : nosusp a b -> nosusp b c -> nosusp a c.
Proof.
  intros A B. pose proof (n_nw _ _ A). constructor.
  - intros p H1. now apply B, A.
  - intros t Ht. destruct (n_wt _ _ A t Ht) as [A1 A2]. destruct (n_wt _ _ B t) as [B1 B2]; [lia|]. split; [congruence|].
    intros X. destruct (B2 X) as [Y|Y]; [auto|]. right. rewrite A1 in Y. destruct (p_susp (w_pl a (wt_pl (w_wt a t)))) eqn:Es; [reflexivity|].
    apply A in Es. congruence.
  - destruct A, B. lia.
Qed.
Lemma nosusp_same w w' : w_pl w' = w_pl w -> w_wt w' = w_wt w -> w_nw w' = w_nw w -> nosusp w w'.
Proof. intros A B C. constructor; rewrite ?A, ?B, ?C; auto. Qed.
Lemma nosusp_set_pl w p x : (p_susp (w_pl w p) = false -> p_susp x = false) -> nosusp w (set_pl w p x).
Proof. intros H. constructor; cbn; auto. intros q. unfold upd. destruct (Nat.eqb_spec p q) as [<-|]; auto. Qed.
Lemma nosusp_set_wt w t x : wt_pl x = wt_pl (w_wt w t) -> (wt_phase x = WDone RSuspended -> wt_phase (w_wt w t) = WDone RSuspended \/ p_susp (w_pl w (wt_pl (w_wt w t))) = true) -> nosusp w (set_wt w t x).
Proof. intros H1 H2. constructor; cbn; auto. intros t' Ht. unfold upd. destruct (Nat.eqb_spec t t') as [<-|]; auto. Qed.
Lemma nosusp_wake w p : nosusp w (wake w p).
Proof.
  unfold wake. destruct (p_future (w_pl w p)) as [t'|] eqn:E; [|apply nosusp_refl].
  eapply nosusp_trans; [|apply nosusp_set_wt; [reflexivity|discriminate]]. apply nosusp_set_pl. auto.
Qed.
Lemma nosusp_hf w p : nosusp w (handle_finish w p).
Proof.
  unfold handle_finish. destruct (_ && _); [|apply nosusp_wake]. destruct (p_bad (w_pl w p)); [apply nosusp_set_pl; auto|].
  eapply nosusp_trans; [|apply nosusp_wake]. set (w1 := set_pl w p _). assert (C : nosusp w w1) by (apply nosusp_set_pl; auto).
  eapply nosusp_trans; [exact C|]. now apply nosusp_same.
Qed.
Lemma nosusp_signals w s p b : (p_susp (w_pl w p) = false -> b = false) -> nosusp w (fold_left (signal_item s) (p_items (w_pl w p)) (set_susp w p b)).
Proof.
  intros H. destruct (signals_same s (p_items (w_pl w p)) (set_susp w p b)) as [A [B [C [D E]]]].
  assert (C0 : nosusp w (set_susp w p b)) by (apply nosusp_set_pl; auto). eapply nosusp_trans; [exact C0|]. now apply nosusp_same.
Qed.
Lemma nosusp_wait_loop w t : nosusp w (wait_loop w t).
Proof.
  unfold wait_loop. destruct (p_susp (w_pl w (wt_pl (w_wt w t)))) eqn:Es; cbn [negb andb].
  - set (w2 := set_wt (set_current _ None) t _).
    assert (C2 : nosusp w w2).
    { assert (C1 : nosusp w (pl_suspend w (wt_pl (w_wt w t)))) by (apply nosusp_signals; congruence).
      constructor.
      - intros p H. apply (n_susp _ _ C1). exact H.
      - intros t' Ht. unfold w2. cbn. unfold upd. destruct (Nat.eqb_spec t t') as [<-|]; [cbn; auto|]. apply (n_wt _ _ C1 t' Ht).
      - apply (n_nw _ _ C1). }
    destruct (wt_owner (w_wt w t)); [|exact C2]. eapply nosusp_trans; [exact C2|]. apply nosusp_same; reflexivity.
  - destruct (pl_running w (wt_pl (w_wt w t))).
    + set (w1 := set_pl w _ _). assert (C : nosusp w w1) by (apply nosusp_set_pl; auto).
      eapply nosusp_trans; [exact C|]. apply nosusp_set_wt; [reflexivity|discriminate].
    + assert (G : forall r, r <> RSuspended -> nosusp w (set_wt (set_current w None) t (mkW (wt_pl (w_wt w t)) (WDone r) (wt_owner (w_wt w t))))).
      { intros r Hr. constructor; cbn; auto. intros t' Ht. unfold upd. destruct (Nat.eqb_spec t t') as [<-|]; [cbn; split; [reflexivity|congruence]|auto]. }
      destruct (pl_failed w (wt_pl (w_wt w t))); (destruct (wt_owner (w_wt w t)); [|apply G; discriminate]).
      * eapply nosusp_trans; [apply (G RFailed); discriminate|]. apply nosusp_same; reflexivity.
      * eapply nosusp_trans; [apply (G ROk); discriminate|]. eapply nosusp_trans; [|apply nosusp_hf]. apply nosusp_same; reflexivity.
Qed.
Lemma nosusp_wait_begin w p o : nosusp w (wait_begin w p o).
Proof.
  unfold wait_begin. set (w1 := set_wts _ _ _).
  assert (C1 : nosusp w w1).
  { constructor; cbn; auto. intros t Ht. rewrite upd_other by lia. auto. }
  eapply nosusp_trans; [|apply nosusp_wait_loop]. eapply nosusp_trans; [|apply nosusp_signals; auto].
  destruct (p_inter _); [|exact C1]. eapply nosusp_trans; [exact C1|]. apply nosusp_same; reflexivity.
Qed.
Definition unsuspending (mgr : manager) (l : label) : Prop :=
  match l with LTstp _ => mgr = Asyncio | LSuspend _ => False | _ => True end.
Lemma nosusp_step mgr w l w' : AI w -> unsuspending mgr l -> step mgr w l = Some w' -> nosusp w w'.
Proof.
  intros [K B J] Hu H. destruct l as [pid ev| |pid| |sender|i fl|i|t'|ss inter bad|q|q|q]; cbn [step] in H; cbn in Hu.
  - destruct (w_kern w pid); try discriminate. destruct (valid_event ev); [|discriminate]. injection H as <-. now apply nosusp_same.
  - destruct (_ && _); [|discriminate]. injection H as <-. now apply nosusp_same.
  - destruct (w_reaping w); [|discriminate].
    destruct (w_kern w pid) as [|i [ev|]|i ev] eqn:Ek; try discriminate; injection H as <-; apply nosusp_same; apply kch_reap; auto; now rewrite Ek.
  - destruct (_ && _); [|discriminate]. injection H as <-. now apply nosusp_same.
  - destruct (w_reaping w); [discriminate|]. subst mgr. injection H as <-. now apply nosusp_same.
  - destruct (w_reaping w); [discriminate|]. destruct (i_kind (w_item w i)) eqn:Ekd; try discriminate.
    destruct (i_done (w_item w i)) eqn:Ed; [discriminate|]. destruct (i <? w_ni w); [|discriminate]. injection H as <-. now apply nosusp_same.
  - destruct (w_reaping w); [discriminate|]. destruct (i <? w_ni w); [|discriminate].
    destruct (i_task (w_item w i)); destruct (i_kind (w_item w i)) eqn:Ekd; try discriminate; try (destruct (i_done (w_item w i)) as [[|]|] eqn:Ed; try discriminate);
      injection H as <-; try (now apply nosusp_same); (eapply nosusp_trans; [|apply nosusp_hf || apply nosusp_wait_begin]); now apply nosusp_same.
  - destruct (w_reaping w); [discriminate|]. destruct (t' <? w_nw w); [|discriminate].
    destruct (wt_phase (w_wt w t')); try discriminate. injection H as <-. apply nosusp_wait_loop.
  - destruct (w_reaping w); [discriminate|]. destruct (startable w [] ss) eqn:Es; [|discriminate]. injection H as <-.
    pose proof (start_started w ss inter bad B) as S. constructor.
    + intros p Y. destruct (Nat.eq_dec p (w_np w)) as [->|Hn]; [|now rewrite (s_pl _ _ _ _ S) by exact Hn].
      destruct (s_this _ _ _ _ S) as [fin [it [E _]]]. now rewrite E.
    + rewrite (s_wt _ _ _ _ S). auto.
    + rewrite (s_nw _ _ _ _ S). lia.
  - destruct (w_reaping w); [discriminate|]. destruct (q <? w_np w); [|discriminate]. injection H as <-. apply nosusp_wait_begin.
  - contradiction.
  - destruct (w_reaping w); [discriminate|]. destruct (q <? w_np w); [|discriminate]. injection H as <-. now apply nosusp_signals.
Qed.
Lemma nosusp_steps mgr : forall ls w w', AI w -> Forall (unsuspending mgr) ls -> steps mgr w ls = Some w' -> nosusp w w'.
Proof.
  induction ls as [|l ls IH]; intros w w' A Hf H; cbn in H.
  - injection H as <-. apply nosusp_refl.
  - destruct (step mgr w l) as [w1|] eqn:E; [|discriminate]. inversion Hf; subst.
    eapply nosusp_trans; [eapply nosusp_step; eauto|]. apply IH; auto. eapply AI_step; eauto.
Qed.
